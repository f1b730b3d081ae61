(** Properties C37 - C41: partition pruning, filters and query-engine predicates. *)
From Verif Require Import Base Str L_Str M_Utf8 M_Expr S_Expr L_Expr.
Local Open Scope string_scope.

(** A table partitioned by a region and a number; values are strings or naturals. *)
Inductive ex_type := TStr | TNum.
Inductive ex_value := VStr (s : string) | VNum (n : Z).
Definition ex_cast (t : ex_type) (s : string) : option ex_value :=
  match t with TStr => Some (VStr s) | TNum => option_map VNum (parse_u32 s) end.
Definition ex_cmp (a b : ex_value) : option comparison :=
  match a, b with
  | VStr x, VStr y => Some (scmp x y)
  | VNum x, VNum y => Some (Z.compare x y)
  | _, _ => None
  end.
Definition ex_schema : list (string * ex_type) := [("region", TStr); ("day", TNum)].
Definition ex_filters : list filter_expr :=
  [{| fe_field := "day"; fe_op := OGte; fe_value := "9" |}; {| fe_field := "region"; fe_op := ONe; fe_value := "us" |}].
Definition ex_pruner (hive url : bool) (fs : list filter_expr) :=
  match new_pruner _ _ ex_cast fs ex_schema (Ok hive) (Ok url) with Ok p => p | _ => empty_pruner _ _ end.
Fact ex_schema_wf : wf_fields ex_schema.
Proof.
  split; [repeat constructor; cbn; intuition discriminate|].
  intros n [<-|[<-|[]]]; split; [reflexivity|split; reflexivity|reflexivity|split; reflexivity].
Qed.
Fact ex_named : named true true ex_schema ["e/u"; "10"] "region=e%2fu/day=10".
Proof.
  exists ["e%2fu"; "10"]. split; [|reflexivity].
  constructor; [|constructor; [|constructor]].
  - apply enc_plain; [discriminate|]. eapply enc_pct; [reflexivity|reflexivity|reflexivity|]. apply enc_plain; [discriminate|constructor].
  - apply encodes_self. reflexivity.
Qed.

(** C37: a partition whose values satisfy every filter is not pruned, in all four naming schemes and
    for arbitrary values. *)
Theorem C37_matching_partition_kept : forall dtype value cast cmp filters fields hive url pruner values path,
  new_pruner dtype value cast filters fields (Ok hive) (Ok url) = Ok pruner ->
  wf_fields fields -> List.length values = List.length fields ->
  named hive url fields values path ->
  Forall (satisfies dtype value cast cmp fields values) filters ->
  should_include dtype value cast cmp pruner path = true.
Proof. exact pruning_sound. Qed.
Print Assumptions C37_matching_partition_kept.
Example C37_case : should_include _ _ ex_cast ex_cmp (ex_pruner true true ex_filters) "region=e%2fu/day=10" = true.
Proof.
  apply (C37_matching_partition_kept _ _ _ _ ex_filters ex_schema true true _ ["e/u"; "10"]);
    [reflexivity|exact ex_schema_wf|reflexivity|exact ex_named|].
  constructor; [|constructor; [|constructor]].
  - exists Gt. split; [|now left]. exists TNum, "10", (VNum 10), (VNum 9). split; [right; now left|]. split; [reflexivity|]. split; reflexivity.
  - exists Lt. split; [|discriminate]. exists TStr, "e/u", (VStr "e/u"), (VStr "us"). split; [now left|]. split; [reflexivity|]. split; reflexivity.
Qed.

(** C38: with values that are comparable, readable and without separator, a partition is kept exactly
    when its values satisfy every filter. *)
Theorem C38_pruning_exact : forall dtype value cast cmp filters fields hive url pruner values path,
  new_pruner dtype value cast filters fields (Ok hive) (Ok url) = Ok pruner ->
  wf_fields fields -> List.length values = List.length fields -> fields <> [] ->
  named hive url fields values path ->
  Forall (fun v => has_char "/" v = false) values ->
  (url = true -> Forall (fun v => utf8_valid v = true) values /\ Forall (fun n => utf8_valid n = true) (map fst fields)) ->
  (forall f v, In (f, v) (combine fields values) -> cast (snd f) v <> None) ->
  (forall f, In f filters -> exists c, compares dtype value cast cmp fields values f c) ->
  (should_include dtype value cast cmp pruner path = true <-> Forall (satisfies dtype value cast cmp fields values) filters).
Proof. exact pruning_exact. Qed.
Print Assumptions C38_pruning_exact.
Example C38_case : should_include _ _ ex_cast ex_cmp (ex_pruner false true ex_filters) "%65u/10" = true
  /\ should_include _ _ ex_cast ex_cmp (ex_pruner false true ex_filters) "%65u/8" = false
  /\ should_include _ _ ex_cast ex_cmp (ex_pruner true false ex_filters) "region=us/day=11" = false.
Proof. split; [|split]; vm_compute; reflexivity. Qed.
Example C38_hypotheses : should_include _ _ ex_cast ex_cmp (ex_pruner true false ex_filters) "region=us/day=11" = true
  <-> Forall (satisfies _ _ ex_cast ex_cmp ex_schema ["us"; "11"]) ex_filters.
Proof.
  apply (C38_pruning_exact _ _ _ _ ex_filters ex_schema true false); [reflexivity|exact ex_schema_wf|reflexivity|discriminate| | | | |].
  - exists ["us"; "11"]. split; [|reflexivity]. repeat constructor.
  - repeat constructor.
  - discriminate.
  - intros f v [[= <- <-]|[[= <- <-]|[]]]; discriminate.
  - intros f [<-|[<-|[]]].
    + exists Gt, TNum, "11", (VNum 11), (VNum 9). split; [right; now left|]. split; [reflexivity|]. split; reflexivity.
    + exists Eq, TStr, "us", (VStr "us"), (VStr "us"). split; [now left|]. split; [reflexivity|]. split; reflexivity.
Qed.
Theorem C38_no_filter_keeps_everything : forall dtype value cast cmp fields hive url pruner path,
  new_pruner dtype value cast [] fields hive url = Ok pruner ->
  should_include dtype value cast cmp pruner path = true.
Proof. intros; eapply no_filter_keeps; eassumption. Qed.
Print Assumptions C38_no_filter_keeps_everything.
Example C38_no_filter_case : should_include _ _ ex_cast ex_cmp (ex_pruner true true []) "anything/at=all/%ff" = true.
Proof. apply (C38_no_filter_keeps_everything _ _ _ _ ex_schema (Ok true) (Ok true)). reflexivity. Qed.

(** C39 is false: without hive-style names the path segments are matched with the fields in the order
    of the table schema, not in the configured order in which they are written. *)
Theorem C39_configured_order_refuted : exists table (configured : list (string * ex_type)) filters pruner values path,
  Permutation configured (partition_schema _ table (map fst configured))
  /\ wf_fields configured /\ List.length values = List.length configured
  /\ new_pruner _ _ ex_cast filters (partition_schema _ table (map fst configured)) (Ok false) (Ok false) = Ok pruner
  /\ named false false configured values path
  /\ Forall (satisfies _ _ ex_cast ex_cmp configured values) filters
  /\ should_include _ _ ex_cast ex_cmp pruner path = false.
Proof.
  exists [("city", TStr); ("id", TNum); ("country", TStr)], [("country", TStr); ("city", TStr)],
    [{| fe_field := "country"; fe_op := OEq; fe_value := "fr" |}].
  eexists. exists ["fr"; "paris"], "fr/paris".
  split; [apply perm_swap|]. split.
  { split; [repeat constructor; cbn; intuition discriminate|]. intros n [<-|[<-|[]]]; split; [reflexivity|split; reflexivity|reflexivity|split; reflexivity]. }
  split; [reflexivity|]. split; [reflexivity|]. split; [exists ["fr"; "paris"]; split; [repeat constructor|reflexivity]|].
  split; [|reflexivity]. constructor; [|constructor]. exists Eq. split; [|reflexivity].
  exists TStr, "fr", (VStr "fr"), (VStr "fr"). split; [now left|]. split; [reflexivity|]. split; reflexivity.
Qed.
Print Assumptions C39_configured_order_refuted.

(** C39, partial: when the fields are configured in the order of the table schema they are matched
    right, in every naming scheme ... *)
Theorem C39_schema_order_partial : forall dtype value cast cmp filters table configured hive url pruner values path,
  NoDup (map fst table) -> subseq configured table ->
  new_pruner dtype value cast filters (partition_schema _ table (map fst configured)) (Ok hive) (Ok url) = Ok pruner ->
  wf_fields configured -> List.length values = List.length configured -> named hive url configured values path ->
  Forall (satisfies dtype value cast cmp configured values) filters ->
  should_include dtype value cast cmp pruner path = true.
Proof.
  intros until path. intros D S. rewrite (partition_schema_subseq _ _ _ D S). apply pruning_sound.
Qed.
Print Assumptions C39_schema_order_partial.
Example C39_schema_order_case : subseq ex_schema [("id", TNum); ("region", TStr); ("x", TStr); ("day", TNum)]
  /\ partition_schema _ [("id", TNum); ("region", TStr); ("x", TStr); ("day", TNum)] (map fst ex_schema) = ex_schema.
Proof. split; [apply sub_skip, sub_take, sub_skip, sub_take, sub_nil|reflexivity]. Qed.

(** ... and with hive-style names no matching partition is dropped, in whatever order the fields are
    configured. *)
Theorem C39_hive_any_order_partial : forall dtype value cast cmp filters table configured url pruner values path,
  new_pruner dtype value cast filters (partition_schema _ table (map fst configured)) (Ok true) (Ok url) = Ok pruner ->
  Permutation configured (partition_schema _ table (map fst configured)) ->
  wf_fields configured -> List.length values = List.length configured -> named true url configured values path ->
  Forall (satisfies dtype value cast cmp configured values) filters ->
  should_include dtype value cast cmp pruner path = true.
Proof. exact hive_sound_any_order. Qed.
Print Assumptions C39_hive_any_order_partial.
Example C39_hive_case : exists pruner,
  new_pruner _ _ ex_cast ex_filters (partition_schema _ [("day", TNum); ("region", TStr)] (map fst ex_schema)) (Ok true) (Ok false) = Ok pruner
  /\ should_include _ _ ex_cast ex_cmp pruner "region=eu/day=10" = true.
Proof.
  eexists. split; [reflexivity|].
  apply (C39_hive_any_order_partial _ _ ex_cast ex_cmp ex_filters [("day", TNum); ("region", TStr)] ex_schema false _ ["eu"; "10"]);
    [reflexivity|apply perm_swap|exact ex_schema_wf|reflexivity| |].
  - exists ["eu"; "10"]. split; [repeat constructor|reflexivity].
  - constructor; [|constructor; [|constructor]].
    + exists Gt. split; [|now left]. exists TNum, "10", (VNum 10), (VNum 9). split; [right; now left|]. split; [reflexivity|]. split; reflexivity.
    + exists Lt. split; [|discriminate]. exists TStr, "eu", (VStr "eu"), (VStr "us"). split; [now left|]. split; [reflexivity|]. split; reflexivity.
Qed.

(** C40: every filter has a negation, which is satisfied exactly by the values that do not satisfy
    the filter; negating twice is the identity. *)
Theorem C40_negation_is_complement : forall f, exists g,
  negate_filter f = Some g /\ negate_filter g = Some f
  /\ fe_field g = fe_field f /\ fe_value g = fe_value f
  /\ forall c, op_meaning (fe_op g) c <-> ~ op_meaning (fe_op f) c.
Proof. exact negate_total. Qed.
Print Assumptions C40_negation_is_complement.
Example C40_case : negate_filter {| fe_field := "day"; fe_op := OLte; fe_value := "9" |} = Some {| fe_field := "day"; fe_op := OGt; fe_value := "9" |}.
Proof. reflexivity. Qed.
(** The comparison kernel decides the meaning of the operator. *)
Theorem C40_kernel_decides_operator : forall dtype value cmp (f : schemable dtype value) v c,
  cmp v (sf_value _ _ f) = Some c ->
  exists b, apply_comparison _ _ cmp f v = Ok b /\ (b = true <-> op_meaning (sf_op _ _ f) c).
Proof. intros dtype value cmp f v c H. exists (op_test (sf_op _ _ f) c). split; [unfold apply_comparison; now rewrite H|apply op_test_meaning]. Qed.
Print Assumptions C40_kernel_decides_operator.
Example C40_kernel_case : apply_comparison ex_type ex_value ex_cmp {| sf_name := "day"; sf_type := TNum; sf_op := OLte; sf_value := VNum 9 |} (VNum 9) = Ok true.
Proof. reflexivity. Qed.
(** Operators and filters are written and read back consistently; nothing else is read as an operator. *)
Theorem C40_text_round_trip : (forall o s, op_from_str s = Ok o <-> s = op_display o)
  /\ (forall fs, from_str_tuples (map filter_to_tuple fs) = Ok fs).
Proof.
  split; [|exact tuples_roundtrip]. intros o s. split; [apply op_parse_inv|]. intros ->. apply op_roundtrip.
Qed.
Print Assumptions C40_text_round_trip.
Example C40_text_case : from_str_tuples [("day", ">=", "9"); ("region", "!=", "us")] = Ok ex_filters.
Proof. reflexivity. Qed.

(** C41 is false: a literal on the left of an inequality is translated as if it were on the right. *)
Definition ex_row (c : string) : option ex_value :=
  if String.eqb c "region" then Some (VStr "eu") else if String.eqb c "day" then Some (VNum 10) else None.
Definition ex_lit_value (l : Z) : option ex_value := Some (VNum l).
Definition ex_lit_display (l : Z) : string := match l with 9%Z => "9" | 12%Z => "12" | _ => "0" end.
Theorem C41_literal_left_refuted : exists e fs pruner path,
  truth _ _ ex_lit_value ex_cmp ex_row (fun _ => None) e = Some true
  /\ from_str_tuples (exprs_to_filters _ ex_lit_display [e]) = Ok fs
  /\ new_pruner _ _ ex_cast fs ex_schema (Ok true) (Ok false) = Ok pruner
  /\ named true false ex_schema ["eu"; "10"] path
  /\ (forall n ty v, In ((n, ty), v) (combine ex_schema ["eu"; "10"]) -> exists x, ex_cast ty v = Some x /\ ex_row n = Some x)
  /\ should_include _ _ ex_cast ex_cmp pruner path = false.
Proof.
  exists (XBin (XLit 9%Z) DLt (XCol "day")). do 2 eexists. exists "region=eu/day=10".
  split; [reflexivity|]. split; [reflexivity|]. split; [reflexivity|]. split; [exists ["eu"; "10"]; split; [repeat constructor|reflexivity]|].
  split; [|reflexivity]. intros n ty v [[= <- <- <-]|[[= <- <- <-]|[]]]; eexists; split; reflexivity.
Qed.
Print Assumptions C41_literal_left_refuted.

(** C41, partial: when literals stand on the right (or the operator is = or !=), every row that
    satisfies the conjuncts lies in a partition that is kept.  The hypotheses say that comparisons
    are antisymmetric and that the text of each literal reads back as its value in the column it is
    compared with. *)
Theorem C41_row_partition_kept_partial : forall dtype value lit cast cmp (lit_display : lit -> string) (lit_value : lit -> option value)
    (row : string -> option value) opaque (coltype : string -> dtype),
  (forall a b c, cmp a b = Some c -> cmp b a = Some (CompOpp c)) ->
  forall es fields hive url filters pruner values path,
  (forall e, In e es -> literal_side_ok e /\ literal_text_ok cast lit_display lit_value coltype e /\ truth lit value lit_value cmp row opaque e = Some true) ->
  from_str_tuples (exprs_to_filters lit lit_display es) = Ok filters ->
  new_pruner dtype value cast filters fields (Ok hive) (Ok url) = Ok pruner ->
  wf_fields fields -> List.length values = List.length fields -> named hive url fields values path ->
  (forall n ty v, In ((n, ty), v) (combine fields values) -> ty = coltype n /\ exists x, cast ty v = Some x /\ row n = Some x) ->
  should_include dtype value cast cmp pruner path = true.
Proof. exact row_partition_kept. Qed.
Print Assumptions C41_row_partition_kept_partial.
Definition ex_conjuncts : list (df_expr (string * ex_value)) :=
  [XNot (XBin (XCol "region") DLtEq (XLit ("br", VStr "br"))); XBin (XCol "day") DGt (XLit ("9", VNum 9)); XBin (XLit ("eu", VStr "eu")) DEq (XCol "region")].
Definition ex_coltype (c : string) : ex_type := if String.eqb c "day" then TNum else TStr.
Example C41_case : exists filters pruner,
  from_str_tuples (exprs_to_filters _ fst ex_conjuncts) = Ok filters
  /\ new_pruner _ _ ex_cast filters ex_schema (Ok true) (Ok false) = Ok pruner
  /\ should_include _ _ ex_cast ex_cmp pruner "region=eu/day=10" = true.
Proof.
  do 2 eexists. split; [reflexivity|]. split; [reflexivity|].
  eapply (C41_row_partition_kept_partial ex_type ex_value _ ex_cast ex_cmp fst (fun l => Some (snd l)) ex_row (fun _ => None) ex_coltype)
    with (es := ex_conjuncts) (values := ["eu"; "10"]) (fields := ex_schema) (hive := true) (url := false).
  - intros [x|x] [y|y] c; try discriminate; intros [= <-]; cbn; [now rewrite scmp_antisym|now rewrite Z.compare_antisym].
  - intros e I. split; [|split].
    + destruct I as [<-|[<-|[<-|[]]]]; cbn; auto.
    + intros c l v [o [b [B E]]] [= <-]. destruct I as [<-|[<-|[<-|[]]]]; destruct B as [ -> | -> ]; destruct E as [E|E]; try discriminate E; injection E; intros; subst; reflexivity.
    + destruct I as [<-|[<-|[<-|[]]]]; reflexivity.
  - reflexivity.
  - reflexivity.
  - exact ex_schema_wf.
  - reflexivity.
  - exists ["eu"; "10"]. split; [repeat constructor|reflexivity].
  - intros n ty v [[= <- <- <-]|[[= <- <- <-]|[]]]; (split; [reflexivity|]); eexists; split; reflexivity.
Qed.
(** Exactly the comparisons of a column with a literal, possibly under one NOT, are translated; every
    other conjunct is dropped. *)
Theorem C41_translated_conjuncts : forall lit (lit_display : lit -> string) e,
  expr_to_filter lit lit_display e <> None <->
  exists l o r, (e = XBin l o r \/ e = XNot (XBin l o r)) /\ (forall n, o <> DOther n)
    /\ ((exists c v, l = XCol c /\ r = XLit v) \/ (exists c v, l = XLit v /\ r = XCol c)).
Proof. exact translated_iff. Qed.
Print Assumptions C41_translated_conjuncts.
Example C41_translated_case : expr_to_filter _ ex_lit_display (XNot (XNot (XBin (XCol "day") DEq (XLit 9%Z)))) = None
  /\ expr_to_filter _ ex_lit_display (XNot (XBin (XCol "day") DEq (XLit 9%Z))) = Some {| fe_field := "day"; fe_op := ONe; fe_value := "9" |}.
Proof. split; reflexivity. Qed.
(** A translated conjunct on a column that is not a partition field makes the scan fail. *)
Theorem C41_other_columns_fail : forall dtype value cast fields hive url filters f,
  In f filters -> ~ In (fe_field f) (map fst fields) ->
  forall pruner, new_pruner dtype value cast filters fields hive url <> Ok pruner.
Proof. exact foreign_column_fails. Qed.
Print Assumptions C41_other_columns_fail.
Example C41_other_columns_case : can_push_down _ (fun _ => true) (XBin (XCol "price") DGt (XLit 9%Z)) = true
  /\ expr_to_filter _ ex_lit_display (XBin (XCol "price") DGt (XLit 9%Z)) = Some {| fe_field := "price"; fe_op := OGt; fe_value := "9" |}
  /\ new_pruner _ _ ex_cast [{| fe_field := "price"; fe_op := OGt; fe_value := "9" |}] ex_schema (Ok true) (Ok true) = Err ESchema.
Proof. split; [reflexivity|]. split; reflexivity. Qed.
