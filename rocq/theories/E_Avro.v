(** Concrete schemas and rows for C48-C50. *)
From Verif Require Import Base Str L_Str M_Avro S_Avro L_Avro L_Columns L_Batch L_ArrowSchema.
Local Open Scope string_scope.

Ltac dotless := intros H; cbn in H; repeat (destruct H as [H|H]; [discriminate H|]); destruct H.
Ltac pick H := repeat (destruct H as [H|H]; [injection H as <- <- <-|]); try destruct H.
(** validity of concrete schemas, by computation *)
Fixpoint no_dot (s : string) : bool := match s with "" => true | String c r => negb (Ascii.eqb c ".") && no_dot r end.
Fixpoint nodup (l : list string) : bool := match l with [] => true | x :: r => negb (existsb (String.eqb x) r) && nodup r end.
Definition is_union (s : avro) : bool := match s with ScUnion _ => true | _ => false end.
Fixpoint valid_b (s : avro) : bool :=
  match s with
  | ScArray i | ScMap i => valid_b i
  | ScUnion vs => forallb (fun v => valid_b v && negb (is_union v)) vs && Nat.leb (List.length (filter is_null_schema vs)) 1
  | ScRecord fs => nodup (map (fun f => fst (fst f)) fs) &&
      forallb (fun f => negb (String.eqb (fst (fst f)) "") && no_dot (fst (fst f)) && valid_b (snd f)
        && match snd (fst f) with [] => true | _ => false end) fs
  | _ => true
  end.
Lemma no_dot_spec : forall s, no_dot s = true -> ~ In "."%char (list_ascii_of_string s).
Proof.
  induction s as [|c s IH]; cbn; intros H; [auto|]. apply andb_true_iff in H. destruct H as [H1 H2]. intros [E|I]; [subst; discriminate|]. now apply IH.
Qed.
Lemma nodup_spec : forall l, nodup l = true -> NoDup l.
Proof.
  induction l as [|x l IH]; cbn; intros H; constructor; apply andb_true_iff in H; destruct H as [H1 H2]; [|now apply IH]. intros I.
  apply negb_true_iff in H1. rewrite <- not_true_iff_false in H1. apply H1. apply existsb_exists. exists x. split; [assumption|apply String.eqb_refl].
Qed.
Lemma valid_b_spec : forall s, valid_b s = true -> valid s.
Proof.
  intros s. pattern s. apply avro_ind'; clear s.
  - intros i IH H. apply vs_array. now apply IH.
  - intros i IH H. apply vs_map. now apply IH.
  - intros vs IH H. cbn in H. apply andb_true_iff in H. destruct H as [H1 H2]. rewrite forallb_forall in H1. rewrite Forall_forall in IH. apply vs_union.
    + intros v I. specialize (H1 v I). apply andb_true_iff in H1. destruct H1 as [H1 Hu]. split; [now apply IH|]. intros us ->. discriminate.
    + intros a b c ->. apply Nat.leb_le in H2. rewrite filter_app in H2. cbn in H2. rewrite filter_app in H2. rewrite app_length in H2. cbn in H2. rewrite app_length in H2. cbn in H2. lia.
  - intros fs IH H. cbn in H. apply andb_true_iff in H. destruct H as [H1 H2]. rewrite forallb_forall in H2. rewrite Forall_forall in IH. apply vs_record; [now apply nodup_spec|].
    intros n al s I. specialize (H2 _ I). cbn [fst snd] in H2. rewrite !andb_true_iff in H2. destruct H2 as [[[Ne Nd] Vs] Al]. split; [|split; [|split]].
    + intros ->. discriminate.
    + now apply no_dot_spec.
    + exact (IH _ I Vs).
    + intros a Ia. destruct al; [destruct Ia|discriminate].
  - intros s A B C D _. now apply vs_other.
Qed.

(** Scalars. *)
Definition ex_scalars : list (string * list string * avro) :=
  [("id", [], ScString); ("n", [], ScUnion [ScNull; ScInt]); ("ts", [], ScTimestampMicros); ("h", [], ScUnion [ScFixed 2; ScNull])].
Definition ex_scalar_rows : list value :=
  [AvRecord [("id", AvString "a"); ("n", AvUnion 1 (AvInt 7)); ("ts", AvTimestampMicros 12); ("h", AvUnion 1 AvNull)];
   AvRecord [("id", AvString ""); ("n", AvUnion 0 AvNull); ("ts", AvTimestampMicros (-3)); ("h", AvUnion 0 (AvFixed 2 "xy"))]].
Lemma ex_scalars_ok : valid (ScRecord ex_scalars) /\ (forall n al s, In (n, al, s) ex_scalars -> scalar_column s) /\ Forall (conforms (ScRecord ex_scalars)) ex_scalar_rows.
Proof.
  split; [now apply valid_b_spec|]. split.
  - intros n al s I. pick I.
    + now apply mb_plain.
    + now apply mb_left.
    + now apply mb_plain.
    + now apply mb_right.
  - unfold ex_scalars, ex_scalar_rows.
    repeat first [apply Forall_cons|apply Forall_nil|apply cf_record|apply Forall2_cons|apply Forall2_nil|split|reflexivity|discriminate
      |eapply cf_union; [reflexivity|]|apply cf_string|apply cf_int|apply cf_micros|apply cf_null|apply cf_fixed|cbn [fst snd]].
Qed.

(** Lists. *)
Definition ex_lists : list (string * list string * avro) :=
  [("tags", [], ScUnion [ScNull; ScArray (ScUnion [ScNull; ScString])]); ("n", [], ScArray ScLong); ("ok", [], ScArray ScBoolean)].
Definition ex_list_rows : list value :=
  [AvRecord [("tags", AvUnion 0 AvNull); ("n", AvArray [AvLong 1; AvLong 2]); ("ok", AvArray [])];
   AvRecord [("tags", AvUnion 1 (AvArray [AvUnion 1 (AvString "b"); AvUnion 0 AvNull])); ("n", AvArray []); ("ok", AvArray [AvBoolean true; AvBoolean false])]].
Lemma ex_lists_ok : valid (ScRecord ex_lists) /\ (forall n al s, In (n, al, s) ex_lists -> scalar_column s \/ list_column s) /\ Forall (conforms (ScRecord ex_lists)) ex_list_rows.
Proof.
  split; [now apply valid_b_spec|]. split.
  - intros n al s I. right. pick I.
    + right. apply mb_left; [|discriminate]. eexists. split; [reflexivity|]. now apply mb_left.
    + right. apply mb_plain. eexists. split; [reflexivity|]. now apply mb_plain.
    + now left.
  - unfold ex_lists, ex_list_rows.
    repeat first [apply Forall_cons|apply Forall_nil|apply cf_record|apply Forall2_cons|apply Forall2_nil|apply cf_array|eapply cf_union; [reflexivity|]|split|reflexivity|discriminate
      |apply cf_string|apply cf_long|apply cf_boolean|apply cf_null|cbn [fst snd]].
Qed.

(** Lists, nested. *)
Definition ex_nested : list (string * list string * avro) :=
  [("tags", [], ScUnion [ScNull; ScArray (ScUnion [ScNull; ScString])]);
   ("pts", [], ScArray (ScRecord [("x", [], ScLong); ("y", [], ScUnion [ScNull; ScDouble])]));
   ("m", [], ScArray (ScArray ScInt));
   ("r", [], ScUnion [ScNull; ScRecord [("ok", [], ScArray ScBoolean); ("s", [], ScUnion [ScNull; ScString])]])].
Definition ex_nested_rows : list value :=
  [AvRecord [("tags", AvUnion 0 AvNull);
             ("pts", AvArray [AvRecord [("x", AvLong 1); ("y", AvUnion 0 AvNull)]; AvRecord [("x", AvLong 2); ("y", AvUnion 1 (AvDouble 5))]]);
             ("m", AvArray [AvArray [AvInt 1; AvInt 2]; AvArray []; AvArray [AvInt 3]]);
             ("r", AvUnion 1 (AvRecord [("ok", AvArray [AvBoolean true; AvBoolean false]); ("s", AvUnion 1 (AvString "q"))]))];
   AvRecord [("tags", AvUnion 1 (AvArray [AvUnion 1 (AvString "b"); AvUnion 0 AvNull]));
             ("pts", AvArray []);
             ("m", AvArray [AvArray [AvInt 4]]);
             ("r", AvUnion 0 AvNull)]].
Lemma ex_nested_ok : valid (ScRecord ex_nested) /\ ex_nested <> [] /\ ~ part ScRef (ScRecord ex_nested) /\ ~ part ScLocalTimestamp (ScRecord ex_nested)
  /\ lossless false (ScRecord ex_nested) = true /\ readable (ScRecord ex_nested) = true /\ ~ wide_null (ScRecord ex_nested)
  /\ Forall (conforms (ScRecord ex_nested)) ex_nested_rows /\ Forall (nulls_ok (ScRecord ex_nested)) ex_nested_rows.
Proof.
  assert (P : forall x, part x (ScRecord ex_nested) -> x <> ScRef /\ x <> ScLocalTimestamp /\ forall vs, x = ScUnion vs -> List.length vs = 2).
  { intros x P. unfold ex_nested in P.
    repeat match goal with
           | H : In _ (_ :: _) |- _ => destruct H
           | H : In _ [] |- _ => destruct H
           | H : (_, _, _) = (_, _, _) |- _ => injection H; clear H; intros; subst
           | H : ?a = ?s, P : part _ ?s |- _ => is_var s; subst s
           | H : part _ _ |- _ => inversion H; clear H; subst
           end; split; try discriminate; split; try discriminate; intros vs E; try discriminate; injection E as <-; reflexivity. }
  split; [now apply valid_b_spec|]. split; [discriminate|]. split; [intros H; now destruct (P _ H)|]. split; [intros H; now destruct (P _ H) as [_ [N _]]|].
  split; [reflexivity|]. split; [reflexivity|]. split; [intros [vs [H [_ L]]]; destruct (P _ H) as [_ [_ E]]; now apply L, E|]. unfold ex_nested, ex_nested_rows. split.
  - repeat first [apply Forall_cons|apply Forall_nil|apply cf_record|apply Forall2_cons|apply Forall2_nil|apply cf_array|eapply cf_union; [reflexivity|]|split|reflexivity|discriminate
      |apply cf_string|apply cf_int|apply cf_long|apply cf_double|apply cf_boolean|apply cf_null|cbn [fst snd]].
  - repeat first [apply Forall_cons|apply Forall_nil|apply no_record|apply Forall2_cons|apply Forall2_nil|apply no_array
      |apply no_null; [reflexivity|intros x [<-|[<-|[]]]; reflexivity]|eapply no_some; [reflexivity|discriminate|]|apply no_other; discriminate|cbn [fst snd]].
Qed.

(** ** What is lost *)
(** a nullable UUID is null *)
Lemma uuid_lost : forall fc u, let s := one "id" (ScUnion [ScNull; ScUuid]) in let vs := rows_of "id" [AvUnion 1 (AvUuid u)] in
  valid s /\ Forall (conforms s) vs /\ cell_at (read_batch fc s vs) 0 = Some SlNull.
Proof.
  intros fc u. split; [now apply valid_b_spec|]. split; [|reflexivity].
  repeat first [apply Forall_cons|apply Forall_nil|apply cf_record|apply Forall2_cons|apply Forall2_nil|split|reflexivity|eapply cf_union; [reflexivity|]|apply cf_uuid|cbn [fst snd]].
Qed.
(** timestamps in nanoseconds panic *)
Lemma nanos_panic : forall fc z, long_range z -> let s := one "t" ScTimestampNanos in let vs := rows_of "t" [AvTimestampNanos z] in
  valid s /\ Forall (conforms s) vs /\ read_batch fc s vs = Panic.
Proof.
  intros fc z L. split; [now apply valid_b_spec|]. split; [|reflexivity].
  repeat first [apply Forall_cons|apply Forall_nil|apply cf_record|apply Forall2_cons|apply Forall2_nil|assumption|split|reflexivity|apply cf_nanos|cbn [fst snd]].
Qed.
(** a type that is used a second time by its name panics, whatever the rows *)
Lemma ref_panic : forall fc s vs, valid (ScRecord s) -> part ScRef (ScRecord s) \/ part ScLocalTimestamp (ScRecord s) -> read_batch fc (ScRecord s) vs = Panic.
Proof. intros fc s vs V P. unfold read_batch. now rewrite (proj2 (schema_panics s V) P). Qed.

Lemma conforms_bools : forall bs, Forall (conforms ScBoolean) (map AvBoolean bs).
Proof. intros bs. apply Forall_forall. intros v I. apply in_map_iff in I. destruct I as [b [<- _]]. apply cf_boolean. Qed.
(** all booleans of a list that may be null are false *)
Lemma bool_list_cell : forall fc l, cell_at (read_batch fc (one "b" (ScUnion [ScNull; ScArray ScBoolean])) (rows_of "b" [AvUnion 1 (AvArray l)])) 0
  = Some (SlList (repeat (SlBool false) (List.length l))).
Proof.
  intros fc l. unfold rows_of, one, read_batch. cbn -[bool_items list_ok slot_at seq]. unfold bool_items. cbn [flat_map app List.length list_offsets last]. rewrite Nat.sub_0_r. unfold list_ok.
  cbn [array_type dtype_eqb andb last array_len list_offsets Nat.add]. rewrite repeat_length. change (list_row_len (AvUnion 1 (AvArray l))) with (List.length l). rewrite Nat.leb_refl. cbn [andb].
  assert (E : null_count (ArFlat DBoolean (repeat (SlBool false) (List.length l))) = 0).
  { unfold null_count. cbn. induction (List.length l) as [|k IH]; [reflexivity|assumption]. }
  rewrite E. cbn -[slot_at seq repeat]. cbn [slot_at list_row_valid unwrap nth map]. f_equal. f_equal.
  assert (F : forall k o, map (fun i => nth i (repeat (SlBool false) (k + o)) SlNull) (seq o k) = repeat (SlBool false) k).
  { induction k as [|k IH]; intros o; [reflexivity|]. cbn [seq map repeat]. f_equal.
    - rewrite (nth_indep _ SlNull (SlBool false)) by (rewrite repeat_length; lia). apply nth_repeat.
    - specialize (IH (S o)). rewrite <- IH. apply map_ext. intros i. now rewrite Nat.add_succ_r. }
  specialize (F (List.length l) 0). rewrite Nat.add_0_r in F. rewrite Nat.sub_0_r. exact F.
Qed.
Lemma bool_list_lost : forall fc bs, let s := one "b" (ScUnion [ScNull; ScArray ScBoolean]) in let vs := rows_of "b" [AvUnion 1 (AvArray (map AvBoolean bs))] in
  valid s /\ Forall (conforms s) vs /\ cell_at (read_batch fc s vs) 0 = Some (SlList (map (fun _ => SlBool false) bs)).
Proof.
  intros fc bs. split; [now apply valid_b_spec|]. split.
  - apply Forall_cons; [|apply Forall_nil]. apply cf_record. apply Forall2_cons; [|apply Forall2_nil]. split; [reflexivity|]. cbn [snd]. eapply cf_union; [reflexivity|]. apply cf_array, conforms_bools.
  - rewrite bool_list_cell, map_length. f_equal. f_equal. clear. induction bs as [|b bs IH]; [reflexivity|]. cbn. now rewrite IH.
Qed.
(** booleans that may be null are null *)
Lemma bool_items_lost : forall fc b, let s := one "b" (ScArray (ScUnion [ScNull; ScBoolean])) in let vs := rows_of "b" [AvArray [AvUnion 1 (AvBoolean b)]] in
  valid s /\ Forall (conforms s) vs /\ cell_at (read_batch fc s vs) 0 = Some (SlList [SlNull]).
Proof.
  intros fc b. split; [now apply valid_b_spec|]. split; [|reflexivity].
  repeat first [apply Forall_cons|apply Forall_nil|apply cf_record|apply Forall2_cons|apply Forall2_nil|split|reflexivity|apply cf_array|eapply cf_union; [reflexivity|]|apply cf_boolean|cbn [fst snd]].
Qed.
(** after a row without a list of records, the records of the next row are not its own *)
Definition a_record (z : Z) : value := AvRecord [("x", AvInt z)].
Lemma null_list_shifts : forall fc z, int_range z -> let s := one "l" (ScUnion [ScNull; ScArray (ScUnion [ScNull; ScRecord [("x", [], ScUnion [ScNull; ScInt])]])]) in
  let vs := rows_of "l" [AvUnion 0 AvNull; AvUnion 1 (AvArray [AvUnion 1 (AvRecord [("x", AvUnion 1 (AvInt z))])])] in
  valid s /\ Forall (conforms s) vs /\ cell_at (read_batch fc s vs) 0 = Some SlNull /\ cell_at (read_batch fc s vs) 1 = Some (SlList [SlNull]).
Proof.
  intros fc z R. split; [now apply valid_b_spec|]. split.
  - repeat first [apply Forall_cons|apply Forall_nil|apply cf_record|apply Forall2_cons|apply Forall2_nil|split|reflexivity|apply cf_array|eapply cf_union; [reflexivity|]|apply cf_int; assumption|apply cf_null|cbn [fst snd]].
  - assert (E1 : (-2147483648 <=? z)%Z = true) by (unfold int_range in R; lia). assert (E2 : (z <=? 2147483647)%Z = true) by (unfold int_range in R; lia).
    unfold rows_of, one, read_batch. cbn -[Z.leb]. rewrite ?E1, ?E2. split; reflexivity.
Qed.
(** the same with records that may not be null panics *)
Lemma null_list_panics : forall fc z, int_range z -> let s := one "l" (ScUnion [ScNull; ScArray (ScRecord [("x", [], ScInt)])]) in
  let vs := rows_of "l" [AvUnion 0 AvNull; AvUnion 1 (AvArray [AvRecord [("x", AvInt z)]])] in
  valid s /\ Forall (conforms s) vs /\ read_batch fc s vs = Panic.
Proof.
  intros fc z R. split; [now apply valid_b_spec|]. split.
  - repeat first [apply Forall_cons|apply Forall_nil|apply cf_record|apply Forall2_cons|apply Forall2_nil|split|reflexivity|apply cf_array|eapply cf_union; [reflexivity|]|apply cf_int; assumption|apply cf_null|cbn [fst snd]].
  - assert (E1 : (-2147483648 <=? z)%Z = true) by (unfold int_range in R; lia). assert (E2 : (z <=? 2147483647)%Z = true) by (unfold int_range in R; lia).
    unfold rows_of, one, read_batch. cbn -[Z.leb]. rewrite ?E1, ?E2. reflexivity.
Qed.
(** lists of lists shift in the same way *)
Lemma null_lists_shift : forall fc z, int_range z -> let s := one "l" (ScUnion [ScNull; ScArray (ScUnion [ScNull; ScArray ScInt])]) in
  let vs := rows_of "l" [AvUnion 0 AvNull; AvUnion 1 (AvArray [AvUnion 1 (AvArray [AvInt z])])] in
  valid s /\ Forall (conforms s) vs /\ cell_at (read_batch fc s vs) 1 = Some (SlList [SlNull]).
Proof.
  intros fc z R. split; [now apply valid_b_spec|]. split.
  - repeat first [apply Forall_cons|apply Forall_nil|apply cf_record|apply Forall2_cons|apply Forall2_nil|split|reflexivity|apply cf_array|eapply cf_union; [reflexivity|]|apply cf_int; assumption|apply cf_null|cbn [fst snd]].
  - assert (E1 : (-2147483648 <=? z)%Z = true) by (unfold int_range in R; lia). assert (E2 : (z <=? 2147483647)%Z = true) by (unfold int_range in R; lia).
    unfold rows_of, one, read_batch. cbn -[Z.leb]. rewrite ?E1, ?E2. reflexivity.
Qed.
(** the fields of records in lists of lists are null *)
Lemma deep_records_lost : forall fc z, int_range z -> let s := one "l" (ScArray (ScArray (ScRecord [("x", [], ScUnion [ScNull; ScInt])]))) in
  let vs := rows_of "l" [AvArray [AvArray [AvRecord [("x", AvUnion 1 (AvInt z))]]]] in
  valid s /\ Forall (conforms s) vs /\ cell_at (read_batch fc s vs) 0 = Some (SlList [SlList [SlStruct [("x", SlNull)]]]).
Proof.
  intros fc z R. split; [now apply valid_b_spec|]. split.
  - repeat first [apply Forall_cons|apply Forall_nil|apply cf_record|apply Forall2_cons|apply Forall2_nil|split|reflexivity|apply cf_array|eapply cf_union; [reflexivity|]|apply cf_int; assumption|apply cf_null|cbn [fst snd]].
  - reflexivity.
Qed.
(** an alias that is the name of another field takes its place; the parser of Avro lets it pass *)
Lemma alias_misread : forall fc a b, let s := ScRecord [("a", [], ScString); ("b", ["a"], ScString)] in
  let vs := [AvRecord [("a", AvString a); ("b", AvString b)]] in
  Forall (conforms s) vs /\ cell_at (read_batch fc s vs) 0 = Some (SlText b).
Proof.
  intros fc a b. split; [|reflexivity].
  repeat first [apply Forall_cons|apply Forall_nil|apply cf_record|apply Forall2_cons|apply Forall2_nil|split|reflexivity|apply cf_string|cbn [fst snd]].
Qed.
(** a nested union of null and two types is not marked nullable *)
Lemma nested_not_nullable : exists dfs, to_arrow_schema (one "r" (ScRecord [("u", [], ScUnion [ScNull; ScInt; ScString])])) = Ok [("r", DStruct dfs, false)]
  /\ map fnull dfs = [false].
Proof. eexists. split; reflexivity. Qed.
