(** Lemmas for C76. *)
From Verif Require Import Base Str L_Base M_Time M_FileGroup M_Listing M_Log M_Config M_Reader M_Table M_Avro M_Values
  S_Time S_FileGroup S_Listing S_Log S_Reader S_Avro S_History S_Values L_Log L_Reader L_Avro L_Columns L_Batch L_ArrowSchema L_History.
Local Open Scope string_scope.

(** ** Chunks *)
Fixpoint chunks_of {A} (n fuel : nat) (l : list A) : list (list A) :=
  match fuel, l with
  | O, _ | _, [] => []
  | S f, _ => firstn n l :: chunks_of n f (skipn n l)
  end.
Lemma chunks_of_ok : forall A n, (0 < n)%nat -> forall fuel (l : list A), (List.length l <= fuel)%nat -> in_chunks n l (chunks_of n fuel l).
Proof.
  intros A n Hn. induction fuel as [|f IH]; intros l L.
  - destruct l; [constructor|cbn in L; lia].
  - destruct l as [|x l]; [constructor|]. cbn [chunks_of]. destruct (le_lt_dec (List.length (x :: l)) n) as [S|S].
    + rewrite firstn_all2 by assumption. rewrite skipn_all2 by assumption. replace (chunks_of n f (@nil A)) with (@nil (list A)) by (destruct f; reflexivity).
      apply ch_last; [discriminate|assumption].
    + rewrite <- (firstn_skipn n (x :: l)) at 1. apply ch_more.
      * rewrite firstn_length. lia.
      * intros E. apply (f_equal (@List.length A)) in E. rewrite skipn_length in E. cbn [List.length] in *. lia.
      * apply IH. rewrite skipn_length. lia.
Qed.
Lemma chunks_concat : forall A n (l : list A) cs, in_chunks n l cs -> List.concat cs = l.
Proof. intros A n l cs H. induction H; cbn; rewrite ?app_nil_r; congruence. Qed.
Lemma Forall_chunks : forall A (P : A -> Prop) n l cs, in_chunks n l cs -> Forall P l -> Forall (Forall P) cs.
Proof. intros A P n l cs H. induction H; intros F; repeat constructor; trivial; apply Forall_app in F; tauto. Qed.

Lemma map_positions : forall A B (h : nat -> B) (g : A -> B) vs, (forall i v, nth_error vs i = Some v -> h i = g v) -> map h (seq 0 (List.length vs)) = map g vs.
Proof.
  intros A B h g vs. revert h. induction vs as [|v vs IH]; intros h G; [reflexivity|]. cbn [List.length seq map]. f_equal; [now apply G|].
  rewrite <- seq_shift, map_map. apply (IH (fun i => h (S i))). intros i v' E. now apply (G (S i)).
Qed.

(** ** One batch *)
Section Values.
Variable code : dtype -> nat.
Variable rank : dtype -> slot -> Z.
Variable fc : dtype -> slot -> option slot.
Local Notation as_field := (as_field code).
Local Notation row_of := (row_of code rank).
Local Notation cell_of_slot := (cell_of_slot code rank).

Lemma slot_null : forall d s, cell_of_slot d s = Null <-> s = SlNull.
Proof. intros d s. destruct s; cbn; try (split; [reflexivity|reflexivity]); (split; [|discriminate]); destruct d; discriminate. Qed.
Lemma meaning_null : forall s v, valid s -> conforms s v -> meaning v = SlNull -> s = ScNull \/ may_be_null s.
Proof.
  intros s v V C M. destruct C; cbn in M; try discriminate; [now left|]. right. exists vs. split; [reflexivity|].
  assert (I : In s vs) by (eapply nth_error_In; eassumption). inversion V as [| |vs' Vv _|fs' _ _|s' _ _ Nu _]; subst; [|now elim (Nu vs)].
  destruct (Vv s I) as [_ Nu]. destruct C; cbn in M; try discriminate; [assumption|]. now elim (Nu vs0).
Qed.
Lemma has_type_null : forall t, has_type Null t.
Proof. now intros []. Qed.
(** the values of a schema have the type of its column *)
Lemma scalar_typed : forall s v, (forall l, s <> ScUnion l) -> readable s = true -> conforms s v -> forall n0 d n, to_type s n0 = Ok (d, n) ->
  has_type (cell_of_slot d (meaning v)) (ctype_of code d).
Proof.
  intros s v U R C n0 d n' T. destruct C; try discriminate R; try (now elim (U vs)); try (cbn in T; injection T as <- <-; cbn; trivial; fail).
  - cbn [to_type] in T. destruct (to_type s false) as [[d' u]| |]; try discriminate T. cbn in T. injection T as <- <-. reflexivity.
  - cbn [to_type] in T. match type of T with bind ?x _ = _ => destruct x as [l| |]; try discriminate T end. cbn in T. injection T as <- <-. reflexivity.
Qed.
Lemma meaning_typed : forall s v, valid s -> readable s = true -> conforms s v -> forall n0 d n, to_type s n0 = Ok (d, n) ->
  has_type (cell_of_slot d (meaning v)) (ctype_of code d).
Proof.
  intros s0 v0 V R C0 n0 d n T. assert (Q : (exists vs, s0 = ScUnion vs) \/ forall l, s0 <> ScUnion l) by (destruct s0; try (right; discriminate); left; eauto).
  destruct Q as [[vs ->]|Q]; [|exact (scalar_typed s0 v0 Q R C0 n0 d n T)].
  inversion C0 as [| | | | | | | | | |vs0 i s v H C| | | | | | | | | | | | | |]; subst vs0 v0. clear C0.
  destruct (union_cases vs V) as [[x O]|[O H2]]; [|now rewrite (proj1 (readable_none vs O H2)) in R].
  rewrite (to_type_union vs x n0 O) in T. destruct (to_type x true) as [[d' u]| |] eqn:E; try discriminate T. cbn in T. injection T as <- <-.
  rewrite (proj1 (readable_union vs x O)) in R. cbn [meaning].
  assert (Es : s = x \/ s = ScNull).
  { destruct (other_spec vs x O) as [[Ev|Ev] _]; rewrite Ev in H; destruct i as [|[|[|i]]]; cbn in H; try discriminate; injection H as <-; auto. }
  destruct Es as [Es|Es]; [|rewrite Es in C; inversion C; subst; exact Logic.I]. rewrite Es in C.
  apply (scalar_typed x v) with (n0 := true) (n := u); try assumption. intros l El. destruct (other_in vs x O) as [I _].
  inversion V as [| |vs' Vv _|fs' _ _|s' _ _ Nu _]; subst; [|now elim (Nu vs)]. destruct (Vv _ I) as [_ N]. now elim (N l).
Qed.
(** different values of a schema are different cells *)
Lemma scalar_distinct : forall s v1 v2, (forall l, s <> ScUnion l) -> readable s = true -> conforms s v1 -> conforms s v2 -> forall n0 d n, to_type s n0 = Ok (d, n) ->
  (forall a b, rank d a = rank d b -> a = b) -> cell_of_slot d (meaning v1) = cell_of_slot d (meaning v2) -> meaning v1 = meaning v2.
Proof.
  intros s v1 v2 U R C1 C2 n0 d n' T Inj E.
  destruct C1; try discriminate R; try (now elim (U vs)); inversion C2; subst; try (cbn in T; injection T as <- <-; cbn in E |- *; try reflexivity; injection E as E; try apply Inj in E; congruence).
  - cbn [to_type] in T. destruct (to_type s false) as [[d' u]| |]; try discriminate T. cbn in T. injection T as <- <-. cbn in E |- *. injection E as E. now apply Inj in E.
  - cbn [to_type] in T. match type of T with bind ?x _ = _ => destruct x as [l| |]; try discriminate T end. cbn in T. injection T as <- <-. cbn in E |- *. injection E as E. now apply Inj in E.
Qed.
Lemma values_distinct : forall s v1 v2, valid s -> readable s = true -> conforms s v1 -> conforms s v2 -> forall n0 d n, to_type s n0 = Ok (d, n) ->
  (forall a b, rank d a = rank d b -> a = b) -> cell_of_slot d (meaning v1) = cell_of_slot d (meaning v2) -> meaning v1 = meaning v2.
Proof.
  intros s0 v1 v2 V R C1 C2 n0 d n T Inj E. assert (Q : (exists vs, s0 = ScUnion vs) \/ forall l, s0 <> ScUnion l) by (destruct s0; try (right; discriminate); left; eauto).
  destruct Q as [[vs ->]|Q]; [|exact (scalar_distinct s0 v1 v2 Q R C1 C2 n0 d n T Inj E)].
  inversion C1 as [| | | | | | | | | |vs1 i1 s1 w1 H1 D1| | | | | | | | | | | | | |]; subst vs1 v1. inversion C2 as [| | | | | | | | | |vs2 i2 s2 w2 H2 D2| | | | | | | | | | | | | |]; subst vs2 v2. clear C1 C2.
  destruct (union_cases vs V) as [[x O]|[O Hn]]; [|now rewrite (proj1 (readable_none vs O Hn)) in R].
  rewrite (to_type_union vs x n0 O) in T. destruct (to_type x true) as [[d' u]| |] eqn:Et; try discriminate T. cbn in T. injection T as <- <-.
  rewrite (proj1 (readable_union vs x O)) in R. cbn [meaning] in *.
  assert (Es : forall i s, nth_error vs i = Some s -> s = x \/ s = ScNull).
  { intros i s H. destruct (other_spec vs x O) as [[Ev|Ev] _]; rewrite Ev in H; destruct i as [|[|[|i]]]; cbn in H; try discriminate; injection H as <-; auto. }
  assert (Nu : forall w, conforms ScNull w -> meaning w = SlNull) by (intros w C; inversion C; reflexivity).
  destruct (Es _ _ H1) as [Z1|Z1]; destruct (Es _ _ H2) as [Z2|Z2]; rewrite Z1 in D1; rewrite Z2 in D2.
  - apply (scalar_distinct x w1 w2) with (n0 := true) (n := u) (d := d'); try assumption. intros l El. destruct (other_in vs x O) as [I _].
    inversion V as [| |vs' Vv _|fs' _ _|s' _ _ Nn _]; subst; [|now elim (Nn vs)]. destruct (Vv _ I) as [_ N]. now elim (N l).
  - rewrite (Nu w2 D2) in *. apply (slot_null d'). now rewrite E.
  - rewrite (Nu w1 D1) in *. symmetry. apply (slot_null d'). now rewrite <- E.
  - now rewrite (Nu w1 D1), (Nu w2 D2).
Qed.
(** numbers, dates, times and texts keep their order *)
Lemma slot_order : forall s v1 v2, (forall l, s <> ScUnion l) -> readable s = true -> conforms s v1 -> conforms s v2 -> forall n0 d n, to_type s n0 = Ok (d, n) ->
  (forall a b, meaning v1 = SlInt a -> meaning v2 = SlInt b -> (cell_lt (cell_of_slot d (meaning v1)) (cell_of_slot d (meaning v2)) <-> (a < b)%Z))
  /\ (forall a b, meaning v1 = SlText a -> meaning v2 = SlText b -> (cell_lt (cell_of_slot d (meaning v1)) (cell_of_slot d (meaning v2)) <-> slt a b)).
Proof.
  intros s v1 v2 U R C1 C2 n0 d n' T. split; intros a b E1 E2.
  - destruct C1; try discriminate R; try (now elim (U vs)); try discriminate E1; inversion C2; subst; cbn in T; injection T as <- <-; cbn in E1, E2; injection E1 as <-; injection E2 as <-; cbn;
      (split; [intros L; now inversion L|intros L; now constructor]).
  - destruct C1; try discriminate R; try (now elim (U vs)); try discriminate E1; inversion C2; subst; cbn in T; injection T as <- <-; cbn in E1, E2; injection E1 as <-; injection E2 as <-; cbn;
      (split; [intros L; now inversion L|intros L; now constructor]).
Qed.
Lemma values_order : forall s v1 v2, valid s -> readable s = true -> conforms s v1 -> conforms s v2 -> forall n0 d n, to_type s n0 = Ok (d, n) ->
  (forall a b, meaning v1 = SlInt a -> meaning v2 = SlInt b -> (cell_lt (cell_of_slot d (meaning v1)) (cell_of_slot d (meaning v2)) <-> (a < b)%Z))
  /\ (forall a b, meaning v1 = SlText a -> meaning v2 = SlText b -> (cell_lt (cell_of_slot d (meaning v1)) (cell_of_slot d (meaning v2)) <-> slt a b)).
Proof.
  intros s0 v1 v2 V R C1 C2 n0 d n T. assert (Q : (exists vs, s0 = ScUnion vs) \/ forall l, s0 <> ScUnion l) by (destruct s0; try (right; discriminate); left; eauto).
  destruct Q as [[vs ->]|Q]; [|exact (slot_order s0 v1 v2 Q R C1 C2 n0 d n T)].
  inversion C1 as [| | | | | | | | | |vs1 i1 s1 w1 H1 D1| | | | | | | | | | | | | |]; subst vs1 v1. inversion C2 as [| | | | | | | | | |vs2 i2 s2 w2 H2 D2| | | | | | | | | | | | | |]; subst vs2 v2. clear C1 C2.
  destruct (union_cases vs V) as [[x O]|[O Hn]]; [|now rewrite (proj1 (readable_none vs O Hn)) in R].
  rewrite (to_type_union vs x n0 O) in T. destruct (to_type x true) as [[d' u]| |] eqn:Et; try discriminate T. cbn in T. injection T as <- <-.
  rewrite (proj1 (readable_union vs x O)) in R. cbn [meaning] in *.
  assert (Es : forall i s, nth_error vs i = Some s -> s = x \/ s = ScNull).
  { intros i s H. destruct (other_spec vs x O) as [[Ev|Ev] _]; rewrite Ev in H; destruct i as [|[|[|i]]]; cbn in H; try discriminate; injection H as <-; auto. }
  assert (Nu : forall w, conforms ScNull w -> meaning w = SlNull) by (intros w C; inversion C; reflexivity).
  destruct (Es _ _ H1) as [Z1|Z1]; [|rewrite Z1 in D1; rewrite (Nu w1 D1); split; discriminate].
  destruct (Es _ _ H2) as [Z2|Z2]; [|rewrite Z2 in D2; rewrite (Nu w2 D2); split; discriminate]. rewrite Z1 in D1; rewrite Z2 in D2.
  apply (slot_order x w1 w2) with (n0 := true) (n := u); try assumption. intros l El. destruct (other_in vs x O) as [I _].
  inversion V as [| |vs' Vv _|fs' _ _|s' _ _ Nn _]; subst; [|now elim (Nn vs)]. destruct (Vv _ I) as [_ N]. now elim (N l).
Qed.
(** the rows of a batch that shows records *)
Lemma shown_rows : forall dfs cols vs, dfs <> [] -> batch_shows (dfs, cols) vs -> Forall (fun v => exists r, v = AvRecord r) vs ->
  rb_rows (as_batch code rank (dfs, cols)) = map (row_of dfs) vs.
Proof.
  intros dfs cols vs Ne [L [N S]] F. cbn [fst snd] in *. unfold as_batch. cbn [rb_rows fst snd].
  assert (Hn : num_rows cols = List.length vs).
  { destruct cols as [|c cols]; [destruct dfs; [now elim Ne|discriminate L]|]. cbn [num_rows]. apply N. now left. }
  rewrite Hn. clear N Hn Ne.
  assert (G : forall i v, nth_error vs i = Some v -> map (fun x => cell_of_slot (ftype (fst x)) (slot_at (snd x) i)) (combine dfs cols) = row_of dfs v).
  { intros i v E. specialize (S i v E). destruct (Forall_forall (fun v => exists r, v = AvRecord r) vs) as [K _]. destruct (K F v (nth_error_In _ _ E)) as [r ->].
    cbn [meaning] in S. injection S as S. cbn [row_of]. clear -L S. revert cols r L S.
    induction dfs as [|df dfs IH]; intros [|c cols] [|e r] L S; cbn in *; try discriminate; try reflexivity. injection L as L. injection S as E1 E2 S.
    f_equal; [now rewrite E2|]. now apply IH. }
  now apply map_positions.
Qed.
Lemma one_row_wf : forall fs dfs r, valid (ScRecord fs) -> (forall n al, ~ In (n, al, ScNull) fs) -> ~ part ScRef (ScRecord fs) -> ~ part ScLocalTimestamp (ScRecord fs) ->
  readable (ScRecord fs) = true -> to_arrow_schema (ScRecord fs) = Ok dfs -> conforms (ScRecord fs) (AvRecord r) ->
  wf_row (map as_field dfs) (row_of dfs (AvRecord r)).
Proof.
  intros fs dfs r V Nn R1 R2 R T C. destruct (schema_fields fs V R1 R2) as [dfs' [T' F]]. rewrite T in T'. injection T' as <-.
  inversion C as [| | | | | | | | | | |fs' r' Fr| | | | | | | | | | | | |]; subst. cbn [readable] in R. rewrite forallb_forall in R.
  assert (Vf : forall f, In f fs -> valid (snd f)) by (intros [[n al] s] I; apply (valid_field fs n al s V I)).
  assert (Nf : forall f, In f fs -> snd f <> ScNull) by (intros [[n al] s] I E; cbn in E; subst; now apply (Nn n al)).
  cbn [to_arrow_schema] in T. clear V Nn R1 R2 C. cbn [row_of]. revert dfs r T F Fr R Vf Nf.
  induction fs as [|f fs IH]; intros dfs r T F Fr R Vf Nf; inversion F as [|f1 df fs1 dfs1 [_ Fn] F']; inversion Fr as [|f2 e fs2 r2 [_ Ce] Fr']; subst; [constructor|].
  cbn [mapM] in T. destruct (to_type (snd f) (is_nullable (snd f))) as [[d n]| |] eqn:E; try discriminate T. cbn [bind] in T.
  match type of T with bind ?x _ = _ => destruct x as [l| |] eqn:El; try discriminate T end. cbn in T. injection T as <- <-.
  cbn [map combine fst snd]. unfold wf_row. constructor.
  - cbn [M_Values.as_field ftype fst snd f_type f_null fnull]. split.
    + apply (meaning_typed (snd f) (snd e)) with (n0 := is_nullable (snd f)) (n := n); [apply Vf|apply R| |]; try assumption; now left.
    + intros Z. apply slot_null in Z. apply Fn. destruct (meaning_null (snd f) (snd e)) as [Y|Y]; try assumption; [apply Vf; now left|].
      now elim (Nf f (or_introl eq_refl)).
  - apply IH; try assumption; try reflexivity; intros x I; [apply R|apply Vf|apply Nf]; now right.
Qed.

Lemma kept_batch : forall fs dfs vs, kept_records fs vs -> to_arrow_schema (ScRecord fs) = Ok dfs ->
  check_schema (ScRecord fs) = Ok tt
  /\ exists b, to_batch code rank fc (ScRecord fs) vs = Ok b /\ wf_batch (map as_field dfs) b /\ rb_rows b = map (row_of dfs) vs.
Proof.
  intros fs dfs vs [V [Ne [Nn [R1 [R2 [L [R [C O]]]]]]]] T.
  destruct (read_batch_shows fc fs vs V Ne (fun U => match U with or_introl u => R1 u | or_intror u => R2 u end) L C O) as [[dfs' [cols [T' [E S]]]]|[e [_ R']]]; [|congruence].
  rewrite T in T'. injection T' as <-.
  assert (Nd : dfs <> []). { destruct (schema_fields fs V R1 R2) as [dfs' [T' F]]. rewrite T in T'. injection T' as <-. inversion F; subst; [now elim Ne|discriminate]. }
  assert (Fr : Forall (fun v => exists r, v = AvRecord r) vs).
  { revert C. apply Forall_impl. intros v C. inversion C as [| | | | | | | | | | |fs' r Fr| | | | | | | | | | | | |]; subst. now exists r. }
  split.
  - unfold check_schema. unfold read_batch in E. rewrite T in E |- *. cbn [bind] in E |- *. destruct (schema_lookup (ScRecord fs)); try discriminate E. reflexivity.
  - eexists. split; [unfold to_batch; rewrite E; reflexivity|]. assert (Rw := shown_rows dfs cols vs Nd S Fr). split; [|exact Rw]. split; [reflexivity|].
    rewrite Rw. apply Forall_forall. intros x I. apply in_map_iff in I. destruct I as [v [<- I]]. rewrite Forall_forall in Fr, C. destruct (Fr v I) as [r ->].
    apply (one_row_wf fs); try assumption. now apply C.
Qed.

Lemma simple_kept : forall fs vs, valid (ScRecord fs) -> fs <> [] -> (forall n al s, In (n, al, s) fs -> s <> ScNull /\ (scalar_column s \/ list_column s)) ->
  Forall (conforms (ScRecord fs)) vs -> kept_records fs vs.
Proof.
  intros fs vs V Ne H C. assert (P : forall x, part x (ScRecord fs) -> x <> ScRef /\ x <> ScLocalTimestamp).
  { intros x P. inversion P as [| | | |x' nm al s l I P']; subst; [split; discriminate|]. apply (part_simple s); [now apply (H nm al)|assumption]. }
  split; [assumption|]. split; [assumption|]. split; [intros n al I; destruct (H n al _ I) as [K _]; now elim K|].
  split; [intros K; destruct (P _ K) as [A _]; now apply A|]. split; [intros K; destruct (P _ K) as [_ A]; now apply A|].
  split; [|split; [|split; [assumption|]]].
  - cbn. apply forallb_forall. intros [[nm al] s] I. apply (simple_lossless s), (H nm al), I.
  - cbn. apply forallb_forall. intros [[nm al] s] I. apply (simple_lossless s), (H nm al), I.
  - revert C. apply Forall_impl. intros v C. inversion C as [| | | | | | | | | | |fs' r F| | | | | | | | | | | | |]; subst. apply no_record. clear -F H.
    induction F as [|[[nm al] s] e fs r [_ Cf] F IH]; constructor.
    + cbn [snd] in *. apply simple_nulls; [|assumption]. apply (H nm al). now left.
    + apply IH. intros nm' al' s' I. apply (H nm' al'). now right.
Qed.

(** ** Blocks *)
Variable parse_schema : string -> option avro.
Variable datum : avro -> string -> option (value * string).
Variable parquet : string -> option (list record_batch).
Local Notation to_batch := (to_batch code rank fc).
Local Notation logged := (logged parse_schema (decodes datum)).
Local Notation wf_block := (wf_block avro value record_batch parse_schema datum check_schema to_batch parquet).

(** the batches of a block *)
Definition batches_of (w : wblock) (vs : list value) : list record_batch :=
  match w_content w, meta_get Schema (w_header w) with
  | CAvro _, Some text =>
      match parse_schema text with
      | Some sch => map (fun c => match to_batch sch c with Ok b => b | _ => {| rb_fields := []; rb_rows := [] |} end) (chunks_of 1024 (List.length vs) vs)
      | None => []
      end
  | _, _ => []
  end.
Lemma kept_chunk : forall fs vs c, kept_records fs vs -> Forall (conforms (ScRecord fs)) c -> Forall (nulls_ok (ScRecord fs)) c -> kept_records fs c.
Proof. intros fs vs c [V [Ne [Nn [R1 [R2 [L [R _]]]]]]] C O. repeat (split; [assumption|]). assumption. Qed.
Lemma kept_chunks : forall fs dfs vs cs, kept_records fs vs -> to_arrow_schema (ScRecord fs) = Ok dfs -> in_chunks 1024 vs cs ->
  forall g, (forall c b, to_batch (ScRecord fs) c = Ok b -> g c = b) ->
  Forall2 (fun c b => to_batch (ScRecord fs) c = Ok b) cs (map g cs) /\ Forall (wf_batch (map as_field dfs)) (map g cs)
  /\ S_Reader.rows_of (map g cs) = map (row_of dfs) vs.
Proof.
  intros fs dfs vs cs K T Ch g G. assert (K' := K). destruct K' as [_ [_ [_ [_ [_ [_ [_ [C O]]]]]]]].
  apply (Forall_chunks _ _ 1024 vs cs Ch) in C. apply (Forall_chunks _ _ 1024 vs cs Ch) in O. rewrite <- (chunks_concat _ 1024 vs cs Ch). clear Ch.
  induction cs as [|c cs IH]; [repeat split; constructor|]. inversion C; subst. inversion O; subst. destruct IH as [A [B R]]; try assumption.
  destruct (kept_batch fs dfs c (kept_chunk fs vs c K ltac:(assumption) ltac:(assumption)) T) as [_ [b [E [W Rw]]]].
  assert (Eg := G c b E). split; [|split].
  - cbn [map]. constructor; [now rewrite Eg|assumption].
  - cbn [map]. constructor; [now rewrite Eg|assumption].
  - unfold S_Reader.rows_of in *. cbn [map List.concat]. rewrite map_app, R, Eg, Rw. reflexivity.
Qed.
Lemma logged_block : forall dfs w vs, logged dfs w vs ->
  wf_block w (batches_of w vs) /\ Forall (wf_batch (map as_field dfs)) (batches_of w vs) /\ S_Reader.rows_of (batches_of w vs) = map (row_of dfs) vs.
Proof.
  intros dfs w vs [Hv Hh Hf Hi Hl Hr Hw].
  assert (Q : holds avro value record_batch parse_schema datum check_schema to_batch parquet (w_header w) (w_content w) (batches_of w vs)
    /\ Forall (wf_batch (map as_field dfs)) (batches_of w vs) /\ S_Reader.rows_of (batches_of w vs) = map (row_of dfs) vs).
  { unfold batches_of. clear Hl Hr. revert Hw. generalize (w_content w). intros c Hw.
    destruct Hw as [|ds text fs vs I P T D K].
    - split; [constructor|]. now split.
    - rewrite (meta_get_in Schema text) by (try assumption; apply Hh). rewrite P.
      assert (Ch : in_chunks 1024 vs (chunks_of 1024 (List.length vs) vs)) by (apply chunks_of_ok; lia).
      destruct (kept_chunks fs dfs vs _ K T Ch (fun c => match to_batch (ScRecord fs) c with Ok b => b | _ => {| rb_fields := []; rb_rows := [] |} end)) as [A [B R]].
      { intros c b E. now rewrite E. }
      split; [|now split]. apply (holds_avro _ _ _ _ _ _ _ _ _ ds text (ScRecord fs) vs (chunks_of 1024 (List.length vs) vs)); try assumption.
      now apply (kept_batch fs dfs vs). }
  destruct Q as [Q R]. split; [|exact R]. now constructor.
Qed.

(** ** Slices *)
Definition block_batches (x : wblock * list value) : wblock * list record_batch := (fst x, batches_of (fst x) (snd x)).
Definition file_batches (f : string * list (wblock * list value)) : string * list (wblock * list record_batch) := (fst f, map block_batches (snd f)).
Lemma selects_map : forall A B (h : A -> B) (P : A -> Prop) (Q : B -> Prop) l r, (forall x, In x l -> (Q (h x) <-> P x)) -> selects Q (map h l) r ->
  exists r', r = map h r' /\ selects P l r'.
Proof.
  intros A B h P Q. induction l as [|x l IH]; intros r E S; inversion S as [|y l' r' Hy S'|y l' r' Hy S']; subst.
  - exists []. split; [reflexivity|constructor].
  - destruct (IH r') as [r2 [-> S2]]; [intros; apply E; now right|assumption|]. exists (x :: r2). split; [reflexivity|]. apply sel_keep; [|assumption]. apply E; [now left|assumption].
  - destruct (IH r) as [r2 [-> S2]]; [intros; apply E; now right|assumption|]. exists r2. split; [reflexivity|]. apply sel_drop; [|assumption]. intros K. apply Hy, E; [now left|assumption].
Qed.
Lemma selects_in : forall A (P : A -> Prop) l r x, selects P l r -> In x r -> In x l /\ P x.
Proof. intros A P l r x S. induction S; intros I; [elim I| |]; cbn. - destruct I as [ -> |I]; [auto|]. apply IHS in I. tauto. - apply IHS in I. tauto. Qed.
Lemma surviving_blocks : forall local_to_utc range tz all x,
  surviving record_batch local_to_utc range tz (map block_batches all) (block_batches x) <-> surviving value local_to_utc range tz all x.
Proof.
  intros local_to_utc range tz all x. unfold surviving. cbn [block_batches fst]. split; intros [R N]; (split; [exact R|]); intros [y [t [I K]]]; apply N.
  - exists (block_batches y), t. split; [now apply in_map|exact K].
  - apply in_map_iff in I. destruct I as [z [<- I]]. exists z, t. split; [exact I|exact K].
Qed.
Lemma concat_blocks : forall files, List.concat (map snd (map file_batches files)) = map block_batches (List.concat (map snd files)).
Proof. intros files. rewrite map_map. cbn [file_batches snd]. induction files as [|f r IH]; [reflexivity|]. cbn. now rewrite map_app, IH. Qed.
Lemma blocks_rows : forall dfs kept, (forall x, In x kept -> logged dfs (fst x) (snd x)) ->
  S_Reader.rows_of (List.concat (map snd (map block_batches kept))) = map (row_of dfs) (List.concat (map snd kept)).
Proof.
  intros dfs kept H. induction kept as [|x r IH]; [reflexivity|]. cbn [map List.concat block_batches snd]. unfold S_Reader.rows_of in *. rewrite map_app, concat_app, map_app. f_equal.
  - apply (logged_block dfs). apply H. now left.
  - apply IH. intros y I. apply H. now right.
Qed.

Lemma slice_values : forall sort iter read_parquet local_to_utc fetch m slice tz files dfs base p s k, S_Reader.sorts sort -> visits iter ->
  fs_logs slice <> [] -> oget "hoodie.read.use.read_optimized.mode" m <> Some "true" -> timeline_timezone m = Ok tz ->
  map (log_relative_path slice) (fs_logs slice) = map fst files ->
  (forall f, In f files -> log_written parse_schema (decodes datum) local_to_utc fetch (read_range tz m) tz dfs f) ->
  read_base_file read_parquet m (base_relative_path slice) = Ok base -> rb_fields base = map as_field dfs ->
  merges_latest m -> merge_columns m (rb_fields base) p s k -> wf_batch (rb_fields base) base ->
  exists kept out,
    selects (surviving value local_to_utc (read_range tz m) tz (List.concat (map snd files))) (List.concat (map snd files)) kept
    /\ read_file_slice sort iter read_parquet avro value parse_schema datum check_schema to_batch parquet local_to_utc fetch m slice = Ok out
    /\ rb_fields out = rb_fields base
    /\ latest_rows k p s (rb_rows base ++ map (row_of dfs) (List.concat (map snd kept)))%list (rb_rows out).
Proof.
  intros sort iter read_parquet local_to_utc fetch m slice tz files dfs base p s k So Vi Nl Ro Tz Pa Fi Rb Fb Me Mc Wb.
  assert (Lg : forall f x, In f files -> In x (snd f) -> logged dfs (fst x) (snd x)) by (intros f x I J; now apply (Fi f I)).
  destruct (slice_exact sort iter read_parquet avro value parse_schema datum check_schema to_batch parquet local_to_utc fetch m slice tz (map file_batches files) base p s k) as [kept' [out [S [E [F L]]]]]; try assumption.
  - rewrite Pa, map_map. reflexivity.
  - intros f I. apply in_map_iff in I. destruct I as [f0 [<- I]]. destruct (Fi f0 I) as [Fe Fb0]. split.
    + cbn [file_batches fst snd]. rewrite map_map. exact Fe.
    + intros x J. cbn [file_batches snd] in J. apply in_map_iff in J. destruct J as [x0 [<- J]]. destruct (Fb0 x0 J) as [A B]. split; [|exact B]. now apply (logged_block dfs).
  - intros f x b I J K. apply in_map_iff in I. destruct I as [f0 [<- I]]. cbn [file_batches snd] in J. apply in_map_iff in J. destruct J as [x0 [<- J]].
    destruct (logged_block dfs (fst x0) (snd x0) (Lg f0 x0 I J)) as [_ [W _]]. rewrite Fb. rewrite Forall_forall in W. now apply W.
  - rewrite concat_blocks in S. destruct (selects_map _ _ block_batches (surviving value local_to_utc (read_range tz m) tz (List.concat (map snd files))) _ _ kept' (fun x _ => surviving_blocks _ _ _ _ x) S) as [kept [-> S']].
    exists kept, out. split; [exact S'|]. split; [exact E|]. split; [exact F|]. rewrite (blocks_rows dfs) in L; [exact L|].
    intros x I. apply (selects_in _ _ _ _ x S') in I. destruct I as [I _]. apply in_concat in I. destruct I as [l [I J]]. apply in_map_iff in I. destruct I as [f [<- I]]. now apply (Lg f).
Qed.

(** ** Tables *)
Lemma written_laid_out : forall read_parquet bytes format part id dfs listed contents g,
  written_out parse_schema (decodes datum) code rank read_parquet bytes format part id dfs listed contents g ->
  laid_out avro value parse_schema datum check_schema to_batch parquet read_parquet bytes format part id (map as_field dfs) listed (fun n => map block_batches (contents n)) g.
Proof.
  intros read_parquet bytes format part id dfs listed contents g [Wp Wn Wb Wr Wt Wd Wl Wk Wo]. constructor; try assumption.
  - intros m c H. destruct (Wl m c H) as [A B]. split; [rewrite map_map; exact A|]. intros w bs I. apply in_map_iff in I. destruct I as [[w0 vs] [E I]]. injection E as <- <-.
    destruct (B w0 vs I) as [Lg T]. destruct (logged_block dfs w0 vs Lg) as [W [F _]]. cbn [fst snd]. tauto.
  - intros c x r. rewrite Wk. split.
    + intros [m [w [vs [v [H [I [J [K ->]]]]]]]]. exists m, w, (batches_of w vs). split; [exact H|]. split; [apply (in_map block_batches) in I; exact I|]. split; [exact J|].
      destruct (logged_block dfs w vs) as [_ [_ R]]; [now apply (Wl m c)|]. rewrite R. now apply in_map.
    + intros [m [w [bs [H [I [J K]]]]]]. apply in_map_iff in I. destruct I as [[w0 vs] [E I]]. injection E as <- <-. cbn [fst snd] in *.
      destruct (logged_block dfs w0 vs) as [_ [_ R]]; [now apply (Wl m c)|]. rewrite R in K. apply in_map_iff in K. destruct K as [v [<- K]]. exists m, w0, vs, v. auto.
  - intros c y x. rewrite Wo. split.
    + intros [m [w [vs [H [I J]]]]]. exists m, w, (batches_of w vs). split; [exact H|]. split; [apply (in_map block_batches) in I; exact I|exact J].
    + intros [m [w [bs [H [I J]]]]]. apply in_map_iff in I. destruct I as [[w0 vs] [E I]]. injection E as <- <-. exists m, w0, vs. auto.
Qed.
End Values.
