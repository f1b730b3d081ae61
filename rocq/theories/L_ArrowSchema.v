(** Lemmas for C50, and the simple cases of C48 and C49. *)
From Verif Require Import Base Str L_Str L_Base M_Utf8 M_Avro S_Avro L_Avro L_Columns L_Batch.
Local Open Scope string_scope.

Lemma has_null_in : forall vs, has_null vs = true <-> In ScNull vs.
Proof.
  intros vs. unfold has_null. rewrite existsb_exists. split; [intros [x [I E]]; now destruct x|]. intros I. now exists ScNull.
Qed.
Lemma other_in : forall vs x, other vs = Some x -> In x vs /\ In ScNull vs.
Proof. intros vs x O. destruct (other_spec vs x O) as [[ -> | -> ] _]; cbn; auto. Qed.
(** the nullability of the converted field *)
Lemma to_type_null : forall s n0 d n, valid s -> to_type s n0 = Ok (d, n) -> n = n0 \/ (n = true /\ may_be_null s).
Proof.
  intros s n0 d n V T. destruct (union_dec s) as [[vs ->]|N].
  - destruct (union_cases vs V) as [[x O]|[O H2]].
    + rewrite (to_type_union vs x n0 O) in T. destruct (to_type x true) as [[d' n']| |]; try discriminate. injection T as _ <-. right. split; [reflexivity|].
      exists vs. split; [reflexivity|]. now apply (other_in vs x).
    + rewrite (to_type_general vs n0 H2) in T. destruct (mapM _ vs); try discriminate. injection T as _ <-. now left.
  - left. destruct s; cbn in T; try discriminate; try (injection T as _ <-; reflexivity).
    + destruct (to_type s false) as [[d' n']| |]; try discriminate. now injection T as _ <-.
    + destruct (to_type s false) as [[d' n']| |]; try discriminate. now injection T as _ <-.
    + now elim (N variants).
    + change (to_type (ScRecord fields) n0 = Ok (d, n)) in T. rewrite to_type_record in T. destruct (mapM field_to fields); try discriminate. now injection T as _ <-.
Qed.
Lemma to_type_may_be_null : forall s n0 d n, valid s -> to_type s n0 = Ok (d, n) -> may_be_null s -> n0 = true \/ ~ wide_null s -> n = true.
Proof.
  intros s n0 d n V T [vs [-> I]] H. destruct (union_cases vs V) as [[x O]|[O H2]].
  - rewrite (to_type_union vs x n0 O) in T. destruct (to_type x true) as [[d' n']| |]; try discriminate. now injection T as _ <-.
  - rewrite (to_type_general vs n0 H2) in T. destruct (mapM _ vs); try discriminate. injection T as _ <-. destruct H as [H|H]; [assumption|]. elim H. exists vs. split; [apply pt_refl|].
    split; [assumption|]. intros L. rewrite (proj2 (has_null_in vs) I), L in H2. discriminate.
Qed.
Lemma nullable_iff : forall s d n, valid s -> ~ wide_null s -> to_type s false = Ok (d, n) -> (n = true <-> may_be_null s).
Proof.
  intros s d n V W T. split; [intros ->|intros M].
  - now destruct (to_type_null s false d true V T) as [E|[_ M]].
  - apply (to_type_may_be_null s false d n V T M). now right.
Qed.
Lemma valid_variant : forall vs x, valid (ScUnion vs) -> In x vs -> valid x.
Proof. intros vs x V I. inversion V as [| |vs' Hv H2| |s A B C D]; subst; [now apply Hv|exfalso; now apply (C vs)]. Qed.
Lemma valid_field : forall fs n al s, valid (ScRecord fs) -> In (n, al, s) fs -> valid s.
Proof. intros fs n al s V I. inversion V as [| | |l ND H|s' A B C D]; subst; [now apply (H n al s)|exfalso; now apply (D fs)]. Qed.
Lemma to_type_arrow : forall s, valid s -> ~ wide_null s -> forall n0 d n, to_type s n0 = Ok (d, n) -> arrow_type s d.
Proof.
  intros s. pattern s. apply avro_ind'; clear s.
  - intros i IH V W n0 d n T. destruct (array_parts i n0 d n T) as [d' [n' [T' ->]]].
    assert (Vi : valid i) by (now apply array_valid_item). assert (Wi : ~ wide_null i) by (intros [vs [P H]]; apply W; exists vs; split; [now apply pt_array|assumption]).
    apply at_array; [now apply (IH Vi Wi false d' n')|]. now apply (nullable_iff i d').
  - intros i IH V W n0 d n T. cbn in T. destruct (to_type i false) as [[d' n']| |] eqn:T'; try discriminate. injection T as <- _.
    apply at_map. apply (IH (ltac:(inversion V as [| | | |s A B]; subst; [assumption|exfalso; now apply (B i)])) (ltac:(intros [vs [P H]]; apply W; exists vs; split; [now apply pt_map|assumption])) false d' n' T').
  - intros vs IH V W n0 d n T. rewrite Forall_forall in IH. assert (Wx : forall x, In x vs -> ~ wide_null x) by (intros x I [us [P H]]; apply W; exists us; split; [now apply (pt_union _ x)|assumption]).
    destruct (union_cases vs V) as [[x O]|[O H2]].
    + rewrite (to_type_union vs x n0 O) in T. destruct (to_type x true) as [[d' n']| |] eqn:T'; try discriminate. injection T as <- _. destruct (other_in vs x O) as [I _].
      apply (at_nullable vs x); [now apply other_spec|]. now apply (IH x I (valid_variant vs x V I) (Wx x I) true d' n').
    + rewrite (to_type_general vs n0 H2) in T. destruct (mapM _ vs) as [l| |] eqn:M; try discriminate. injection T as <- _. apply at_union.
      * intros s. split; intros ->; cbn in H2; [discriminate|]. rewrite orb_true_r in H2. discriminate.
      * apply mapM_ok in M. revert IH Wx M. generalize (has_null vs) as b. assert (Vx : forall x, In x vs -> valid x) by (intros x I; now apply (valid_variant vs)). clear -Vx. intros b IH Wx M.
        induction M as [|x y vs l H M IHm]; constructor.
        -- destruct (to_type x b) as [[d' u]| |] eqn:T'; try discriminate. injection H as <-. apply (IH x (or_introl eq_refl) (Vx x (or_introl eq_refl)) (Wx x (or_introl eq_refl)) b d' u T').
        -- apply IHm; intros z I; [apply Vx|apply IH|apply Wx]; now right.
  - intros fs IH V W n0 d n T. rewrite Forall_forall in IH. rewrite to_type_record in T. destruct (mapM field_to fs) as [l| |] eqn:M; try discriminate. injection T as <- _. apply at_record.
    apply mapM_ok in M. assert (Hf : forall n al s, In (n, al, s) fs -> valid s /\ ~ wide_null s).
    { intros nm al s I. split; [now apply (valid_field fs nm al)|]. intros [us [P H]]; apply W; exists us; split; [now apply (pt_field _ nm al s)|assumption]. }
    clear V W. induction M as [|[[nm al] s] df fs l H M IHm]; constructor.
    + unfold field_to in H. cbn [fst snd] in H. destruct (to_type s false) as [[d' u]| |] eqn:T'; try discriminate. injection H as <-. destruct (Hf nm al s (or_introl eq_refl)) as [Vs Ws].
      split; [reflexivity|]. split; [apply (IH _ (or_introl eq_refl) Vs Ws false d' u T')|]. now apply (nullable_iff s d').
    + apply IHm; [intros z I; apply IH; now right|]. intros nm' al' s' I. apply (Hf nm' al'). now right.
  - intros s A B C D V W n0 d n T. destruct s; try (exfalso; first [exact (A _ eq_refl)|exact (B _ eq_refl)|exact (C _ eq_refl)|exact (D _ eq_refl)]); try discriminate T;
      cbn in T; injection T as <- _; constructor.
Qed.
Lemma schema_fields : forall fs, valid (ScRecord fs) -> ~ part ScRef (ScRecord fs) -> ~ part ScLocalTimestamp (ScRecord fs) ->
  exists dfs, to_arrow_schema (ScRecord fs) = Ok dfs /\ Forall2 (fun f df => fname df = fst (fst f) /\ (fnull df = true <-> may_be_null (snd f))) fs dfs.
Proof.
  intros fs V R L. assert (T : exists dfs, to_arrow_schema (ScRecord fs) = Ok dfs).
  { cbn. apply mapM_succeeds. intros [[nm al] s] I. cbn [fst snd]. destruct (to_type_total s (valid_field fs nm al s V I) (is_nullable s)) as [[[d [u ->]] _]|[_ [Us|Us]]]; [eexists; reflexivity| |].
    - elim R. now apply (pt_field _ nm al s).
    - elim L. now apply (pt_field _ nm al s). }
  destruct T as [dfs T]. exists dfs. split; [assumption|]. cbn in T. apply mapM_ok in T.
  assert (Hf : forall n al s, In (n, al, s) fs -> valid s) by (intros nm al s I; now apply (valid_field fs nm al)). clear -T Hf.
  induction T as [|[[nm al] s] df fs l H T IH]; constructor.
  - cbn [fst snd] in *. destruct (to_type s (is_nullable s)) as [[d u]| |] eqn:Et; try discriminate. injection H as <-. split; [reflexivity|]. cbn [fnull snd].
    pose proof (Hf nm al s (or_introl eq_refl)) as Vs. split; [intros ->|intros M].
    + destruct (to_type_null s (is_nullable s) d true Vs Et) as [E|[_ M]]; [|assumption]. destruct s; try discriminate. exists variants. split; [reflexivity|]. apply has_null_in. now symmetry.
    + apply (to_type_may_be_null s _ d u Vs Et M). left. destruct M as [vs [-> I]]. now apply has_null_in.
  - apply IH. intros nm' al' s' I. apply (Hf nm' al'). now right.
Qed.
Lemma schema_nested : forall fs dfs, valid (ScRecord fs) -> ~ wide_null (ScRecord fs) -> to_arrow_schema (ScRecord fs) = Ok dfs ->
  Forall2 (fun f df => fname df = fst (fst f) /\ arrow_type (snd f) (ftype df) /\ (fnull df = true <-> may_be_null (snd f))) fs dfs.
Proof.
  intros fs dfs V W T. cbn in T. apply mapM_ok in T.
  assert (Hf : forall n al s, In (n, al, s) fs -> valid s /\ ~ wide_null s).
  { intros nm al s I. split; [now apply (valid_field fs nm al)|]. intros [us [P H]]; apply W; exists us; split; [now apply (pt_field _ nm al s)|assumption]. }
  clear V W. induction T as [|[[nm al] s] df fs l H T IH]; constructor.
  - cbn [fst snd] in *. destruct (to_type s (is_nullable s)) as [[d u]| |] eqn:Et; try discriminate. injection H as <-. destruct (Hf nm al s (or_introl eq_refl)) as [Vs Ws].
    split; [reflexivity|]. split; [now apply (to_type_arrow s Vs Ws _ d u Et)|]. cbn [fnull snd]. split; [intros ->|intros M].
    + destruct (to_type_null s (is_nullable s) d true Vs Et) as [E|[_ M]]; [|assumption]. destruct s; try discriminate. exists variants. split; [reflexivity|]. apply has_null_in. now symmetry.
    + apply (to_type_may_be_null s _ d u Vs Et M). now right.
  - apply IH. intros nm' al' s' I. apply (Hf nm' al'). now right.
Qed.
Lemma schema_panics : forall fs, valid (ScRecord fs) -> (to_arrow_schema (ScRecord fs) = Panic <-> part ScRef (ScRecord fs) \/ part ScLocalTimestamp (ScRecord fs)).
Proof.
  intros fs V. pose proof (mapM_total _ _ (fun f => let* (d, n) := to_type (snd f) (is_nullable (snd f)) in Ok (fst (fst f), d, n)) (fun f => unsupported (snd f)) fs) as M.
  destruct M as [[[ys M] N]|[M [[[nm al] s] [I U]]]].
  - intros [[nm al] s] I. cbn [fst snd]. destruct (to_type_total s (valid_field fs nm al s V I) (is_nullable s)) as [[[d [u ->]] U]|[-> U]]; [left|right]; split; try assumption; [eexists; reflexivity|reflexivity].
  - cbn [to_arrow_schema]. rewrite M. split; [discriminate|]. intros H. exfalso.
    assert (X : forall x, (x = ScRef \/ x = ScLocalTimestamp) -> ~ part x (ScRecord fs)).
    { intros x E P. inversion P as [s E1 E2| | | |x' nm al s fs' I P' E1 E2]; subst; [destruct E; discriminate|]. apply (N _ I). destruct E as [ -> | -> ]; [now left|now right]. }
    destruct H as [H|H]; revert H; apply X; auto.
  - cbn [to_arrow_schema]. rewrite M. split; [|reflexivity]. intros _. destruct U as [U|U]; [left|right]; now apply (pt_field _ nm al s).
Qed.

(** ** Simple columns *)
Lemma maybe_nulls_ok : forall (k : avro -> Prop) s v, (forall x, k x -> tolerant x = true /\ (forall w, conforms x w -> nulls_ok x w)) -> maybe k s -> conforms s v -> nulls_ok s v.
Proof.
  intros k s v K [x Kx|x Kx N|x Kx N] C; [now apply K|idtac|idtac]; inversion C as [| | | | | | | | | |vs i y w Hi Cy| | | | | | | | | | | | | |]; subst.
  - destruct i as [|[|i]]; cbn in Hi; [| |now destruct i]; injection Hi as <-.
    + inversion Cy; subst. apply no_null; [reflexivity|]. intros y [<-|[<-|[]]]; [reflexivity|]. now apply K.
    + apply (no_some _ _ x); [reflexivity|assumption|]. now apply K.
  - destruct i as [|[|i]]; cbn in Hi; [| |now destruct i]; injection Hi as <-.
    + apply (no_some _ _ x); [reflexivity|assumption|]. now apply K.
    + inversion Cy; subst. apply no_null; [reflexivity|]. intros y [<-|[<-|[]]]; [|reflexivity]. now apply K.
Qed.
Lemma scalar_nulls : forall x, kept_scalar x = true -> tolerant x = true /\ (forall w, conforms x w -> nulls_ok x w).
Proof. intros x K. split; [now destruct x|]. intros w _. destruct x; try discriminate; apply no_other; discriminate. Qed.
Lemma kept_item_scalar : forall x, kept_item x = true -> kept_scalar x = true.
Proof. intros x K. now destruct x. Qed.
Lemma maybe_weaken : forall (k k' : avro -> Prop) s, (forall x, k x -> k' x) -> maybe k s -> maybe k' s.
Proof. intros k k' s H [x K|x K N|x K N]; [apply mb_plain|apply mb_left|apply mb_right]; auto. Qed.
Definition item_list (x : avro) : Prop := exists i, x = ScArray i /\ maybe (fun y => kept_item y = true) i.
Lemma item_tolerant : forall i, maybe (fun y => kept_item y = true) i -> tolerant_item i = true.
Proof. intros i [x K|x K N|x K N]; destruct x; try discriminate; reflexivity. Qed.
Lemma item_list_nulls : forall x, item_list x -> tolerant x = true /\ (forall w, conforms x w -> nulls_ok x w).
Proof.
  intros x [i [-> M]]. split; [now apply item_tolerant|]. intros w C. inversion C as [| | | | | | | |s l F| | | | | | | | | | | | | | | |]; subst. apply no_array.
  revert F. apply Forall_impl. intros v. apply (maybe_nulls_ok (fun y => kept_scalar y = true)); [exact scalar_nulls|]. revert M. now apply maybe_weaken, kept_item_scalar.
Qed.
Definition simple_column (s : avro) : Prop := scalar_column s \/ list_column s.
Lemma simple_nulls : forall s v, simple_column s -> conforms s v -> nulls_ok s v.
Proof.
  intros s v [M|[ -> |M]] C.
  - now apply (maybe_nulls_ok _ s v scalar_nulls M).
  - inversion C as [| | | | | | | |s l F| | | | | | | | | | | | | | | |]; subst. apply no_array. revert F. apply Forall_impl. intros w _. now apply no_other.
  - now apply (maybe_nulls_ok item_list s v item_list_nulls M).
Qed.
Lemma item_lossless : forall i lo o d, maybe (fun y => kept_item y = true) i -> lossless_item lo o d i = true /\ readable_item i = true.
Proof. intros i lo o d [x K|x K N|x K N]; destruct x; try discriminate; split; reflexivity. Qed.
Lemma simple_lossless : forall s, simple_column s -> lossless false s = true /\ readable s = true.
Proof.
  intros s [[x K|x K N|x K N]|[ -> |[x [i [-> M]]|x [i [-> M]] N|x [i [-> M]] N]]].
  - destruct x; try discriminate; split; reflexivity.
  - destruct x; try discriminate; split; reflexivity.
  - destruct x; try discriminate; split; reflexivity.
  - split; reflexivity.
  - now apply (item_lossless i false false false).
  - now apply (item_lossless i true false false).
  - now apply (item_lossless i true false false).
Qed.
Lemma part_simple : forall s x, simple_column s -> part x s -> x <> ScRef /\ x <> ScLocalTimestamp.
Proof.
  assert (S : forall y x, kept_scalar y = true -> part x y -> x <> ScRef /\ x <> ScLocalTimestamp).
  { intros y x K P. inversion P; subst; try discriminate. split; intros ->; discriminate. }
  assert (Mb : forall (k : avro -> Prop) s x, (forall y, k y -> part x y -> x <> ScRef /\ x <> ScLocalTimestamp) -> maybe k s -> part x s -> x <> ScRef /\ x <> ScLocalTimestamp).
  { intros k s x K [y Ky|y Ky N|y Ky N] P; [now apply (K y)| |]; inversion P as [s' E1 E2| | |x' y' vs I P'|]; subst; try (split; discriminate).
    - destruct I as [<-|[<-|[]]]; [inversion P'; subst; split; discriminate|now apply (K y)].
    - destruct I as [<-|[<-|[]]]; [now apply (K y)|inversion P'; subst; split; discriminate]. }
  intros s x [M|[ -> |M]] P.
  - now apply (Mb _ s x (fun y => S y x) M).
  - inversion P as [s' E1 E2|x' y' P'| | |]; subst; [split; discriminate|]. inversion P'; subst; split; discriminate.
  - apply (Mb _ s x) with (2 := M); [|assumption]. intros y [i [-> Mi]] P'. inversion P' as [s' E1 E2|x' y' P2| | |]; subst; [split; discriminate|].
    apply (Mb _ i x) with (2 := Mi); [|assumption]. intros z Kz. apply S. now apply kept_item_scalar.
Qed.
(** what [batch_shows] says of a cell *)
Lemma batch_cell : forall dfs cols vs i r j n v, batch_shows (dfs, cols) vs -> nth_error vs i = Some (AvRecord r) -> nth_error r j = Some (n, v) ->
  exists df col, nth_error dfs j = Some df /\ nth_error cols j = Some col /\ fname df = n /\ slot_at col i = meaning v.
Proof.
  intros dfs cols vs i r j n v [L [_ S]] Ei Ej. specialize (S i _ Ei). cbn [fst snd meaning] in *. injection S as S.
  assert (E : nth_error (combine (map fname dfs) (map (fun c => slot_at c i) cols)) j = Some (n, meaning v)) by (rewrite S, nth_error_map, Ej; reflexivity).
  rewrite nth_combine, !nth_error_map in E. destruct (nth_error dfs j) as [df|]; [|discriminate]. destruct (nth_error cols j) as [col|]; [|discriminate].
  cbn in E. injection E as E1 E2. exists df, col. auto.
Qed.
Lemma simple_batch : forall fc fs vs, valid (ScRecord fs) -> fs <> [] -> (forall n al s, In (n, al, s) fs -> simple_column s) -> Forall (conforms (ScRecord fs)) vs ->
  exists dfs cols, to_arrow_schema (ScRecord fs) = Ok dfs /\ read_batch fc (ScRecord fs) vs = Ok (dfs, cols) /\ batch_shows (dfs, cols) vs.
Proof.
  intros fc fs vs V Ne H C. destruct (read_batch_shows fc fs vs) as [B|[e [_ R]]]; try assumption.
  - intros [P|P]; inversion P as [| | | |x nm al s l I P']; subst; destruct (part_simple s _ (H nm al s I) P'); congruence.
  - cbn. apply forallb_forall. intros [[nm al] s] I. now apply (simple_lossless s), (H nm al).
  - revert C. apply Forall_impl. intros v C. inversion C as [| | | | | | | | | | |fs' r F| | | | | | | | | | | | |]; subst. apply no_record. clear -F H. induction F as [|[[nm al] s] e fs r [_ Cf] F IH]; constructor.
    + cbn [snd] in *. apply simple_nulls; [|assumption]. apply (H nm al). now left.
    + apply IH. intros nm' al' s' I. apply (H nm' al'). now right.
  - exfalso. assert (R' : readable (ScRecord fs) = true); [|congruence]. cbn. apply forallb_forall. intros [[nm al] s] I. now apply (simple_lossless s), (H nm al).
Qed.
