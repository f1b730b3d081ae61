(** Lemmas for P_Docs. *)
From Verif Require Import Base Str M_Avro M_Docs S_Docs L_Base.
Local Open Scope string_scope.

Section Induction.
Variable P : mschema -> Prop.
Hypothesis H1 : forall a, P (MsOther a).
Hypothesis H2 : forall s, P s -> P (MsArray s).
Hypothesis H3 : forall s, P s -> P (MsMap s).
Hypothesis H4 : forall vs, Forall P vs -> P (MsUnion vs).
Hypothesis H5 : forall n fields, Forall (fun f => P (snd f)) fields -> P (MsRecord n fields).
Hypothesis H6 : forall n symbols, P (MsEnum n symbols).
Hypothesis H7 : forall n size, P (MsFixed n size).
Fixpoint mschema_rect' (s : mschema) : P s :=
  match s with
  | MsOther a => H1 a
  | MsArray s => H2 s (mschema_rect' s)
  | MsMap s => H3 s (mschema_rect' s)
  | MsUnion vs => H4 vs ((fix all l : Forall P l := match l with [] => Forall_nil _ | s :: r => Forall_cons _ (mschema_rect' s) (all r) end) vs)
  | MsRecord n fields => H5 n fields ((fix all l : Forall (fun f => P (snd f)) l := match l with [] => Forall_nil _ | f :: r => Forall_cons _ (match f as f' return P (snd f') with (_, s) => mschema_rect' s end) (all r) end) fields)
  | MsEnum n l => H6 n l
  | MsFixed n k => H7 n k
  end.
End Induction.

Definition drop_meta (r : outcome (mtype * bool)) : outcome (dtype * bool) := let* (t, n) := r in Ok (erase_type t, n).
Lemma null_same : forall s, is_null_schema (undocumented s) = is_null s.
Proof. now intros []. Qed.
Lemma any_null_same : forall vs, has_null (map undocumented vs) = any_null vs.
Proof. induction vs as [|s vs IH]; [reflexivity|]. cbn [map]. unfold has_null, any_null in *. cbn [existsb]. now rewrite null_same, IH. Qed.

Lemma erased : forall s nullable, to_type (undocumented s) nullable = drop_meta (to_mtype s nullable).
Proof.
  induction s as [a|s IH|s IH|vs IH|n fields IH|n l|n k] using mschema_rect'; intros nullable; cbn [undocumented to_type to_mtype]; try reflexivity.
  - destruct (to_type a nullable) as [[d b]| |]; reflexivity.
  - rewrite IH. destruct (to_mtype s false) as [[t b]| |]; reflexivity.
  - rewrite IH. destruct (to_mtype s false) as [[t b]| |]; reflexivity.
  - rewrite any_null_same, map_length. destruct (any_null vs && Nat.eqb (List.length vs) 2).
    + generalize (any_null vs) as b. intros b. induction IH as [|s vs E F IH']; [reflexivity|]. cbn [map]. rewrite null_same. destruct (is_null s); [exact IH'|]. rewrite E. destruct (to_mtype s b) as [[t b']| |]; reflexivity.
    + generalize (any_null vs) as b. intros b.
      assert (A : forall l, Forall (fun s => forall nullable, to_type (undocumented s) nullable = drop_meta (to_mtype s nullable)) l ->
        (fix all (l : list avro) : outcome (list field) := match l with [] => Ok [] | s :: r => let* (d, n) := to_type s b in let* fs := all r in Ok ((default_field_name d, d, n) :: fs) end) (map undocumented l)
        = let* fs := (fix all (l : list mschema) : outcome (list mfield) := match l with [] => Ok [] | s :: r => let* (t, n) := to_mtype s b in let* fs := all r in Ok ((default_field_name (erase_type t), t, n, []) :: fs) end) l in
          Ok (map without_metadata fs)).
      { intros l F. induction F as [|s l E F IH']; [reflexivity|]. cbn [map]. rewrite E. destruct (to_mtype s b) as [[t b']| |]; [|reflexivity|reflexivity]. unfold drop_meta. cbn [bind]. rewrite IH'.
        match goal with |- context [bind ?x] => destruct x as [fs| |]; reflexivity end. }
      rewrite (A vs IH). match goal with |- context [bind ?x] => destruct x as [fs| |]; reflexivity end.
  - assert (A : forall l, Forall (fun f : string * list string * option string * mschema => forall nullable, to_type (undocumented (snd f)) nullable = drop_meta (to_mtype (snd f) nullable)) l ->
        (fix all (l : list (string * list string * avro)) : outcome (list field) := match l with [] => Ok [] | (name, _, s) :: r => let* (d, n) := to_type s false in let* fs := all r in Ok ((name, d, n) :: fs) end)
          (map (fun f => match f with (name, aliases, _, s) => (name, aliases, undocumented s) end) l)
        = let* fs := (fix all (l : list (string * list string * option string * mschema)) : outcome (list mfield) := match l with [] => Ok [] | (name, _, doc, s) :: r => let* (t, n) := to_mtype s false in let* fs := all r in Ok ((name, t, n, field_props doc) :: fs) end) l in
          Ok (map without_metadata fs)).
    { intros l F. induction F as [|[[[name al] doc] s] l E F IH']; [reflexivity|]. cbn [map snd] in *. rewrite E. destruct (to_mtype s false) as [[t b']| |]; [|reflexivity|reflexivity]. unfold drop_meta. cbn [bind]. rewrite IH'.
      match goal with |- context [bind ?x] => destruct x as [fs| |]; reflexivity end. }
    rewrite (A fields IH). match goal with |- context [bind ?x] => destruct x as [fs| |]; reflexivity end.
Qed.

(** The fields of a nested record and the variants of a union, one by one. *)
Definition one_field (f : string * list string * option string * mschema) (g : mfield) : Prop :=
  match f, g with (name, _, doc, s), (name', t, n, m) => name' = name /\ to_mtype s false = Ok (t, n) /\ m = field_props doc end.
Lemma record_fields : forall n fields nullable t b, to_mtype (MsRecord n fields) nullable = Ok (t, b) -> b = nullable /\ exists fs, t = MtStruct fs /\ Forall2 one_field fields fs.
Proof.
  intros n fields nullable t b H. cbn [to_mtype] in H.
  match type of H with (bind ?x _) = _ => assert (A : forall fs, x = Ok fs -> Forall2 one_field fields fs) end.
  { clear H. induction fields as [|[[[name al] doc] s] fields IH]; intros fs H; [injection H as <-; constructor|]. cbn [bind] in H. destruct (to_mtype s false) as [[t' b']| |] eqn:E; try discriminate H. cbn [bind] in H.
    match type of H with (bind ?x _) = _ => destruct x as [r| |] eqn:E2; try discriminate H end. cbn [bind] in H. injection H as <-. constructor; [|now apply IH]. repeat split. exact E. }
  match type of H with (bind ?x _) = _ => destruct x as [fs| |] eqn:E; try discriminate H end. cbn [bind] in H. injection H as <- <-. split; [reflexivity|]. exists fs. auto.
Qed.
Definition one_variant (b : bool) (s : mschema) (g : mfield) : Prop := match g with (_, t, n, m) => to_mtype s b = Ok (t, n) /\ m = [] end.
Lemma union_variants : forall vs nullable t b, any_null vs && Nat.eqb (List.length vs) 2 = false -> to_mtype (MsUnion vs) nullable = Ok (t, b) -> b = nullable /\ exists fs, t = MtUnion fs /\ Forall2 (one_variant (any_null vs)) vs fs.
Proof.
  intros vs nullable t b O H. cbn [to_mtype] in H. rewrite O in H. revert H. generalize (any_null vs) as x. intros x H.
  match type of H with (bind ?y _) = _ => assert (A : forall fs, y = Ok fs -> Forall2 (one_variant x) vs fs) end.
  { clear H O. induction vs as [|s vs IH]; intros fs H; [injection H as <-; constructor|]. cbn [bind] in H. destruct (to_mtype s x) as [[t' b']| |] eqn:E; try discriminate H. cbn [bind] in H.
    match type of H with (bind ?y _) = _ => destruct y as [r| |] eqn:E2; try discriminate H end. cbn [bind] in H. injection H as <-. constructor; [|now apply IH]. split; [exact E|reflexivity]. }
  match type of H with (bind ?y _) = _ => destruct y as [fs| |] eqn:E; try discriminate H end. cbn [bind] in H. injection H as <- <-. split; [reflexivity|]. exists fs. auto.
Qed.
Lemma is_null_spec : forall s, is_null s = true <-> s = MsOther ScNull.
Proof. intros s. split; [destruct s as [[] | | | | | |]; intros H; try discriminate H; reflexivity|now intros ->]. Qed.
Lemma any_null_spec : forall vs, any_null vs = true <-> In (MsOther ScNull) vs.
Proof.
  intros vs. unfold any_null. rewrite existsb_exists. split; [intros [s [I N]]; apply is_null_spec in N; now subst|intros I; exists (MsOther ScNull); split; [exact I|reflexivity]].
Qed.
(** An optional type. *)
Lemma optional_cases : forall vs nullable t b, any_null vs && Nat.eqb (List.length vs) 2 = true -> to_mtype (MsUnion vs) nullable = Ok (t, b) ->
  exists s n, s <> MsOther ScNull /\ (vs = [s; MsOther ScNull] \/ vs = [MsOther ScNull; s]) /\ to_mtype s true = Ok (t, n).
Proof.
  intros vs nullable t b O H. cbn [to_mtype] in H. rewrite O in H. apply Bool.andb_true_iff in O as [N L]. rewrite N in H. apply Nat.eqb_eq in L. apply any_null_spec in N.
  destruct vs as [|s [|s' [|? ?]]]; try discriminate L. clear L.
  assert (X : forall s, is_null s = false -> s <> MsOther ScNull) by (intros z Z ->; discriminate Z).
  destruct (is_null s) eqn:E1.
  - apply is_null_spec in E1. subst s. destruct (is_null s') eqn:E2; [discriminate H|]. destruct (to_mtype s' true) as [[t' n']| |] eqn:E; try discriminate H. cbn [bind] in H. injection H as <- <-. exists s', n'. auto.
  - destruct N as [N|[N|[]]]; [subst s; discriminate E1|]. subst s'. destruct (to_mtype s true) as [[t' n']| |] eqn:E; try discriminate H. cbn [bind] in H. injection H as <- <-. exists s, n'. auto.
Qed.
Lemma field_props_spec : forall doc m, m = field_props doc <-> doc_only doc m.
Proof. now intros [d|] m. Qed.
Lemma Forall2_nth : forall A B (R : A -> B -> Prop) l l', Forall2 R l l' -> forall i, (forall x, nth_error l i = Some x -> exists y, nth_error l' i = Some y /\ R x y) /\ (forall y, nth_error l' i = Some y -> exists x, nth_error l i = Some x /\ R x y).
Proof. intros A B R l l' F. induction F as [|x y l l' H F IH]; intros [|i]; cbn; split; intros z E; try discriminate E; try (injection E as <-; eauto); apply IH; exact E. Qed.

Lemma docs : forall s nullable t b, to_mtype s nullable = Ok (t, b) -> forall path m, field_meta t path m <-> exists doc, field_doc s path doc /\ doc_only doc m.
Proof.
  induction s as [a|s IH|s IH|vs IH|n fields IH|n l|n k] using mschema_rect'; intros nullable t b H path m.
  - cbn [to_mtype] in H. destruct (to_type a nullable) as [[d x]| |]; try discriminate H. injection H as <- <-. split; [intros X; inversion X|intros [doc [X _]]; inversion X].
  - cbn [to_mtype] in H. destruct (to_mtype s false) as [[t' x]| |] eqn:E; try discriminate H. cbn [bind] in H. injection H as <- <-. specialize (IH false t' x E path m). split.
    + intros X. inversion X; subst. match goal with D : field_meta _ _ _ |- _ => apply IH in D as [doc [D1 D2]] end. exists doc. split; [now constructor|exact D2].
    + intros [doc [X D]]. inversion X; subst. constructor. apply IH. eauto.
  - cbn [to_mtype] in H. destruct (to_mtype s false) as [[t' x]| |] eqn:E; try discriminate H. cbn [bind] in H. injection H as <- <-. specialize (IH false t' x E path m). split.
    + intros X. inversion X; subst. match goal with D : field_meta _ _ _ |- _ => apply IH in D as [doc [D1 D2]] end. exists doc. split; [now constructor|exact D2].
    + intros [doc [X D]]. inversion X; subst. constructor. apply IH. eauto.
  - destruct (any_null vs && Nat.eqb (List.length vs) 2) eqn:O.
    + destruct (optional_cases vs nullable t b O H) as [s [n [NN [C E]]]].
      assert (IHs : forall p m, field_meta t p m <-> exists doc, field_doc s p doc /\ doc_only doc m).
      { intros p m'. rewrite Forall_forall in IH. apply (IH s) with true n; [|exact E]. destruct C as [ -> | -> ]; cbn; auto. }
      rewrite IHs. apply Bool.andb_true_iff in O as [N L]. apply Nat.eqb_eq in L. apply any_null_spec in N. split.
      * intros [doc [D1 D2]]. exists doc. split; [|exact D2]. destruct C as [ -> | -> ]; [now apply fd_first|now apply fd_second].
      * intros [doc [D1 D2]]. exists doc. split; [|exact D2]. inversion D1 as [| | | |s' p d NN' D E1 E2|s' p d NN' D E1 E2|vs' i s' p d NO NT D]; subst.
        -- destruct C as [C|C]; inversion C; subst; try assumption; exfalso; now (apply NN || apply NN').
        -- destruct C as [C|C]; inversion C; subst; try assumption; exfalso; now (apply NN || apply NN').
        -- exfalso. now apply NO.
    + destruct (union_variants vs nullable t b O H) as [_ [fs [ -> F2]]].
      assert (NO : ~ (List.length vs = 2%nat /\ In (MsOther ScNull) vs)). { intros [L I]. apply any_null_spec in I. rewrite I, L in O. discriminate O. }
      rewrite Forall_forall in IH. split.
      * intros X. inversion X as [ | | | |fs' i name t' nu m' p mm NT D Q1 Q2 Q3]. subst fs' path mm. destruct (proj2 (Forall2_nth _ _ _ _ _ F2 i) _ NT) as [s [NS [E _]]].
        destruct (proj1 (IH s (nth_error_In _ _ NS) _ _ _ E _ _) D) as [doc [D1 D2]]. exists doc. split; [|exact D2]. now apply fd_variant with s.
      * intros [doc [X D2]]. inversion X as [| | | |s' p d NN' D E1 E2|s' p d NN' D E1 E2|vs' i s' p d NO' NT D]; subst.
        -- exfalso. apply NO. split; [reflexivity|]. right. now left.
        -- exfalso. apply NO. split; [reflexivity|]. now left.
        -- destruct (proj1 (Forall2_nth _ _ _ _ _ F2 i) _ NT) as [[[[name t'] nu] m'] [NG [E _]]]. apply fm_variant with name t' nu m'; [exact NG|]. apply (IH s' (nth_error_In _ _ NT) _ _ _ E). eauto.
  - destruct (record_fields n fields nullable t b H) as [_ [fs [ -> F2]]]. rewrite Forall_forall in IH. split.
    + intros X. inversion X as [fs' i name t' nu mm NT|fs' i name t' nu m' p mm NT D| | |]; subst.
      * destruct (proj2 (Forall2_nth _ _ _ _ _ F2 i) _ NT) as [[[[name' al] doc] s] [NS [_ [_ E]]]]. exists doc. split; [now apply fd_here with name' al s|]. now apply field_props_spec.
      * destruct (proj2 (Forall2_nth _ _ _ _ _ F2 i) _ NT) as [[[[name' al] doc'] s] [NS [_ [E _]]]]. destruct (proj1 (IH _ (nth_error_In _ _ NS) _ _ _ E _ _) D) as [doc [D1 D2]]. exists doc. split; [|exact D2]. now apply fd_in with name' al doc' s.
    + intros [doc [X D2]]. inversion X as [n' fs' i name al d s NT|n' fs' i name al d s p dd NT D| | | | |]; subst.
      * destruct (proj1 (Forall2_nth _ _ _ _ _ F2 i) _ NT) as [[[[name' t'] nu] m'] [NG [_ [_ E]]]]. apply field_props_spec in D2. subst m m'. now apply fm_here with name' t' nu.
      * destruct (proj1 (Forall2_nth _ _ _ _ _ F2 i) _ NT) as [[[[name' t'] nu] m'] [NG [_ [E _]]]]. apply fm_in with name' t' nu m'; [exact NG|]. apply (IH _ (nth_error_In _ _ NT) _ _ _ E). eauto.
  - injection H as <- <-. split; [intros X; inversion X|intros [doc [X _]]; inversion X].
  - injection H as <- <-. split; [intros X; inversion X|intros [doc [X _]]; inversion X].
Qed.

Lemma aliased_full : forall n al a, names_split n -> n_aliases n = Some al -> In a al -> aliased a (n_namespace n) None = full_name (n_namespace n) a.
Proof.
  intros n al a NS E I. destruct (NS al a E I) as [D NE]. unfold aliased, full_name, fullname. destruct a as [[ns|] name]; cbn [fst snd] in *; rewrite D.
  - destruct (String.eqb ns "") eqn:X; [|reflexivity]. apply String.eqb_eq in X. congruence.
  - now destruct (n_namespace n).
Qed.
Lemma named_of_spec : forall s n, named_of s = Some n <-> of_type s n.
Proof.
  intros s n. unfold of_type. split.
  - destruct s; intros H; try discriminate H; injection H as <-; eauto.
  - intros [[f ->]|[[f ->]|[f ->]]]; reflexivity.
Qed.
Lemma props : forall s, (forall n, of_type s n -> names_split n) -> describes s (external_props s).
Proof.
  intros s NS. unfold external_props, describes. destruct (named_of s) as [n|] eqn:E.
  - apply named_of_spec in E. specialize (NS n E). assert (U : forall n', of_type s n' -> n' = n) by (intros n' O; apply named_of_spec in O, E; congruence).
    assert (M : forall al, n_aliases n = Some al -> map (fun a => aliased a (n_namespace n) None) al = map (full_name (n_namespace n)) al) by (intros al A; apply map_ext_in; intros a I; now apply aliased_full with al).
    split.
    + destruct (n_doc n), (n_aliases n); cbn; repeat (constructor; [intros X; repeat destruct X as [X|X]; try discriminate X; destruct X|]); constructor.
    + intros key v. rewrite in_app_iff. split.
      * intros [I|I].
        -- left. destruct (n_doc n) as [d|] eqn:D; [|destruct I]. destruct I as [I|[]]. injection I as <- <-. split; [reflexivity|]. eauto.
        -- right. destruct (n_aliases n) as [al|] eqn:A; [|destruct I]. destruct I as [I|[]]. injection I as <- <-. split; [reflexivity|]. exists n, al. repeat split; auto. now rewrite (M al eq_refl).
      * intros [[ -> [n' [O D]]]|[ -> [n' [al [O [A ->]]]]]]; apply U in O; subst n'.
        -- left. rewrite D. now left.
        -- right. rewrite A. left. now rewrite (M al A).
  - assert (NO : forall n, ~ of_type s n) by (intros n O; apply named_of_spec in O; congruence). split; [constructor|]. intros key v. split; [intros []|]. intros [[_ [n [O _]]]|[_ [n [al [O _]]]]]; now apply NO in O.
Qed.
