(** Lemmas for C48-C50: reading Avro rows into Arrow columns. *)
From Verif Require Import Base Str L_Str L_Base M_Utf8 M_Avro S_Avro.
Local Open Scope string_scope.

(** ** Induction over schemas *)
Section AvroInd.
Variable P : avro -> Prop.
Hypothesis Parray : forall i, P i -> P (ScArray i).
Hypothesis Pmap : forall i, P i -> P (ScMap i).
Hypothesis Punion : forall vs, Forall P vs -> P (ScUnion vs).
Hypothesis Precord : forall fs, Forall (fun f => P (snd f)) fs -> P (ScRecord fs).
Hypothesis Pother : forall s, (forall i, s <> ScArray i) -> (forall i, s <> ScMap i) -> (forall l, s <> ScUnion l) -> (forall l, s <> ScRecord l) -> P s.
Fixpoint avro_ind' (s : avro) : P s.
Proof.
  destruct s; try (apply Pother; discriminate).
  - apply Parray, avro_ind'.
  - apply Pmap, avro_ind'.
  - apply Punion. induction variants; constructor; [apply avro_ind'|assumption].
  - apply Precord. induction fields as [|f fields IH]; constructor; [apply avro_ind'|assumption].
Qed.
End AvroInd.

(** The schema that a union with null is of. *)
Definition other (vs : list avro) : option avro :=
  match vs with
  | [a; b] => if is_null_schema a then (if is_null_schema b then None else Some b) else if is_null_schema b then Some a else None
  | _ => None
  end.
Lemma other_spec : forall vs x, other vs = Some x -> (vs = [ScNull; x] \/ vs = [x; ScNull]) /\ x <> ScNull.
Proof.
  intros [|a [|b [|]]] x H; try discriminate. cbn in H. destruct a; cbn in H; destruct b; cbn in H; try discriminate; injection H as <-; split; auto; discriminate.
Qed.
Lemma union_cases : forall vs, valid (ScUnion vs) -> (exists x, other vs = Some x) \/ (other vs = None /\ has_null vs && Nat.eqb (List.length vs) 2 = false).
Proof.
  intros vs V. inversion V as [| |vs' Hv H2| |s A B C D]; subst; [|exfalso; now apply (C vs)]. clear V.
  destruct vs as [|a [|b [|c r]]]; try (right; split; [reflexivity|apply andb_false_r]).
  cbn [other has_null existsb]. destruct a eqn:Ea; destruct b eqn:Eb; cbn; eauto. exfalso. now apply (H2 [] [] []).
Qed.
Ltac union_two H := let E := fresh "E" in let N := fresh "N" in destruct (other_spec _ _ H) as [[E|E] N]; subst;
  match goal with _ : ?x <> ScNull |- _ => destruct x end; try reflexivity; try now elim N.
Lemma readable_union : forall vs x, other vs = Some x -> readable (ScUnion vs) = readable x /\ readable_item (ScUnion vs) = readable_item x.
Proof. intros vs x H. split; union_two H. Qed.
Lemma lossless_union : forall vs x, other vs = Some x -> forall o, lossless o (ScUnion vs) = lossless true x.
Proof. intros vs x H o. union_two H. Qed.
Lemma lossless_item_union : forall vs x, other vs = Some x -> forall a o d, lossless_item a o d (ScUnion vs) = lossless_item a true d x.
Proof. intros vs x H a o d. union_two H. Qed.
Lemma tolerant_union : forall vs x, other vs = Some x -> tolerant (ScUnion vs) = tolerant x /\ tolerant_item (ScUnion vs) = tolerant_item x.
Proof. intros vs x H. split; union_two H. Qed.
Lemma readable_none : forall vs, other vs = None -> has_null vs && Nat.eqb (List.length vs) 2 = false -> readable (ScUnion vs) = false /\ readable_item (ScUnion vs) = false.
Proof.
  intros vs N H. destruct vs as [|a [|b [|c r]]]; try (split; destruct a; reflexivity); try (split; reflexivity).
  - destruct a; destruct b; cbn in *; try discriminate; split; reflexivity.
  - split; destruct a; try reflexivity; destruct b; reflexivity.
Qed.

(** ** Types *)
Definition field_to (f : string * list string * avro) : outcome field :=
  let* (d, n) := to_type (snd f) false in Ok (fst (fst f), d, n).
Lemma to_type_record : forall fs n, to_type (ScRecord fs) n = let* l := mapM field_to fs in Ok (DStruct l, n).
Proof.
  intros fs n. cbn [to_type]. f_equal. induction fs as [|[[name al] s] r IH]; [reflexivity|]. cbn [mapM]. unfold field_to at 1. cbn [fst snd].
  rewrite IH. now destruct (to_type s false) as [[d u]| |].
Qed.
Lemma to_type_union : forall vs x n, other vs = Some x -> to_type (ScUnion vs) n = let* (d, _) := to_type x true in Ok (d, true).
Proof. intros vs x n H. destruct (other_spec _ _ H) as [[E|E] N]; subst; cbn; destruct x; try reflexivity; now elim N. Qed.
Lemma to_type_general : forall vs n, has_null vs && Nat.eqb (List.length vs) 2 = false ->
  to_type (ScUnion vs) n = let* l := mapM (fun s => let* (d, u) := to_type s (has_null vs) in Ok (default_field_name d, d, u)) vs in Ok (DUnion l, n).
Proof.
  intros vs n H. cbn [to_type]. rewrite H. f_equal. generalize (has_null vs) as b. clear H. intros b. induction vs as [|s r IH]; [reflexivity|]. cbn [mapM].
  rewrite IH. now destruct (to_type s b) as [[d u]| |].
Qed.

(** ** C50: which schemas have an Arrow schema *)
Definition unsupported (s : avro) : Prop := part ScRef s \/ part ScLocalTimestamp s.
Lemma part_other : forall x s, (forall i, s <> ScArray i) -> (forall i, s <> ScMap i) -> (forall l, s <> ScUnion l) -> (forall l, s <> ScRecord l) ->
  part x s -> x = s.
Proof. intros x s A B C D H. destruct H; try reflexivity; exfalso; [now apply (A s)|now apply (B s)|now apply (C vs)|now apply (D fs)]. Qed.
Lemma mapM_total : forall A B (f : A -> outcome B) (bad : A -> Prop) l,
  (forall x, In x l -> (exists y, f x = Ok y) /\ ~ bad x \/ f x = Panic /\ bad x) ->
  (exists ys, mapM f l = Ok ys) /\ (forall x, In x l -> ~ bad x) \/ mapM f l = Panic /\ exists x, In x l /\ bad x.
Proof.
  intros A B f bad l H. induction l as [|x l IH]; [left; split; [now exists []|now intros x []]|].
  cbn [mapM]. destruct (H x (or_introl eq_refl)) as [[[y E] N]|[E N]]; rewrite E; cbn [bind].
  - destruct IH as [[[ys E'] N']|[E' [z [I N']]]]; [intros z I; apply H; now right| |]; rewrite E'; cbn [bind].
    + left. split; [now exists (y :: ys)|]. intros z [ <- |I]; auto.
    + right. split; [reflexivity|]. exists z. split; [now right|assumption].
  - right. split; [reflexivity|]. exists x. split; [now left|assumption].
Qed.
Lemma to_type_total : forall s, valid s -> forall n,
  (exists d u, to_type s n = Ok (d, u)) /\ ~ unsupported s \/ to_type s n = Panic /\ unsupported s.
Proof.
  intros s. pattern s. apply avro_ind'; clear s.
  - intros i IH V n. assert (Vi : valid i) by (inversion V as [| | | |s A]; subst; [assumption|exfalso; now apply (A i)]).
    cbn [to_type]. destruct (IH Vi false) as [[[d [u E]] N]|[E N]]; rewrite E; cbn [bind].
    + left. split; [eauto|]. intros [H|H]; apply N; [left|right]; inversion H; subst; assumption.
    + right. split; [reflexivity|]. destruct N as [N|N]; [left|right]; now apply pt_array.
  - intros i IH V n. assert (Vi : valid i) by (inversion V as [| | | |s A B]; subst; [assumption|exfalso; now apply (B i)]).
    cbn [to_type]. destruct (IH Vi false) as [[[d [u E]] N]|[E N]]; rewrite E; cbn [bind].
    + left. split; [eauto|]. intros [H|H]; apply N; [left|right]; inversion H; subst; assumption.
    + right. split; [reflexivity|]. destruct N as [N|N]; [left|right]; now apply pt_map.
  - intros vs IH V n. rewrite Forall_forall in IH.
    assert (Vv : forall v, In v vs -> valid v). { inversion V as [| |l A B| |s A B C]; subst; [intros v I; now apply A|exfalso; now apply (C vs)]. }
    destruct (union_cases vs V) as [[x O]|[O F]].
    + rewrite (to_type_union vs x n O). destruct (other_spec vs x O) as [Ev Nx].
      assert (Ix : In x vs) by (destruct Ev; subst; cbn; auto).
      destruct (IH x Ix (Vv x Ix) true) as [[[d [u E]] N]|[E N]]; rewrite E; cbn [bind].
      * left. split; [eauto|]. assert (G : forall y, part y (ScUnion vs) -> y <> ScNull -> (forall l, y <> ScUnion l) -> part y x).
        { intros y H Ny Ly. inversion H as [| | |y' s' vs' I P|]; subst; [now elim (Ly vs)|]. assert (s' = ScNull \/ s' = x) as [ -> | -> ].
          { destruct Ev; subst; cbn in I; intuition. }
          - apply part_other in P; try discriminate. contradiction.
          - assumption. }
        intros [H|H]; apply N; [left|right]; apply G; try discriminate; assumption.
      * right. split; [reflexivity|]. destruct N as [N|N]; [left|right]; now apply (pt_union _ x).
    + rewrite (to_type_general vs n F).
      destruct (mapM_total _ _ (fun s => let* (d, u) := to_type s (has_null vs) in Ok (default_field_name d, d, u)) unsupported vs) as [[[l E] N]|[E [z [I N]]]].
      * intros x Ix. destruct (IH x Ix (Vv x Ix) (has_null vs)) as [[[d [u E]] N]|[E N]]; rewrite E; cbn [bind]; [left|right]; eauto.
      * rewrite E. cbn [bind]. left. split; [eauto|]. intros [H|H]; inversion H as [| | |y s' vs' I P|]; subst; apply (N s' I); [left|right]; assumption.
      * rewrite E. right. split; [reflexivity|]. destruct N as [N|N]; [left|right]; now apply (pt_union _ z).
  - intros fs IH V n. rewrite Forall_forall in IH. rewrite to_type_record.
    assert (Vf : forall f, In f fs -> valid (snd f)).
    { inversion V as [| | |l A B|s A B C D]; subst; [intros [[m al] s] I; now apply (B m al s)|exfalso; now apply (D fs)]. }
    destruct (mapM_total _ _ field_to (fun f => unsupported (snd f)) fs) as [[[l E] N]|[E [[[m al] z] [I N]]]].
    + intros x Ix. unfold field_to. destruct (IH x Ix (Vf x Ix) false) as [[[d [u E]] N]|[E N]]; rewrite E; cbn [bind]; [left|right]; eauto.
    + rewrite E. cbn [bind]. left. split; [eauto|]. intros [H|H]; inversion H as [| | | |y m al s' fs' I P]; subst; apply (N _ I); [left|right]; assumption.
    + rewrite E. right. split; [reflexivity|]. destruct N as [N|N]; [left|right]; now apply (pt_field _ m al z).
  - intros s A B C D V n.
    destruct s; try (left; split; [cbn; eauto|intros [H|H]; apply part_other in H; try discriminate; assumption]); try (exfalso; now eapply A); try (exfalso; now eapply B);
      try (exfalso; now eapply C); try (exfalso; now eapply D).
    + right. split; [reflexivity|]. right. apply pt_refl.
    + right. split; [reflexivity|]. left. apply pt_refl.
Qed.

(** ** Positions of fields *)
Notation dotless n := (~ In "."%char (list_ascii_of_string n)).
Definition under (p k : string) : Prop := exists x, k = p ++ "." ++ x.
Lemma str_cancel : forall p a b : string, p ++ a = p ++ b -> a = b.
Proof. induction p as [|c p IH]; cbn; intros a b H; [assumption|]. injection H. apply IH. Qed.
Lemma dot_split : forall f g x y, dotless f -> dotless g -> f ++ "." ++ x = g ++ "." ++ y -> f = g.
Proof.
  induction f as [|c f IH]; intros [|d g] x y F G H; [reflexivity| | |]; cbn in *.
  - injection H as E H. exfalso. apply G. left. now symmetry.
  - injection H as E H. exfalso. apply F. now left.
  - injection H as -> H. f_equal. apply (IH g x y); [intros I; apply F; now right|intros I; apply G; now right|assumption].
Qed.
Lemma dot_none : forall f g x, dotless f -> f = g ++ "." ++ x -> False.
Proof.
  induction f as [|c f IH]; intros [|d g] x F H; cbn in *; try discriminate.
  - injection H as E H. apply F. now left.
  - injection H as -> H. apply (IH g x); [intros I; apply F; now right|assumption].
Qed.
Lemma str_assoc : forall a b c : string, (a ++ b) ++ c = a ++ (b ++ c).
Proof. induction a as [|x a IH]; intros b c; cbn; [reflexivity|]. now rewrite IH. Qed.
Lemma under_trans : forall p n k, under (p ++ "." ++ n) k -> under p k.
Proof. intros p n k [x ->]. exists (n ++ "." ++ x). now rewrite !str_assoc. Qed.
Lemma pos_get_app : forall k a b, pos_get k (a ++ b)%list = match pos_get k a with Some i => Some i | None => pos_get k b end.
Proof. intros k a b. induction a as [|[k' i] a IH]; [reflexivity|]. cbn. destruct (String.eqb k' k); [reflexivity|assumption]. Qed.
Lemma pos_get_prefixed : forall p n m, pos_get (p ++ "." ++ n) (map (fun e => ((p ++ "." ++ fst e)%string, snd e)) m) = pos_get n m.
Proof.
  intros p n m. induction m as [|[k i] m IH]; [reflexivity|]. cbn [map fst snd pos_get].
  destruct (String.eqb_spec k n) as [ -> |N]; [now rewrite String.eqb_refl|]. destruct (String.eqb_spec (p ++ "." ++ k) (p ++ "." ++ n)) as [E|_]; [|assumption].
  exfalso. apply N. apply str_cancel in E. cbn [append] in E. now injection E.
Qed.
Lemma pos_get_not_prefixed : forall p k m, ~ under p k -> pos_get k (map (fun e => ((p ++ "." ++ fst e)%string, snd e)) m) = None.
Proof.
  intros p k m H. induction m as [|[k' i] m IH]; [reflexivity|]. cbn [map fst snd pos_get]. destruct (String.eqb_spec (p ++ "." ++ k') k) as [E|_]; [|assumption].
  exfalso. apply H. now exists k'.
Qed.
Lemma aliases_get : forall pos k al m, ~ In k al -> pos_get k (fold_left (fun m a => (a, pos) :: m) al m) = pos_get k m.
Proof.
  intros pos k al. induction al as [|a al IH]; intros m H; [reflexivity|]. cbn [fold_left]. rewrite IH; [|intros I; apply H; now right].
  cbn. destruct (String.eqb_spec a k) as [ -> |_]; [exfalso; apply H; now left|reflexivity].
Qed.
Lemma record_lookup_other : forall k fs pos m, (forall n al s, In (n, al, s) fs -> n <> k /\ ~ In k al) -> pos_get k (record_lookup pos fs m) = pos_get k m.
Proof.
  intros k. induction fs as [|[[n al] s] fs IH]; intros pos m H; [reflexivity|]. cbn [record_lookup].
  destruct (H n al s (or_introl eq_refl)) as [N A]. rewrite IH; [|intros n' al' s' I; apply (H n' al' s'); now right].
  rewrite aliases_get; [|assumption]. cbn. destruct (String.eqb_spec n k); [contradiction|reflexivity].
Qed.
Lemma record_lookup_get : forall fs pos m j n al s,
  NoDup (map (fun f => fst (fst f)) fs) -> (forall n al s a, In (n, al, s) fs -> In a al -> forall f, In f fs -> fst (fst f) <> a) ->
  nth_error fs j = Some (n, al, s) -> pos_get n (record_lookup pos fs m) = Some (pos + j)%nat.
Proof.
  induction fs as [|[[n' al'] s'] fs IH]; intros pos m j n al s ND A H; [now destruct j|]. cbn [record_lookup]. cbn [map fst] in ND. inversion ND as [|? ? N ND']; subst.
  destruct j as [|j].
  - injection H as -> -> ->. rewrite record_lookup_other.
    + rewrite aliases_get; [cbn; now rewrite String.eqb_refl, Nat.add_0_r|]. intros I. now apply (A n al s n (or_introl eq_refl) I (n, al, s) (or_introl eq_refl)).
    + intros n2 al2 s2 I. split.
      * intros ->. apply N. apply in_map_iff. now exists (n, al2, s2).
      * intros Ia. now apply (A n2 al2 s2 n (or_intror I) Ia (n, al, s) (or_introl eq_refl)).
  - cbn in H. rewrite (IH (S pos) _ j n al s ND'); [f_equal; lia| |assumption].
    intros n2 al2 s2 a I Ia f If. apply (A n2 al2 s2 a (or_intror I) Ia f (or_intror If)).
Qed.
Definition children_lookup (p : string) (fs : list (string * list string * avro)) (m : positions) : positions :=
  fold_left (fun m f => child_lookup (p ++ "." ++ fst (fst f)) (snd f) m) fs m.
Lemma child_lookup_record : forall p fs m, child_lookup p (ScRecord fs) m =
  children_lookup p fs (map (fun e => ((p ++ "." ++ fst e)%string, snd e)) (record_lookup 0 fs []) ++ m)%list.
Proof.
  intros p fs m. cbn [child_lookup]. generalize (map (fun e => ((p ++ "." ++ fst e)%string, snd e)) (record_lookup 0 fs []) ++ m)%list. clear m.
  induction fs as [|[[n al] s] fs IH]; intros m; [reflexivity|]. unfold children_lookup. cbn [fold_left fst snd]. apply IH.
Qed.
Lemma child_lookup_union : forall p vs x m, other vs = Some x -> child_lookup p (ScUnion vs) m = child_lookup p x m.
Proof. intros p vs x m H. destruct (other_spec _ _ H) as [[E|E] N]; subst; cbn; destruct x; try reflexivity; now elim N. Qed.
Lemma child_lookup_general : forall p vs m, has_null vs && Nat.eqb (List.length vs) 2 = false -> child_lookup p (ScUnion vs) m = m.
Proof. intros p vs m H. cbn. now rewrite H. Qed.
(** entries are only added under the parent *)
Lemma child_lookup_frame : forall s, valid s -> forall p m k, ~ under p k -> pos_get k (child_lookup p s m) = pos_get k m.
Proof.
  intros s. pattern s. apply avro_ind'; clear s.
  - intros i IH V p m k H. cbn [child_lookup]. apply IH; [inversion V as [| | | |s A]; subst; [assumption|exfalso; now apply (A i)]|].
    intros U. apply H. now apply (under_trans p "element").
  - reflexivity.
  - intros vs IH V p m k H. rewrite Forall_forall in IH. destruct (union_cases vs V) as [[x O]|[O F]].
    + rewrite (child_lookup_union p vs x m O). destruct (other_spec vs x O) as [E N]. assert (I : In x vs) by (destruct E; subst; cbn; auto).
      apply IH; [assumption| |assumption]. inversion V as [| |l A B| |s A B C]; subst; [now apply A|exfalso; now apply (C vs)].
    + now rewrite (child_lookup_general p vs m F).
  - intros fs IH V p m k H. rewrite child_lookup_record. assert (Vf : forall f, In f fs -> valid (snd f)).
    { inversion V as [| | |l A B|s A B C D]; subst; [intros [[n al] s] I; now apply (B n al s)|exfalso; now apply (D fs)]. }
    set (own := map (fun e => ((p ++ "." ++ fst e)%string, snd e)) (record_lookup 0 fs [])).
    assert (Ho : pos_get k (own ++ m)%list = pos_get k m) by (rewrite pos_get_app; unfold own; now rewrite pos_get_not_prefixed).
    rewrite <- Ho. generalize (own ++ m)%list. clear Ho own m V. induction fs as [|f fs IHf]; intros m; [reflexivity|].
    inversion IH as [|? ? I1 I2]; subst. unfold children_lookup. cbn [fold_left]. change (pos_get k (children_lookup p fs (child_lookup (p ++ "." ++ fst (fst f)) (snd f) m)) = pos_get k m).
    rewrite IHf; [|assumption|intros g I; apply Vf; now right]. apply I1; [apply Vf; now left|]. intros U. apply H. now apply (under_trans p (fst (fst f))).
  - intros s A B C D V p m k H. destruct s; try reflexivity; exfalso; [now eapply A|now eapply C|now eapply D].
Qed.

(** The positions of everything under a path are right. *)
Inductive paths (lk : positions) : string -> avro -> Prop :=
| ps_array : forall p i, paths lk (p ++ ".element") i -> paths lk p (ScArray i)
| ps_union : forall p vs x, other vs = Some x -> paths lk p x -> paths lk p (ScUnion vs)
| ps_general : forall p vs, other vs = None -> paths lk p (ScUnion vs)
| ps_record : forall p fs, (forall j n al s, nth_error fs j = Some (n, al, s) -> pos_get (p ++ "." ++ n) lk = Some j /\ paths lk (p ++ "." ++ n) s) -> paths lk p (ScRecord fs)
| ps_other : forall p s, (forall i, s <> ScArray i) -> (forall l, s <> ScUnion l) -> (forall l, s <> ScRecord l) -> paths lk p s.
(** the children of a record keep what is not under them *)
Lemma children_frame : forall p fs, (forall f, In f fs -> valid (snd f)) -> forall m k,
  (forall f, In f fs -> ~ under (p ++ "." ++ fst (fst f)) k) -> pos_get k (children_lookup p fs m) = pos_get k m.
Proof.
  intros p fs. induction fs as [|f fs IH]; intros V m k H; [reflexivity|]. unfold children_lookup. cbn [fold_left].
  change (pos_get k (children_lookup p fs (child_lookup (p ++ "." ++ fst (fst f)) (snd f) m)) = pos_get k m).
  rewrite IH; [apply child_lookup_frame; [apply V|apply H]; now left|intros g I; apply V; now right|intros g I; apply H; now right].
Qed.
Lemma under_sibling : forall p f g k, dotless f -> dotless g -> under (p ++ "." ++ f) k -> under (p ++ "." ++ g) k -> f = g.
Proof.
  intros p f g k F G [x ->] [y E]. rewrite !str_assoc in E. apply str_cancel in E. cbn [append] in E. injection E as E. now apply (dot_split f g x y).
Qed.
(** at a child, the map is the child's own *)
Lemma children_at : forall p fs, (forall f, In f fs -> valid (snd f)) -> NoDup (map (fun f => fst (fst f)) fs) -> (forall f, In f fs -> dotless (fst (fst f))) ->
  forall m f, In f fs -> exists m0, forall k, under (p ++ "." ++ fst (fst f)) k -> pos_get k (children_lookup p fs m) = pos_get k (child_lookup (p ++ "." ++ fst (fst f)) (snd f) m0).
Proof.
  intros p fs. induction fs as [|g fs IH]; intros V ND DL m f I; [destruct I|]. cbn [map] in ND. inversion ND as [|? ? N ND']; subst.
  unfold children_lookup. cbn [fold_left]. destruct I as [ -> |I].
  - exists m. intros k U. change (pos_get k (children_lookup p fs (child_lookup (p ++ "." ++ fst (fst f)) (snd f) m)) = pos_get k (child_lookup (p ++ "." ++ fst (fst f)) (snd f) m)).
    apply children_frame; [intros h Ih; apply V; now right|]. intros h Ih Uh. apply N. apply in_map_iff. exists h. split; [|assumption].
    apply (under_sibling p _ _ k); [apply DL; now right|apply DL; now left|assumption|assumption].
  - apply IH; [intros h Ih; apply V; now right|assumption|intros h Ih; apply DL; now right|assumption].
Qed.
Lemma child_lookup_ok : forall s, valid s -> forall p m lk, (forall k, under p k -> pos_get k lk = pos_get k (child_lookup p s m)) -> paths lk p s.
Proof.
  intros s. pattern s. apply avro_ind'; clear s.
  - intros i IH V p m lk H. apply ps_array. apply (IH (ltac:(inversion V as [| | | |s A]; subst; [assumption|exfalso; now apply (A i)])) _ m).
    intros k U. rewrite H; [reflexivity|]. now apply (under_trans p "element").
  - intros i IH V p m lk H. apply ps_other; discriminate.
  - intros vs IH V p m lk H. rewrite Forall_forall in IH. destruct (union_cases vs V) as [[x O]|[O F]]; [|now apply ps_general].
    apply (ps_union lk p vs x O). destruct (other_spec vs x O) as [E N]. assert (I : In x vs) by (destruct E; subst; cbn; auto).
    apply (IH x I) with m; [inversion V as [| |l A B| |s A B C]; subst; [now apply A|exfalso; now apply (C vs)]|].
    intros k U. rewrite H; [now rewrite (child_lookup_union p vs x m O)|assumption].
  - intros fs IH V p m lk H. rewrite Forall_forall in IH. inversion V as [| | |l ND B|s A B C D]; subst; [|exfalso; now apply (D fs)].
    assert (Vf : forall f, In f fs -> valid (snd f)) by (intros [[n al] s] I; now apply (B n al s)).
    assert (DL : forall f, In f fs -> dotless (fst (fst f))) by (intros [[n al] s] I; exact (proj1 (proj2 (B n al s I)))).
    apply ps_record. intros j n al s Hj. assert (I : In (n, al, s) fs) by (now apply nth_error_In in Hj). split.
    + rewrite H by (now exists n). rewrite child_lookup_record. rewrite children_frame.
      * rewrite pos_get_app, pos_get_prefixed. rewrite (record_lookup_get fs 0 [] j n al s ND); [reflexivity| |assumption].
        intros n2 al2 s2 a I2 Ia f If. apply (B n2 al2 s2 I2); assumption.
      * assumption.
      * intros f If [x E]. rewrite !str_assoc in E. apply str_cancel in E. cbn [append] in E. injection E as E.
        apply (dot_none n (fst (fst f)) x); [apply (DL _ I)|assumption].
    + destruct (children_at p fs Vf ND DL (map (fun e => ((p ++ "." ++ fst e)%string, snd e)) (record_lookup 0 fs []) ++ m)%list (n, al, s) I) as [m0 E].
      apply (IH (n, al, s) I (Vf _ I) _ m0). intros k U. rewrite <- E by assumption. rewrite H by (now apply (under_trans p n)). now rewrite child_lookup_record.
  - intros s A B C D V p m lk H. now apply ps_other.
Qed.
(** the whole map *)
Lemma schema_lookup_ok : forall fs, valid (ScRecord fs) -> exists lk, schema_lookup (ScRecord fs) = Ok lk
  /\ forall j n al s, nth_error fs j = Some (n, al, s) -> pos_get n lk = Some j /\ paths lk n s.
Proof.
  intros fs V. eexists. split; [reflexivity|]. inversion V as [| | |l ND B|s A B C D]; subst; [|exfalso; now apply (D fs)].
  assert (Vf : forall f, In f fs -> valid (snd f)) by (intros [[n al] s] I; now apply (B n al s)).
  assert (DL : forall f, In f fs -> dotless (fst (fst f))) by (intros [[n al] s] I; exact (proj1 (proj2 (B n al s I)))).
  assert (Fr : forall gs, (forall f, In f gs -> In f fs) -> forall m k, (forall f, In f gs -> ~ under (fst (fst f)) k) ->
     pos_get k (fold_left (fun m f => child_lookup (fst (fst f)) (snd f) m) gs m) = pos_get k m).
  { induction gs as [|g gs IH]; intros Sub m k H; [reflexivity|]. cbn [fold_left]. rewrite IH; [|intros f I; apply Sub; now right|intros f I; apply H; now right].
    apply child_lookup_frame; [apply Vf, Sub; now left|apply H; now left]. }
  assert (At : forall gs, (forall f, In f gs -> In f fs) -> NoDup (map (fun f => fst (fst f)) gs) -> forall m f, In f gs ->
     exists m0, forall k, under (fst (fst f)) k -> pos_get k (fold_left (fun m f => child_lookup (fst (fst f)) (snd f) m) gs m) = pos_get k (child_lookup (fst (fst f)) (snd f) m0)).
  { induction gs as [|g gs IH]; intros Sub ND' m f I; [destruct I|]. cbn [map] in ND'. inversion ND' as [|? ? N ND2]; subst. cbn [fold_left].
    destruct I as [ -> |I].
    - exists m. intros k U. apply Fr; [intros h Ih; apply Sub; now right|]. intros h Ih Uh. apply N. apply in_map_iff. exists h. split; [|assumption].
      destruct U as [x ->], Uh as [y E]. symmetry. apply (dot_split _ _ x y); [apply DL, Sub; now left|apply DL, Sub; now right|assumption].
    - apply IH; [intros h Ih; apply Sub; now right|assumption|assumption]. }
  intros j n al s Hj. assert (I : In (n, al, s) fs) by (now apply nth_error_In in Hj). split.
  - rewrite Fr; [|auto|intros f If [x E]; apply (dot_none n (fst (fst f)) x); [apply (DL _ I)|assumption]].
    rewrite (record_lookup_get fs 0 [] j n al s ND); [reflexivity| |assumption]. intros n2 al2 s2 a I2 Ia f If. apply (B n2 al2 s2 I2); assumption.
  - destruct (At fs (fun f i => i) ND (record_lookup 0 fs []) (n, al, s) I) as [m0 E]. apply (child_lookup_ok s (Vf _ I) n m0). intros k U. now rewrite E.
Qed.
