(** Lemmas for C48 and C49: the columns built show the rows. *)
From Verif Require Import Base Str L_Str L_Base M_Utf8 M_Avro S_Avro L_Avro.
Local Open Scope string_scope.

Lemma dtype_eqb_refl : forall d, dtype_eqb d d = true.
Proof.
  fix IH 1. intros d. destruct d; try reflexivity; cbn [dtype_eqb].
  - apply Nat.eqb_refl.
  - now rewrite !Nat.eqb_refl.
  - now rewrite String.eqb_refl, IH, eqb_reflx.
  - now rewrite !IH.
  - induction fields as [|[[n d] u] fields IHf]; [reflexivity|]. now rewrite String.eqb_refl, IH, eqb_reflx, IHf.
  - induction fields as [|[[n d] u] fields IHf]; [reflexivity|]. now rewrite String.eqb_refl, IH, eqb_reflx, IHf.
Qed.

Lemma Forall2_nth_r : forall A B (R : A -> B -> Prop) l r, Forall2 R l r -> forall i y, nth_error r i = Some y -> exists x, nth_error l i = Some x /\ R x y.
Proof. intros A B R l r F. induction F as [|x y l r H F IH]; intros [|i] z E; try discriminate; [injection E as <-; now exists x|now apply IH]. Qed.
Lemma Forall2_nth_l : forall A B (R : A -> B -> Prop) l r, Forall2 R l r -> forall i x, nth_error l i = Some x -> exists y, nth_error r i = Some y /\ R x y.
Proof. intros A B R l r F. induction F as [|x y l r H F IH]; intros [|i] z E; try discriminate; [injection E as <-; now exists y|now apply IH]. Qed.

(** An array of a type that shows these slots; where they are not null it is valid. *)
Definition shows (a : array) (d : dtype) (sls : list slot) : Prop :=
  array_type a = d /\ array_len a = List.length sls /\ List.length (array_valid a) = List.length sls
  /\ (forall i sl, nth_error sls i = Some sl -> slot_at a i = sl)
  /\ (forall i sl, nth_error sls i = Some sl -> sl <> SlNull \/ d = DNull -> nth i (array_valid a) false = true).
Definition done (r : outcome array) (d : dtype) (sls : list slot) (ok : bool) : Prop :=
  (exists a, r = Ok a /\ shows a d sls) \/ (exists e, r = Err e /\ ok = false).
Lemma shows_flat : forall d sls, d <> DNull -> shows (ArFlat d sls) d sls.
Proof.
  intros d sls N. split; [reflexivity|]. split; [reflexivity|]. split; [apply map_length|]. split.
  - intros i sl H. cbn. now apply nth_error_nth.
  - intros i sl H [Ns|E]; [|contradiction]. cbn. apply nth_error_nth. rewrite nth_error_map, H. cbn. now destruct sl.
Qed.
Lemma shows_null : forall sls, Forall (eq SlNull) sls -> shows (ArNull (List.length sls)) DNull sls.
Proof.
  intros sls F. split; [reflexivity|]. split; [reflexivity|]. split; [apply repeat_length|]. split.
  - intros i sl H. rewrite Forall_forall in F. apply F. now apply nth_error_In in H.
  - intros i sl H _. cbn. apply nth_error_nth. apply nth_error_repeat. apply nth_error_Some. congruence.
Qed.
(** all slots of an array without nulls are valid *)
Lemma shows_no_nulls : forall a d sls, shows a d sls -> (forall sl, In sl sls -> sl <> SlNull \/ d = DNull) -> null_count a = 0.
Proof.
  intros a d sls [_ [_ [L [_ V]]]] H. unfold null_count. assert (F : forall b, In b (array_valid a) -> b = true).
  { intros b I. apply In_nth with (d := false) in I. destruct I as [i [Li E]]. rewrite <- E. rewrite L in Li. apply nth_error_Some in Li.
    destruct (nth_error sls i) as [sl|] eqn:Es; [|contradiction]. apply (V i sl Es). apply H. now apply nth_error_In in Es. }
  revert F. generalize (array_valid a). intros l F. induction l as [|b l IH]; [reflexivity|]. cbn. rewrite (F b (or_introl eq_refl)). cbn. apply IH. intros c I. apply F. now right.
Qed.

(** ** Values at a schema that is not a union *)
(** [v], maybe in a union, is of the schema [x] and means [sl]; or it is missing. *)
Definition val_at (opt : bool) (x : avro) (v : value) (sl : slot) : Prop :=
  ((conforms x (unwrap v) /\ nulls_ok x (unwrap v) /\ sl = meaning (unwrap v)) \/ (unwrap v = AvNull /\ tolerant x = true /\ sl = SlNull))
  /\ (opt = false -> unwrap v = v).
(** the same for any schema, in or out of a record *)
Definition any_at (s : avro) (v : value) (sl : slot) : Prop :=
  (conforms s v /\ nulls_ok s v /\ sl = meaning v) \/ (v = AvNull /\ tolerant s = true /\ sl = SlNull).
Definition not_union (s : avro) : Prop := forall l, s <> ScUnion l.
Lemma conforms_plain : forall s v, not_union s -> conforms s v -> unwrap v = v.
Proof. intros s v N H. destruct H; try reflexivity. now elim (N vs). Qed.
Lemma any_plain : forall s v sl, not_union s -> any_at s v sl -> val_at false s v sl.
Proof.
  intros s v sl N [[C [O E]]|[-> [T E]]].
  - pose proof (conforms_plain s v N C) as U. split; [|auto]. left. now rewrite U.
  - split; [|reflexivity]. right. auto.
Qed.
Lemma any_union : forall vs x v sl, other vs = Some x -> any_at (ScUnion vs) v sl -> val_at true x v sl.
Proof.
  intros vs x v sl O H. split; [|discriminate]. destruct (other_spec vs x O) as [Ev Nx]. destruct (tolerant_union vs x O) as [Tx _]. rewrite <- Tx.
  assert (Tx' : forall y, In y vs -> y <> ScNull -> y = x) by (intros y I N; destruct Ev; subst; cbn in I; intuition congruence).
  destruct H as [[C [Nu E]]|[-> [T E]]]; [|right; auto].
  inversion C as [| | | | | | | | | |vs' i s v' Hi C'| | | | | | | | | | | | | |]; subst. cbn [unwrap meaning].
  inversion Nu as [vs' i' Hi' T|vs' i' s' v'' Hi' Ns N'| | |s' v'' A]; subst; [| |exfalso; now apply (A vs)].
  - right. split; [reflexivity|]. split; [|reflexivity]. rewrite Tx. apply T. destruct Ev; subst; cbn; auto.
  - rewrite Hi in Hi'. injection Hi' as <-. left. assert (s = x) as -> by (apply Tx'; [now apply nth_error_In in Hi|assumption]). auto.
Qed.
(** a value is not null unless its schema says so *)
Lemma meaning_not_null : forall s v, not_union s -> s <> ScNull -> conforms s v -> meaning v <> SlNull.
Proof. intros s v N N0 C. destruct C; try discriminate; [now elim N0|now elim (N vs)]. Qed.

(** ** Scalars *)
Section Columns.
Variable fc : dtype -> slot -> option slot.
Definition numeric (d : dtype) : bool :=
  match d with
  | DInt32 | DInt64 | DFloat32 | DFloat64 | DDate32 | DTime32Milli | DTime64Micro | DTimestampMilli | DTimestampMicro => true
  | _ => false
  end.
Lemma resolve_at : forall opt x n0 d n v sl, not_union x -> to_type x n0 = Ok (d, n) -> numeric d = true -> val_at opt x v sl ->
  exists o, resolve fc d v = Ok o /\ or_null o = sl.
Proof.
  intros opt x n0 d n v sl Nu T Hd [[[C [_ ->]]|[U [_ ->]]] _].
  - unfold resolve. destruct C; cbn in T; try discriminate T; try (injection T as <- <-); try discriminate Hd; cbn [meaning];
      try (eexists; split; [reflexivity|]; cbn; reflexivity);
      try (match goal with H : int_range ?z |- _ => exists (Some (SlInt z)) | H : long_range ?z |- _ => exists (Some (SlInt z)) end;
        split; [|reflexivity]; cbn [num_cast fits]; unfold int_range, long_range in *;
        match goal with |- context [if ?b then _ else _] => replace b with true by lia end; reflexivity).
    + destruct (to_type s false) as [[d' u]| |]; try discriminate. cbn in T. injection T as <- <-. discriminate.
    + destruct (to_type s false) as [[d' u]| |]; try discriminate. cbn in T. injection T as <- <-. discriminate.
    + now elim (Nu vs).
    + change (to_type (ScRecord fs) n0 = Ok (d, n)) in T. rewrite to_type_record in T. destruct (mapM field_to fs); try discriminate. injection T as <- <-. discriminate.
  - exists None. split; [|reflexivity]. unfold resolve. now rewrite U.
Qed.
Lemma string_at : forall opt x n0 n v sl, not_union x -> to_type x n0 = Ok (DUtf8, n) -> val_at opt x v sl ->
  exists o, resolve_string v = Ok o /\ or_null o = sl.
Proof.
  intros opt x n0 n v sl Nu T [[[C [_ ->]]|[U [_ ->]]] _].
  - unfold resolve_string. destruct C; cbn in T; try discriminate; try (eexists; split; reflexivity).
    + destruct (to_type s false) as [[d' u]| |]; discriminate.
    + destruct (to_type s false) as [[d' u]| |]; discriminate.
    + now elim (Nu vs).
    + change (to_type (ScRecord fs) n0 = Ok (DUtf8, n)) in T. rewrite to_type_record in T. destruct (mapM field_to fs); discriminate.
  - exists None. split; [|reflexivity]. unfold resolve_string. now rewrite U.
Qed.
Lemma mapM_slots : forall (f : value -> outcome (option slot)) (R : value -> slot -> Prop) vs sls,
  (forall v sl, R v sl -> exists o, f v = Ok o /\ or_null o = sl) -> Forall2 R vs sls -> exists os, mapM f vs = Ok os /\ map or_null os = sls.
Proof.
  intros f R vs sls H F. induction F as [|v sl vs sls Hv F [os [E Es]]]; [now exists []|]. destruct (H v sl Hv) as [o [Eo <-]].
  exists (o :: os). cbn [mapM]. rewrite Eo. cbn [bind]. rewrite E. split; [reflexivity|]. cbn. now rewrite Es.
Qed.

(** ** Lists *)
Definition list_at (list_opt opt : bool) (x : avro) (v : value) (o : option (list slot)) : Prop :=
  match o with
  | Some sls => exists vs, unwrap v = AvArray vs /\ Forall2 (fun w sl => val_at opt x w sl /\ (opt = false -> conforms x w)) vs sls
  | None => unwrap v = AvNull /\ tolerant_item x = true
  end /\ (list_opt = false -> unwrap v = v).
Definition given (o : option (list slot)) : list slot := match o with Some l => l | None => [] end.
Definition list_slot (o : option (list slot)) : slot := match o with Some l => SlList l | None => SlNull end.
Lemma list_at_len : forall lo opt x v o, list_at lo opt x v o -> list_row_len v = List.length (given o) /\ list_row_valid v = match o with Some _ => true | None => false end.
Proof.
  intros lo opt x v [sls|] [H _]; unfold list_row_len, list_row_valid.
  - destruct H as [vs [U F]]. rewrite U. split; [now apply Forall2_len in F|reflexivity].
  - destruct H as [U _]. now rewrite U.
Qed.
Lemma offsets_nth : forall vals (ls : list (list slot)), Forall2 (fun v l => list_row_len v = List.length l) vals ls -> forall c i, i <= List.length vals ->
  nth i (list_offsets c vals) 0 = c + List.length (List.concat (firstn i ls)).
Proof.
  intros vals ls F. induction F as [|v l vals ls H F IH]; intros c i L.
  - cbn in L. assert (i = 0) as -> by lia. cbn. lia.
  - destruct i as [|i]; [cbn; lia|]. cbn [list_offsets nth firstn List.concat]. rewrite IH by (cbn in L; lia). rewrite app_length, H. lia.
Qed.
Lemma offsets_last : forall vals (ls : list (list slot)), Forall2 (fun v l => list_row_len v = List.length l) vals ls -> forall c,
  last (list_offsets c vals) 0 = c + List.length (List.concat ls).
Proof.
  intros vals ls F. induction F as [|v l vals ls H F IH]; intros c; [cbn; lia|]. cbn [list_offsets].
  transitivity (last (list_offsets (c + list_row_len v) vals) 0); [destruct vals; reflexivity|]. rewrite IH. cbn [List.concat]. rewrite app_length, H. lia.
Qed.
Lemma concat_slice : forall (ls : list (list slot)) i l, nth_error ls i = Some l -> forall k, k < List.length l ->
  nth_error (List.concat ls) (List.length (List.concat (firstn i ls)) + k) = nth_error l k.
Proof.
  induction ls as [|l' ls IH]; intros i l H k L; [now destruct i|]. destruct i as [|i].
  - injection H as ->. cbn. now rewrite nth_error_app1.
  - cbn [firstn List.concat]. rewrite app_length, <- Nat.add_assoc, nth_error_app2 by lia. replace (_ + _ - _) with (List.length (List.concat (firstn i ls)) + k) by lia.
    now apply IH.
Qed.
Lemma concat_firstn_S : forall (ls : list (list slot)) i l, nth_error ls i = Some l -> List.length (List.concat (firstn (S i) ls)) = List.length (List.concat (firstn i ls)) + List.length l.
Proof.
  induction ls as [|l' ls IH]; intros i l H; [now destruct i|]. destruct i as [|i].
  - injection H as ->. cbn. rewrite app_nil_r. lia.
  - cbn [nth_error] in H. change (firstn (S (S i)) (l' :: ls)) with (l' :: firstn (S i) ls). change (firstn (S i) (l' :: ls)) with (l' :: firstn i ls).
    cbn [List.concat]. rewrite !app_length, (IH i l H). lia.
Qed.
Lemma map_seq_eq : forall (f : nat -> slot) o l, (forall k sl, nth_error l k = Some sl -> f (o + k)%nat = sl) -> map f (seq o (List.length l)) = l.
Proof.
  intros f o l. revert o. induction l as [|x l IH]; intros o H; [reflexivity|]. cbn. f_equal.
  - rewrite <- (Nat.add_0_r o). now apply H.
  - apply IH. intros k sl E. rewrite Nat.add_succ_l, <- Nat.add_succ_r. now apply H.
Qed.
(** a list array over a child that shows the items shows the lists *)
Lemma list_shows : forall name nullable lo opt x vals lss child d, Forall2 (list_at lo opt x) vals lss -> shows child d (List.concat (map given lss)) ->
  shows (ArList name nullable (map list_row_valid vals) (list_offsets 0 vals) child) (DList name d nullable) (map list_slot lss).
Proof.
  intros name nullable lo opt x vals lss child d F [Ht [Hl [Hv [Hs Hn]]]].
  assert (F' : Forall2 (fun v l => list_row_len v = List.length l) vals (map given lss)).
  { clear -F. induction F as [|v o vals lss H F IH]; constructor; [now destruct (list_at_len _ _ _ _ _ H)|assumption]. }
  assert (Lv : List.length vals = List.length lss) by (now apply Forall2_len in F).
  assert (Vi : forall i o, nth_error lss i = Some o -> nth i (map list_row_valid vals) false = match o with Some _ => true | None => false end).
  { intros i o E. destruct (Forall2_nth_r _ _ _ _ _ F i o E) as [v [Ev A]]. apply nth_error_nth. rewrite nth_error_map, Ev. cbn. f_equal. now destruct (list_at_len _ _ _ _ _ A). }
  split; [cbn; now rewrite Ht|]. split; [cbn; now rewrite !map_length|]. split; [cbn; now rewrite !map_length|]. split.
  - intros i sl E. rewrite nth_error_map in E. destruct (nth_error lss i) as [o|] eqn:Eo; [|discriminate]. cbn in E. injection E as <-.
    cbn [slot_at]. rewrite (Vi i o Eo). destruct o as [sls|]; [|reflexivity]. cbn [list_slot]. f_equal.
    assert (Li : i < List.length vals) by (rewrite Lv; apply nth_error_Some; congruence).
    assert (Eg : nth_error (map given lss) i = Some sls) by (rewrite nth_error_map, Eo; reflexivity).
    rewrite (offsets_nth vals _ F' 0 i) by lia. rewrite (offsets_nth vals _ F' 0 (S i)) by lia. rewrite (concat_firstn_S _ i sls Eg).
    replace (_ - _) with (List.length sls) by lia. apply map_seq_eq. intros k sl Ek. apply Hs. cbn [Nat.add]. rewrite (concat_slice _ i sls Eg); [assumption|].
    apply nth_error_Some. congruence.
  - intros i sl E [N|E']; [|discriminate]. cbn [array_valid]. rewrite nth_error_map in E. destruct (nth_error lss i) as [o|] eqn:Eo; [|discriminate]. injection E as <-.
    rewrite (Vi i o Eo). destruct o; [reflexivity|]. now elim N.
Qed.
End Columns.
