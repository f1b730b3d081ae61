(** Lemmas for C48 and C49: columns, structs, lists and whole batches. *)
From Verif Require Import Base Str L_Str L_Base M_Utf8 M_Avro S_Avro L_Avro L_Columns.
Local Open Scope string_scope.

Lemma ext_nth : forall A (l m : list A), (forall j, nth_error l j = nth_error m j) -> l = m.
Proof.
  intros A. induction l as [|x l IH]; intros [|y m] H; [reflexivity|now specialize (H 0)|now specialize (H 0)|].
  pose proof (H 0) as H0. injection H0 as ->. f_equal. apply IH. intros j. exact (H (S j)).
Qed.
Lemma nth_combine : forall A B (l : list A) (m : list B) j, nth_error (combine l m) j = match nth_error l j, nth_error m j with Some a, Some b => Some (a, b) | _, _ => None end.
Proof.
  intros A B. induction l as [|a l IH]; intros [|b m] [|j]; cbn; try reflexivity; [now destruct (nth_error l j)|apply IH].
Qed.
Lemma mapM_done : forall A B (f : A -> outcome B) (P : nat -> A -> B -> Prop) (Q : Prop) l,
  (forall j x, nth_error l j = Some x -> (exists y, f x = Ok y /\ P j x y) \/ (exists e, f x = Err e /\ Q)) ->
  (exists ys, mapM f l = Ok ys /\ List.length ys = List.length l /\ forall j x y, nth_error l j = Some x -> nth_error ys j = Some y -> P j x y)
  \/ (exists e, mapM f l = Err e /\ Q).
Proof.
  intros A B f P Q l. revert P. induction l as [|x l IH]; intros P H.
  - left. exists []. split; [reflexivity|]. split; [reflexivity|]. intros [|j] ? ?; discriminate.
  - destruct (H 0 x eq_refl) as [[y [E Py]]|[e [E Hq]]]; [|right; exists e; cbn [mapM]; now rewrite E].
    destruct (IH (fun j => P (S j)) (fun j x' E' => H (S j) x' E')) as [[ys [Es [L Ps]]]|[e [Es Hq]]].
    + left. exists (y :: ys). cbn [mapM]. rewrite E. cbn [bind]. rewrite Es. split; [reflexivity|]. split; [cbn; now rewrite L|].
      intros [|j] x' y' E1 E2; [cbn in *; congruence|]. now apply Ps.
    + right. exists e. cbn [mapM]. rewrite E. cbn [bind]. now rewrite Es.
Qed.
Lemma mapM_map : forall A B C (f : B -> outcome C) (g : A -> B) l, mapM f (map g l) = mapM (fun x => f (g x)) l.
Proof. intros A B C f g l. induction l as [|x l IH]; [reflexivity|]. cbn. now rewrite IH. Qed.
Lemma mapM_same : forall A B (f g : A -> outcome B) l, (forall x, f x = g x) -> mapM f l = mapM g l.
Proof. intros A B f g l H. induction l as [|x l IH]; [reflexivity|]. cbn. now rewrite H, IH. Qed.
Lemma Forall2_weaken : forall A B (R S : A -> B -> Prop) l m, (forall a b, R a b -> S a b) -> Forall2 R l m -> Forall2 S l m.
Proof. intros A B R S l m H F. induction F; constructor; auto. Qed.
Lemma app_cons_empty : forall a b, a ++ "." ++ b <> "".
Proof. intros [|c a] b; discriminate. Qed.
Lemma union_dec : forall s, (exists vs, s = ScUnion vs) \/ not_union s.
Proof. intros s. destruct s; try (right; intros l; discriminate). left. eauto. Qed.

Section Batch.
Variable fc : dtype -> slot -> option slot.
Variable lk : positions.
Definition cell (p : string) (r : row) : value := match field_lookup lk p r with Some v => v | None => AvNull end.
Definition cols_of (q : string) (rows : list row) (dfs : list field) : outcome (list array) :=
  mapM (fun f => column fc lk (ftype f) (sub_path q (fname f)) rows) dfs.

(** ** What columns are in terms of cells *)
Lemma column_num : forall d p rows, numeric d = true ->
  column fc lk d p rows = let* l := mapM (resolve fc d) (map (cell p) rows) in Ok (ArFlat d (map or_null l)).
Proof.
  intros d p rows H. rewrite mapM_map.
  rewrite (mapM_same _ _ (fun x => resolve fc d (cell p x)) (fun r => match field_lookup lk p r with Some v => resolve fc d v | None => Ok None end)).
  - destruct d; try discriminate; reflexivity.
  - intros r. unfold cell. now destruct (field_lookup lk p r).
Qed.
Lemma column_text : forall p rows, column fc lk DUtf8 p rows = let* l := mapM resolve_string (map (cell p) rows) in Ok (ArFlat DUtf8 (map or_null l)).
Proof.
  intros p rows. rewrite mapM_map.
  rewrite (mapM_same _ _ (fun x => resolve_string (cell p x)) (fun r => match field_lookup lk p r with Some v => resolve_string v | None => Ok None end)); [reflexivity|].
  intros r. unfold cell. now destruct (field_lookup lk p r).
Qed.
Lemma opt_slots : forall f p rows, f AvNull = None -> map (fun r => opt_slot f (field_lookup lk p r)) rows = map (fun v => or_null (f v)) (map (cell p) rows).
Proof. intros f p rows H. rewrite map_map. apply map_ext. intros r. unfold cell, opt_slot. destruct (field_lookup lk p r); [reflexivity|]. now rewrite H. Qed.
Lemma column_struct : forall dfs p rows, column fc lk (DStruct dfs) p rows =
  let* subs := mapM (fun v => struct_row (Some v)) (map (cell p) rows) in
  let* cols := cols_of p (map snd subs) dfs in
  if struct_ok dfs (map fst subs) cols then Ok (ArStruct dfs (map fst subs) cols) else Err EArrow.
Proof.
  intros dfs p rows. rewrite mapM_map.
  rewrite (mapM_same _ _ (fun x => struct_row (Some (cell p x))) (fun r => struct_row (field_lookup lk p r))).
  - cbn [column]. destruct (mapM (fun r => struct_row (field_lookup lk p r)) rows) as [subs| |]; [|reflexivity|reflexivity]. cbn [bind].
    match goal with |- bind ?a _ = bind ?b _ => assert (E : a = b) end; [|now rewrite E].
    induction dfs as [|[[n d] u] dfs IH]; [reflexivity|]. unfold cols_of in *. cbn [mapM]. cbn [ftype fname fst snd]. now rewrite IH.
  - intros r. unfold cell. now destruct (field_lookup lk p r).
Qed.
Lemma items_struct : forall dfs name p vals, items fc lk (DStruct dfs) name p vals =
  let* subs := struct_items vals in
  let* cols := cols_of (p ++ "." ++ name) (map snd subs) dfs in
  if struct_ok dfs (map fst subs) cols then Ok (ArStruct dfs (map fst subs) cols) else Panic.
Proof.
  intros dfs name p vals. cbn [items]. destruct (struct_items vals) as [subs| |]; [|reflexivity|reflexivity]. cbn [bind].
  match goal with |- bind ?a _ = bind ?b _ => assert (E : a = b) end; [|now rewrite E].
  induction dfs as [|[[n d] u] dfs IH]; [reflexivity|]. unfold cols_of in *. cbn [mapM]. cbn [ftype fname fst snd]. now rewrite IH.
Qed.
Lemma column_list : forall name d n p rows, column fc lk (DList name d n) p rows =
  let vals := map (cell p) rows in
  let* child := items fc lk d name p vals in
  if list_ok d n (list_offsets 0 vals) child then Ok (ArList name n (map list_row_valid vals) (list_offsets 0 vals) child) else Panic.
Proof. intros name d n p rows. destruct d; reflexivity. Qed.

(** ** The claims for one schema *)
Definition col_ok (x : avro) : Prop := forall w n0 d n p rows sls, not_union x -> valid x -> lossless w x = true -> to_type x n0 = Ok (d, n) ->
  paths lk p x -> p <> "" -> Forall2 (val_at w x) (map (cell p) rows) sls -> done (column fc lk d p rows) d sls (readable x).
Definition item_ok (x : avro) : Prop := forall lw opt deep n0 d n p vals lss, not_union x -> valid x -> lossless_item lw opt deep x = true ->
  to_type x n0 = Ok (d, n) -> (deep = false -> paths lk (p ++ ".element") x) -> Forall2 (list_at lw opt x) vals lss ->
  done (items fc lk d "element" p vals) d (List.concat (map given lss)) (readable_item x).
Definition good (s : avro) : Prop := (col_ok s /\ item_ok s) /\ forall vs x, s = ScUnion vs -> In x vs -> col_ok x /\ item_ok x.

Lemma col_any : forall s n0 d n p rows sls, good s -> valid s -> lossless false s = true -> to_type s n0 = Ok (d, n) -> paths lk p s -> p <> "" ->
  Forall2 (any_at s) (map (cell p) rows) sls -> done (column fc lk d p rows) d sls (readable s).
Proof.
  intros s n0 d n p rows sls [G Gu] V L T P Np F. destruct (union_dec s) as [[vs ->]|N].
  - destruct (union_cases vs V) as [[x O]|[O H2]].
    + destruct (other_spec vs x O) as [Ev Nx]. assert (I : In x vs) by (destruct Ev; subst; cbn; auto).
      rewrite (to_type_union vs x n0 O) in T. destruct (to_type x true) as [[d' n']| |] eqn:Tx; try discriminate. cbn in T. injection T as <- <-.
      rewrite (proj1 (readable_union vs x O)). apply (proj1 (Gu vs x eq_refl I) true true d' n'); try assumption.
      * inversion V as [| |vs' Hv H2| |s A B C D]; subst; [exact (proj2 (Hv x I))|exfalso; now apply (C vs)].
      * inversion V as [| |vs' Hv H2| |s A B C D]; subst; [exact (proj1 (Hv x I))|exfalso; now apply (C vs)].
      * now rewrite <- (lossless_union vs x O false).
      * inversion P as [|p' vs' x' O' P'|p' vs' O'| |p' s A B C]; subst; [congruence|congruence|exfalso; now apply (B vs)].
      * apply (Forall2_weaken _ _ (any_at (ScUnion vs))); [|assumption]. intros a b. now apply any_union.
    + rewrite (to_type_general vs n0 H2) in T. destruct (mapM _ vs) as [l| |]; try discriminate. cbn in T. injection T as <- <-.
      right. exists EArrow. split; [reflexivity|]. now apply readable_none.
  - apply (proj1 G false n0 d n); try assumption. apply (Forall2_weaken _ _ (any_at s)); [|assumption]. intros a b. now apply any_plain.
Qed.

(** ** Lists *)
Lemma rows_of_lists : forall lw it y opt vals sls,
  (forall w, conforms it w -> nulls_ok it w -> val_at opt y w (meaning w) /\ (opt = false -> conforms y w)) ->
  tolerant_item y = tolerant_item it ->
  Forall2 (val_at lw (ScArray it)) vals sls -> exists lss, Forall2 (list_at lw opt y) vals lss /\ sls = map list_slot lss.
Proof.
  intros lw it y opt vals sls H Ht F. induction F as [|v sl vals sls Hv F [lss [IH ->]]]; [now exists []|].
  destruct Hv as [[[C [O ->]]|[U [T ->]]] W].
  - inversion C as [| | | | | | | |s l Fc Es Ev| | | | | | | | | | | | | | | |]; subst.
    assert (Fo : Forall (nulls_ok it) l) by (rewrite <- Ev in O; inversion O as [| | |s' l' Fo|s' v' A B D]; subst; [assumption|exfalso; now apply (D it)]).
    exists (Some (map meaning l) :: lss). split; [|reflexivity]. constructor; [|assumption]. split; [|assumption]. exists l. split; [now symmetry|].
    clear -Fc Fo H. induction l as [|w l IH]; cbn; constructor.
    + apply H; [now inversion Fc|now inversion Fo].
    + apply IH; [now inversion Fc|now inversion Fo].
  - exists (None :: lss). split; [|reflexivity]. constructor; [|assumption]. split; [|assumption]. split; [assumption|]. rewrite Ht. exact T.
Qed.
Lemma list_items_not_null : forall lw y d n0 n vals lss sl, not_union y -> to_type y n0 = Ok (d, n) -> Forall2 (list_at lw false y) vals lss ->
  In sl (List.concat (map given lss)) -> sl <> SlNull \/ d = DNull.
Proof.
  intros lw y d n0 n vals lss sl N T F I. rewrite in_concat in I. destruct I as [l [Il Isl]]. rewrite in_map_iff in Il. destruct Il as [o [<- Io]].
  destruct (Forall2_in_r _ _ _ _ _ _ F Io) as [v [_ [H _]]]. destruct o as [sls|]; [|destruct Isl]. cbn in Isl. destruct H as [vs [_ Fv]].
  destruct (Forall2_in_r _ _ _ _ _ _ Fv Isl) as [w [_ [[Hw W] C]]]. specialize (C eq_refl). specialize (W eq_refl). rewrite W in Hw.
  assert (Hn : y = ScNull -> d = DNull) by (intros ->; cbn in T; injection T as <- _; reflexivity).
  assert (D : y = ScNull \/ y <> ScNull) by (destruct y; try (right; discriminate); now left).
  destruct D as [E|E]; [now right; apply Hn|left]. destruct Hw as [[_ [_ ->]]|[-> _]]; [now apply (meaning_not_null y)|].
  exfalso. inversion C; subst; congruence.
Qed.
Lemma list_done : forall it lw deep d n p vals sls, good it -> valid it -> lossless_item lw false deep it = true -> to_type it false = Ok (d, n) ->
  (deep = false -> paths lk (p ++ ".element") it) -> Forall2 (val_at lw (ScArray it)) vals sls ->
  done (let* child := items fc lk d "element" p vals in
        if list_ok d n (list_offsets 0 vals) child then Ok (ArList "element" n (map list_row_valid vals) (list_offsets 0 vals) child) else Panic)
       (DList "element" d n) sls (readable_item it).
Proof.
  intros it lw deep d n p vals sls [G Gu] V L T P F.
  assert (Main : forall y opt n0 n', not_union y -> valid y -> item_ok y -> lossless_item lw opt deep y = true -> to_type y n0 = Ok (d, n') ->
    (deep = false -> paths lk (p ++ ".element") y) -> (opt = false -> n' = n) -> (opt = true -> n = true) -> readable_item y = readable_item it ->
    forall lss, Forall2 (list_at lw opt y) vals lss -> sls = map list_slot lss ->
    done (let* child := items fc lk d "element" p vals in
        if list_ok d n (list_offsets 0 vals) child then Ok (ArList "element" n (map list_row_valid vals) (list_offsets 0 vals) child) else Panic)
       (DList "element" d n) sls (readable_item it)).
  { intros y opt n0 n' Ny Vy Iy Ly Ty Py E1 E2 Er lss Fl ->.
    destruct (Iy lw opt deep n0 d n' p vals lss Ny Vy Ly Ty Py Fl) as [[child [Ec Sc]]|[e [Ec Rf]]]; [|right; exists e; rewrite Ec; split; [reflexivity|congruence]].
    left. rewrite Ec. cbn [bind]. assert (Ok_ : list_ok d n (list_offsets 0 vals) child = true).
    { unfold list_ok. destruct Sc as [Ht [Hl Sr]]. rewrite Ht, dtype_eqb_refl.
      assert (F' : Forall2 (fun v l => list_row_len v = List.length l) vals (map given lss)).
      { clear -Fl. induction Fl as [|v o vals lss H Fl IH]; constructor; [now destruct (list_at_len _ _ _ _ _ H)|assumption]. }
      rewrite (offsets_last vals _ F' 0), Hl. cbn [Nat.add andb]. rewrite Nat.leb_refl. destruct opt; [now rewrite (E2 eq_refl)|]. cbn [andb].
      apply orb_true_iff. right. apply Nat.eqb_eq. apply (shows_no_nulls child d (List.concat (map given lss))); [now split|].
      intros sl I. now apply (list_items_not_null lw y d n0 n' vals lss). }
    rewrite Ok_. eexists. split; [reflexivity|]. now apply (list_shows _ _ lw opt y). }
  destruct (union_dec it) as [[vs ->]|N].
  - destruct (union_cases vs V) as [[x O]|[O H2]].
    + destruct (other_spec vs x O) as [Ev Nx]. assert (I : In x vs) by (destruct Ev; subst; cbn; auto).
      rewrite (to_type_union vs x false O) in T. destruct (to_type x true) as [[d' n']| |] eqn:Tx; try discriminate. cbn in T. injection T as <- <-.
      assert (Vx : valid x /\ forall us, x <> ScUnion us) by (inversion V as [| |vs' Hv H2| |s A B C D]; subst; [now apply Hv|exfalso; now apply (C vs)]).
      destruct (rows_of_lists lw (ScUnion vs) x true vals sls) as [lss [Fl Es]]; [|now destruct (tolerant_union vs x O)|assumption|].
      { intros w C Nw. split; [|discriminate]. apply (any_union vs x w); [assumption|]. left. auto. }
      apply (Main x true true n') with (lss := lss); try assumption; try discriminate; try reflexivity.
      * exact (proj2 Vx).
      * exact (proj1 Vx).
      * now apply (Gu vs).
      * now rewrite <- (lossless_item_union vs x O lw false deep).
      * intros E. specialize (P E). inversion P as [|p' vs' x' O' P'|p' vs' O'| |p' s A B C]; subst; [congruence|congruence|exfalso; now apply (B vs)].
      * symmetry. now apply readable_union.
    + rewrite (to_type_general vs false H2) in T. destruct (mapM _ vs) as [l| |]; try discriminate. cbn in T. injection T as <- <-.
      right. exists EArrow. split; [reflexivity|]. now apply readable_none.
  - destruct (rows_of_lists lw it it false vals sls) as [lss [Fl Es]]; [|reflexivity|assumption|].
    { intros w C Nw. split; [|auto]. apply any_plain; [assumption|]. left. auto. }
    apply (Main it false false n) with (lss := lss); try assumption; try discriminate; try reflexivity. now apply G.
Qed.

(** ** Structs *)
Definition sub_at (fs : list (string * list string * avro)) (br : bool * row) (sl : slot) : Prop :=
  (fst br = true /\ conforms (ScRecord fs) (AvRecord (snd br)) /\ nulls_ok (ScRecord fs) (AvRecord (snd br)) /\ sl = meaning (AvRecord (snd br)))
  \/ (fst br = false /\ (snd br = [] \/ snd br = null_struct) /\ forallb (fun f => tolerant (snd f)) fs = true /\ sl = SlNull).
Definition sub_slot (j : nat) (br : bool * row) : slot :=
  if fst br then match nth_error (snd br) j with Some e => meaning (snd e) | None => SlNull end else SlNull.
Lemma conforms_row : forall fs r, conforms (ScRecord fs) (AvRecord r) -> Forall2 (fun f e => fst e = fst (fst f) /\ conforms (snd f) (snd e)) fs r.
Proof. intros fs r H. now inversion H. Qed.
Lemma nulls_row : forall fs r, nulls_ok (ScRecord fs) (AvRecord r) -> Forall2 (fun f e => nulls_ok (snd f) (snd e)) fs r.
Proof. intros fs r H. inversion H as [| |fs' r' F| |s v A B C]; subst; [assumption|exfalso; now apply (B fs)]. Qed.
Lemma sub_cell : forall fs br sl j f p, sub_at fs br sl -> nth_error fs j = Some f -> pos_get p lk = Some j -> any_at (snd f) (cell p (snd br)) (sub_slot j br).
Proof.
  intros fs br sl j f p H Ef Ep. unfold cell, field_lookup, sub_slot. rewrite Ep. destruct H as [[-> [C [O _]]]|[-> [D [T _]]]].
  - destruct (Forall2_nth_l _ _ _ _ _ (conforms_row _ _ C) j f Ef) as [e [Ee [_ Ce]]]. destruct (Forall2_nth_l _ _ _ _ _ (nulls_row _ _ O) j f Ef) as [e' [Ee' Oe]].
    rewrite Ee in Ee'. injection Ee' as <-. rewrite Ee. left. auto.
  - right. split; [|split; [|reflexivity]].
    + destruct D as [-> | ->]; [now destruct j|destruct j as [|[|j]]; reflexivity].
    + rewrite forallb_forall in T. apply T. now apply nth_error_In in Ef.
Qed.
Definition field_typed (f : string * list string * avro) (df : field) : Prop := fname df = fst (fst f) /\ exists n0, to_type (snd f) n0 = Ok (ftype df, fnull df).
Definition col_shows (subs : list (bool * row)) (j : nat) (df : field) (col : array) : Prop :=
  shows col (ftype df) (map (sub_slot j) subs)
  /\ (fnull df = false -> forall i br, nth_error subs i = Some br -> fst br = true -> nth i (array_valid col) false = true).
Lemma rec_cols : forall fs dfs q subs sls,
  (forall f, In f fs -> good (snd f) /\ valid (snd f) /\ lossless false (snd f) = true /\ fst (fst f) <> "") -> Forall2 field_typed fs dfs ->
  (forall j n al s, nth_error fs j = Some (n, al, s) -> pos_get (sub_path q n) lk = Some j /\ paths lk (sub_path q n) s) ->
  Forall2 (sub_at fs) subs sls ->
  (exists cols, cols_of q (map snd subs) dfs = Ok cols /\ List.length cols = List.length dfs
     /\ forall j df col, nth_error dfs j = Some df -> nth_error cols j = Some col -> col_shows subs j df col)
  \/ (exists e, cols_of q (map snd subs) dfs = Err e /\ forallb (fun f => readable (snd f)) fs = false).
Proof.
  intros fs dfs q subs sls Hf Ft Hp Fs. apply mapM_done. intros j df Edf.
  destruct (Forall2_nth_r _ _ _ _ _ Ft j df Edf) as [[[nm al] s] [Ef [En [n0 Et]]]]. cbn [fst snd] in *. rewrite En.
  destruct (Hf _ (nth_error_In _ _ Ef)) as [G [V [L Ne]]]. cbn [fst snd] in *. destruct (Hp j nm al s Ef) as [Pg Pp].
  assert (Np : sub_path q nm <> "") by (unfold sub_path; destruct (String.eqb q ""); [assumption|apply app_cons_empty]).
  assert (F : Forall2 (any_at s) (map (cell (sub_path q nm)) (map snd subs)) (map (sub_slot j) subs)).
  { clear -Fs Ef Pg. induction Fs as [|br sl subs sls H Fs IH]; cbn; constructor; [|assumption]. now apply (sub_cell fs br sl j (nm, al, s)). }
  destruct (col_any s n0 (ftype df) (fnull df) (sub_path q nm) (map snd subs) _ G V L Et Pp Np F) as [[a [Ea Sa]]|[e [Ee R]]].
  - left. exists a. split; [assumption|]. split; [assumption|]. intros Enn i br Ei Eb.
    assert (Es : nth_error (map (sub_slot j) subs) i = Some (sub_slot j br)) by (now rewrite nth_error_map, Ei).
    pose proof Sa as [_ [_ [_ [_ Sv]]]]. apply (Sv i _ Es).
    destruct (union_dec s) as [[vs ->]|N].
    + destruct (union_cases vs V) as [[x O]|[O H2]].
      * rewrite (to_type_union vs x n0 O) in Et. destruct (to_type x true) as [[d' n']| |] eqn:Tx; try discriminate. cbn in Et. injection Et as _ E. congruence.
      * rewrite (to_type_general vs n0 H2) in Et. destruct (mapM _ vs) as [l| |]; try discriminate. cbn in Et. injection Et as E _. rewrite <- E in Ea. discriminate.
    + assert (D : s = ScNull \/ s <> ScNull) by (destruct s; try (right; discriminate); now left). destruct D as [ -> |D]; [right; cbn in Et; congruence|left].
      destruct (Forall2_nth_l _ _ _ _ _ Fs i br Ei) as [sl [_ [[_ [C _]]|[Ef' _]]]]; [|congruence].
      destruct (Forall2_nth_l _ _ _ _ _ (conforms_row _ _ C) j _ Ef) as [e [Ee [_ Ce]]]. unfold sub_slot. rewrite Eb, Ee. now apply (meaning_not_null s).
  - right. exists e. split; [assumption|]. destruct (forallb (fun f => readable (snd f)) fs) eqn:Fb; [|reflexivity]. rewrite forallb_forall in Fb.
    specialize (Fb _ (nth_error_In _ _ Ef)). cbn in Fb. congruence.
Qed.
Lemma slot_struct : forall dfs valid cols i, nth i valid false = true ->
  slot_at (ArStruct dfs valid cols) i = SlStruct (map (fun cf => (fname (snd cf), slot_at (fst cf) i)) (combine cols dfs)).
Proof.
  intros dfs valid cols i H. cbn [slot_at]. rewrite H. f_equal. revert dfs. induction cols as [|c cols IH]; intros [|f dfs]; try reflexivity. cbn. now rewrite IH.
Qed.
Lemma struct_shows : forall fs dfs subs sls cols, Forall2 field_typed fs dfs -> Forall2 (sub_at fs) subs sls -> List.length cols = List.length dfs ->
  (forall j df col, nth_error dfs j = Some df -> nth_error cols j = Some col -> col_shows subs j df col) ->
  struct_ok dfs (map fst subs) cols = true /\ shows (ArStruct dfs (map fst subs) cols) (DStruct dfs) sls.
Proof.
  intros fs dfs subs sls cols Ft Fs Lc H. split.
  - unfold struct_ok. rewrite <- Lc, Nat.eqb_refl. cbn [andb]. apply forallb_forall. intros [df col] I. apply In_nth_error in I. destruct I as [j E].
    rewrite nth_combine in E. destruct (nth_error dfs j) as [df'|] eqn:Ed; [|discriminate]. destruct (nth_error cols j) as [col'|] eqn:Ec; [|discriminate].
    injection E as -> ->. destruct (H j df col Ed Ec) as [[Ht [Hl [Hv _]]] Hn]. cbn [fst snd]. rewrite Ht, dtype_eqb_refl, Hl, !map_length, Nat.leb_refl. cbn [andb].
    destruct (fnull df) eqn:En; [reflexivity|]. cbn [orb]. apply forallb_forall. intros [a b] I. apply In_nth_error in I. destruct I as [i E]. rewrite nth_combine, nth_error_map in E.
    destruct (nth_error subs i) as [br|] eqn:Eb; [|discriminate]. cbn [option_map] in E. destruct (nth_error (array_valid col) i) as [b'|] eqn:Ev; [|discriminate].
    injection E as <- <-. cbn [fst snd]. destruct (fst br) eqn:Efb; [|reflexivity]. specialize (Hn eq_refl i br Eb Efb). rewrite (nth_error_nth _ _ false Ev) in Hn. now rewrite Hn.
  - assert (Ls : List.length subs = List.length sls) by (now apply Forall2_len in Fs).
    split; [reflexivity|]. split; [cbn; now rewrite map_length|]. split; [cbn; now rewrite map_length|]. split.
    + intros i sl E. destruct (Forall2_nth_r _ _ _ _ _ Fs i sl E) as [br [Eb A]].
      assert (Ev : nth i (map fst subs) false = fst br) by (apply nth_error_nth; rewrite nth_error_map, Eb; reflexivity).
      destruct A as [[Et [C [_ ->]]]|[Ef [_ [_ ->]]]].
      * rewrite slot_struct by congruence. cbn [meaning]. f_equal. apply ext_nth. intros j. rewrite !nth_error_map, nth_combine.
        pose proof (conforms_row _ _ C) as Fr. assert (Lr : List.length (snd br) = List.length dfs) by (rewrite <- (Forall2_len _ _ _ Fr); now apply Forall2_len in Ft).
        destruct (nth_error cols j) as [col|] eqn:Ec.
        -- destruct (nth_error dfs j) as [df|] eqn:Ed; [|exfalso; apply nth_error_None in Ed; assert (j < List.length cols) by (apply nth_error_Some; congruence); lia].
           destruct (Forall2_nth_r _ _ _ _ _ Ft j df Ed) as [f [Ef [En _]]]. destruct (Forall2_nth_l _ _ _ _ _ Fr j f Ef) as [e [Ee [Een _]]]. rewrite Ee. cbn [option_map fst snd].
           f_equal. f_equal; [congruence|]. destruct (H j df col Ed Ec) as [[_ [_ [_ [Hs _]]]] _]. apply Hs. rewrite nth_error_map, Eb. cbn. unfold sub_slot. now rewrite Et, Ee.
        -- cbn. symmetry. rewrite (proj2 (nth_error_None (snd br) j)); [reflexivity|]. apply nth_error_None in Ec. lia.
      * cbn [slot_at]. now rewrite Ev, Ef.
    + intros i sl E [N|N]; [|discriminate]. cbn [array_valid]. destruct (Forall2_nth_r _ _ _ _ _ Fs i sl E) as [br [Eb A]].
      assert (Ev : nth i (map fst subs) false = fst br) by (apply nth_error_nth; rewrite nth_error_map, Eb; reflexivity). rewrite Ev.
      destruct A as [[Et _]|[_ [_ [_ ->]]]]; [assumption|now elim N].
Qed.
(** ** Scalars *)
Lemma flat_done : forall d sls a ok, d <> DNull -> a = Ok (ArFlat d sls) -> done a d sls ok.
Proof. intros d sls a ok N ->. left. eexists. split; [reflexivity|]. now apply shows_flat. Qed.
Lemma err_done : forall d sls a e, a = Err e -> done a d sls false.
Proof. intros d sls a e ->. right. eauto. Qed.
Lemma slots_done : forall (f : value -> outcome (option slot)) (R : value -> slot -> Prop) d vals sls ok, d <> DNull ->
  (forall v sl, R v sl -> exists o, f v = Ok o /\ or_null o = sl) -> Forall2 R vals sls ->
  done (let* l := mapM f vals in Ok (ArFlat d (map or_null l))) d sls ok.
Proof. intros f R d vals sls ok N H F. destruct (mapM_slots f R vals sls H F) as [os [E <-]]. apply flat_done; [assumption|]. now rewrite E. Qed.
Lemma pure_done : forall (f : value -> option slot) (R : value -> slot -> Prop) d vals sls ok, d <> DNull ->
  (forall v sl, R v sl -> or_null (f v) = sl) -> Forall2 R vals sls -> done (Ok (ArFlat d (map (fun v => or_null (f v)) vals))) d sls ok.
Proof.
  intros f R d vals sls ok N H F. apply flat_done; [assumption|]. f_equal. f_equal. induction F as [|v sl vals sls Hv F IH]; [reflexivity|]. cbn. rewrite IH. now rewrite (H v sl Hv).
Qed.
Definition scalar (x : avro) : Prop := (forall i, x <> ScArray i) /\ (forall i, x <> ScMap i) /\ (forall l, x <> ScUnion l) /\ (forall l, x <> ScRecord l).
Lemma col_scalar : forall x, scalar x -> col_ok x.
Proof.
  intros x [A [B [C D]]] w n0 d n p rows sls N V L T P Np F.
  assert (Num : numeric d = true -> done (column fc lk d p rows) d sls (readable x)).
  { intros Hn. rewrite column_num by assumption. apply (slots_done _ (val_at w x)); [destruct d; discriminate| |assumption].
    intros v sl H. now apply (resolve_at fc w x n0 d n). }
  assert (Txt : d = DUtf8 -> done (column fc lk d p rows) d sls (readable x)).
  { intros ->. rewrite column_text by assumption. apply (slots_done _ (val_at w x)); [discriminate| |assumption].
    intros v sl H. now apply (string_at w x n0 n). }
  destruct x; try (exfalso; first [exact (A _ eq_refl)|exact (B _ eq_refl)|exact (C _ eq_refl)|exact (D _ eq_refl)]); try discriminate T; try discriminate L;
    cbn in T; injection T as <- <-; try (now apply Num); try (now apply Txt); try (now apply (err_done _ _ _ EArrow)).
  - left. exists (ArNull (List.length rows)). split; [reflexivity|]. replace (List.length rows) with (List.length sls).
    + apply shows_null. clear -F. induction F as [|v sl vals sls H F IH]; [constructor|]. constructor; [|assumption].
      destruct H as [[[Cf [_ ->]]|[_ [_ ->]]] _]; [|reflexivity]. now inversion Cf.
    + apply Forall2_len in F. now rewrite map_length in F.
  - cbn [column]. rewrite opt_slots by reflexivity. apply (pure_done _ (val_at w ScBoolean)); [discriminate| |assumption].
    intros v sl [[[Cf [_ ->]]|[U [_ ->]]] _]; unfold resolve_boolean; [now inversion Cf|now rewrite U].
  - cbn [column]. rewrite opt_slots by reflexivity. apply (pure_done _ (val_at w ScBytes)); [discriminate| |assumption].
    intros v sl [[[Cf [_ ->]]|[U [_ ->]]] _]; unfold resolve_bytes; [now inversion Cf|now rewrite U].
  - cbn [column]. rewrite opt_slots by reflexivity.
    assert (S : forall v sl, val_at w (ScFixed size) v sl -> or_null (resolve_fixed v size) = sl /\ sized size sl = true).
    { intros v sl [[[Cf [_ ->]]|[U [_ ->]]] _]; unfold resolve_fixed; [|now rewrite U]. inversion Cf; subst. rewrite Nat.eqb_refl. cbn. now rewrite Nat.eqb_refl. }
    assert (E : forallb (sized size) (map (fun v => or_null (resolve_fixed v size)) (map (cell p) rows)) = true).
    { clear -F S. induction F as [|v sl vals sls H F IH]; [reflexivity|]. cbn [map forallb]. destruct (S v sl H) as [-> ->]. assumption. }
    rewrite E. apply (pure_done _ (val_at w (ScFixed size))); [discriminate| |assumption]. intros v sl H. now apply S.
Qed.
(** ** Items of lists *)
Lemma given_items : forall lw opt x (f : value -> list slot) vals lss, 
  (forall v o, list_at lw opt x v o -> f v = given o) -> Forall2 (list_at lw opt x) vals lss -> flat_map f vals = List.concat (map given lss).
Proof. intros lw opt x f vals lss H F. induction F as [|v o vals lss Hv F IH]; [reflexivity|]. cbn. now rewrite IH, (H v o Hv). Qed.
Lemma last_given : forall lw opt x vals lss, Forall2 (list_at lw opt x) vals lss -> last (list_offsets 0 vals) 0 = List.length (List.concat (map given lss)).
Proof.
  intros lw opt x vals lss F. rewrite (offsets_last vals (map given lss)); [reflexivity|].
  induction F as [|v o vals lss H F IH]; constructor; [now destruct (list_at_len _ _ _ _ _ H)|assumption].
Qed.
Lemma item_scalar : forall x, scalar x -> item_ok x.
Proof.
  intros x [A [B [C D]]] lw opt deep n0 d n p vals lss N V L T P F.
  assert (Num : numeric d = true -> primitive_items fc d vals = Ok (List.concat (map given lss))).
  { intros Hn. unfold primitive_items.
    assert (E : mapM (fun v => match unwrap v with
                            | AvArray vs => let* os := mapM (resolve fc d) vs in Ok (map or_null os)
                            | w => let* o := resolve fc d w in Ok (match o with Some s => [s] | None => [] end)
                            end) vals = Ok (map given lss)); [|now rewrite E].
    induction F as [|v o vals lss Hv F IH]; [reflexivity|]. cbn [mapM map]. rewrite IH. destruct Hv as [Hv _]. destruct o as [sls|].
    - destruct Hv as [vs [-> Fv]]. destruct (mapM_slots (resolve fc d) (fun w sl => val_at opt x w sl /\ (opt = false -> conforms x w)) vs sls) as [os [-> <-]]; [|assumption|reflexivity].
      intros w sl [H _]. now apply (resolve_at fc opt x n0 d n).
    - destruct Hv as [-> _]. reflexivity. }
  assert (Txt : d = DUtf8 -> string_items vals = List.concat (map given lss)).
  { intros ->. apply (given_items lw opt x); [|assumption]. intros v [sls|] [Hv _].
    - destruct Hv as [vs [-> Fv]]. cbn [given]. clear -Fv T N. induction Fv as [|w sl vs sls [H _] Fv IH]; [reflexivity|]. cbn [map]. rewrite IH. f_equal.
      destruct (string_at opt x n0 n w sl N T H) as [o [E <-]]. unfold string_or_null. rewrite E. now destruct o.
    - destruct Hv as [-> _]. reflexivity. }
  destruct x; try (exfalso; first [exact (A _ eq_refl)|exact (B _ eq_refl)|exact (C _ eq_refl)|exact (D _ eq_refl)]); try discriminate T; try discriminate L;
    cbn in T; injection T as <- <-; try (now apply (err_done _ _ _ EArrow));
    try (apply flat_done; [discriminate|]; cbn [items]; rewrite Num by reflexivity; reflexivity);
    try (apply flat_done; [discriminate|]; cbn [items]; rewrite Txt by reflexivity; reflexivity).
  - left. cbn [items]. rewrite (last_given lw opt ScNull vals lss F). eexists. split; [reflexivity|]. apply shows_null. apply Forall_forall. intros sl I.
    rewrite in_concat in I. destruct I as [l [Il Isl]]. rewrite in_map_iff in Il. destruct Il as [o [<- Io]].
    destruct (Forall2_in_r _ _ _ _ _ _ F Io) as [v [_ [H _]]]. destruct o as [sls|]; [|destruct Isl]. destruct H as [vs [_ Fv]].
    destruct (Forall2_in_r _ _ _ _ _ _ Fv Isl) as [u [_ [[[[Cf [_ ->]]|[_ [_ ->]]] _] _]]]; [|reflexivity]. now inversion Cf.
  - cbn in L. apply andb_true_iff in L. destruct L as [L1 L2]. destruct lw; [discriminate|]. destruct opt; [discriminate|].
    apply flat_done; [discriminate|]. cbn [items]. f_equal. f_equal. unfold bool_items.
    rewrite (given_items false false ScBoolean _ vals lss) with (2 := F).
    + rewrite (last_given false false ScBoolean vals lss F), Nat.sub_diag. cbn [repeat]. apply app_nil_r.
    + intros v o [Hv W]. specialize (W eq_refl). rewrite W in Hv. destruct o as [sls|].
      * destruct Hv as [vs [-> Fv]]. cbn [given]. clear -Fv. induction Fv as [|w sl vs sls [[H W] Cw] Fv IH]; [reflexivity|]. cbn [map]. rewrite IH. f_equal.
        rewrite (W eq_refl) in H. specialize (Cw eq_refl). inversion Cw; subst. destruct H as [[_ [_ ->]]|[H _]]; [reflexivity|discriminate].
      * destruct Hv as [-> _]. reflexivity.
Qed.
(** ** Records and lists *)
Lemma record_typed : forall fs n0 d n, to_type (ScRecord fs) n0 = Ok (d, n) -> exists dfs, d = DStruct dfs /\ Forall2 field_typed fs dfs.
Proof.
  intros fs n0 d n T. rewrite to_type_record in T. destruct (mapM field_to fs) as [dfs| |] eqn:E; try discriminate. cbn in T. injection T as <- _.
  exists dfs. split; [reflexivity|]. apply mapM_ok in E. apply (Forall2_weaken _ _ _ _ _ _ (fun f df H => H)) in E. revert E. apply Forall2_weaken.
  intros [[nm al] s] df H. unfold field_to in H. cbn [fst snd] in H. destruct (to_type s false) as [[d' u]| |] eqn:Et; try discriminate. injection H as <-. split; [reflexivity|].
  exists false. exact Et.
Qed.
Lemma record_parts : forall fs, (forall n al s, In (n, al, s) fs -> good s) -> valid (ScRecord fs) -> forallb (fun f => lossless false (snd f)) fs = true ->
  forall f, In f fs -> good (snd f) /\ valid (snd f) /\ lossless false (snd f) = true /\ fst (fst f) <> "".
Proof.
  intros fs G V L [[nm al] s] I. cbn [fst snd]. inversion V as [| | |l ND H|s' A B C D]; subst; [|exfalso; now apply (D fs)]. destruct (H nm al s I) as [Ne [_ [Vs _]]].
  rewrite forallb_forall in L. specialize (L _ I). cbn in L. split; [now apply (G nm al)|]. split; [assumption|]. now split.
Qed.
Lemma record_paths : forall fs p, p <> "" -> paths lk p (ScRecord fs) ->
  forall j n al s, nth_error fs j = Some (n, al, s) -> pos_get (sub_path p n) lk = Some j /\ paths lk (sub_path p n) s.
Proof.
  intros fs p Np P. inversion P as [| | |p' fs' H|p' s A B C]; subst; [|exfalso; now apply (C fs)]. intros j n al s E. unfold sub_path.
  destruct (String.eqb_spec p "") as [E0|_]; [contradiction|]. now apply (H j n al s).
Qed.
Lemma col_record : forall fs, (forall n al s, In (n, al, s) fs -> good s) -> col_ok (ScRecord fs).
Proof.
  intros fs G w n0 d n p rows sls N V L T P Np F. destruct (record_typed fs n0 d n T) as [dfs [-> Ft]]. rewrite column_struct.
  assert (Hs : exists subs, mapM (fun v => struct_row (Some v)) (map (cell p) rows) = Ok subs /\ Forall2 (sub_at fs) subs sls).
  { clear -F. induction F as [|v sl vals sls H F [subs [E Fs]]]; [now exists []|]. cbn [mapM]. unfold struct_row at 1. cbn [option_map].
    destruct H as [[[C [O ->]]|[U [Tl ->]]] _].
    - inversion C as [| | | | | | | | | | |fs' r Fr E1 E2| | | | | | | | | | | | |]; subst. rewrite <- E2 in C, O. cbn [bind]. rewrite E. exists ((true, r) :: subs). split; [reflexivity|].
      constructor; [|assumption]. left. auto.
    - rewrite U. cbn [bind]. rewrite E. exists ((false, []) :: subs). split; [reflexivity|]. constructor; [|assumption]. right. auto. }
  destruct Hs as [subs [-> Fs]]. cbn [bind].
  destruct (rec_cols fs dfs p subs sls (record_parts fs G V L) Ft (record_paths fs p Np P) Fs) as [[cols [-> [Lc Hc]]]|[e [-> R]]].
  - cbn [bind]. destruct (struct_shows fs dfs subs sls cols Ft Fs Lc Hc) as [-> S]. left. eexists. now split.
  - cbn [bind]. right. exists e. now split.
Qed.
Lemma item_record : forall fs, (forall n al s, In (n, al, s) fs -> good s) -> item_ok (ScRecord fs).
Proof.
  intros fs G lw opt deep n0 d n p vals lss N V L T P F. destruct (record_typed fs n0 d n T) as [dfs [-> Ft]]. rewrite items_struct.
  cbn [lossless_item] in L. apply andb_true_iff in L. destruct L as [L1 L2]. destruct deep; [discriminate|]. specialize (P eq_refl).
  assert (Hs : exists subs, struct_items vals = Ok subs /\ Forall2 (sub_at fs) subs (List.concat (map given lss))).
  { unfold struct_items. clear -F.
    assert (E : exists ls, mapM (fun v => match unwrap v with
                            | AvArray vs => mapM (fun w => match unwrap w with
                                                           | AvRecord r => Ok (true, r)
                                                           | AvNull => Ok (false, null_struct)
                                                           | _ => Panic
                                                           end) vs
                            | _ => Ok [(false, null_struct)]
                            end) vals = Ok ls /\ Forall2 (sub_at fs) (List.concat ls) (List.concat (map given lss))).
    { induction F as [|v o vals lss Hv F [ls [E Fs]]]; [exists []; split; [reflexivity|constructor]|]. cbn [mapM]. destruct Hv as [Hv _]. destruct o as [sls|]; [|destruct Hv as [_ Hv]; discriminate].
      destruct Hv as [vs [-> Fv]].
      assert (E1 : exists l, mapM (fun w => match unwrap w with
                                                           | AvRecord r => Ok (true, r)
                                                           | AvNull => Ok (false, null_struct)
                                                           | _ => Panic
                                                           end) vs = Ok l /\ Forall2 (sub_at fs) l sls).
      { clear -Fv. induction Fv as [|w sl vs sls [[H _] _] Fv [l [E Fl]]]; [now exists []|]. cbn [mapM]. rewrite E. destruct H as [[C [O ->]]|[U [Tl ->]]].
        - inversion C as [| | | | | | | | | | |fs' r Fr E1 E2| | | | | | | | | | | | |]; subst. rewrite <- E2 in C, O. cbn [bind]. exists ((true, r) :: l). split; [reflexivity|].
          constructor; [|assumption]. left. auto.
        - rewrite U. cbn [bind]. exists ((false, null_struct) :: l). split; [reflexivity|]. constructor; [|assumption]. right. auto. }
      destruct E1 as [l [-> Fl]]. cbn [bind]. rewrite E. exists (l :: ls). split; [reflexivity|]. cbn [List.concat map given]. now apply Forall2_app. }
    destruct E as [ls [-> Fs]]. exists (List.concat ls). now split. }
  destruct Hs as [subs [-> Fs]]. cbn [bind]. assert (Np : p ++ ".element" <> "") by (destruct p; discriminate).
  change (p ++ "." ++ "element") with (p ++ ".element").
  destruct (rec_cols fs dfs _ subs _ (record_parts fs G V L2) Ft (record_paths fs _ Np P) Fs) as [[cols [-> [Lc Hc]]]|[e [-> R]]].
  - cbn [bind]. destruct (struct_shows fs dfs subs _ cols Ft Fs Lc Hc) as [-> S]. left. eexists. now split.
  - cbn [bind]. right. exists e. now split.
Qed.
Lemma array_parts : forall it n0 d n, to_type (ScArray it) n0 = Ok (d, n) -> exists d' n', to_type it false = Ok (d', n') /\ d = DList "element" d' n'.
Proof. intros it n0 d n T. cbn in T. destruct (to_type it false) as [[d' n']| |]; try discriminate. injection T as <- _. eauto. Qed.
Lemma array_valid_item : forall it, valid (ScArray it) -> valid it.
Proof. intros it V. inversion V as [| | | |s A]; subst; [assumption|exfalso; now apply (A it)]. Qed.
Lemma array_paths : forall p it, paths lk p (ScArray it) -> paths lk (p ++ ".element") it.
Proof. intros p it P. inversion P as [p' i H| | | |p' s A]; subst; [assumption|exfalso; now apply (A it)]. Qed.
Lemma col_array : forall it, good it -> col_ok (ScArray it).
Proof.
  intros it G w n0 d n p rows sls N V L T P Np F. destruct (array_parts it n0 d n T) as [d' [n' [T' ->]]]. rewrite column_list.
  apply (list_done it w false); try assumption; [now apply array_valid_item|]. intros _. now apply array_paths.
Qed.
Lemma item_array : forall it, good it -> item_ok (ScArray it).
Proof.
  intros it G lw opt deep n0 d n p vals lss N V L T P F. destruct (array_parts it n0 d n T) as [d' [n' [T' ->]]]. cbn [items].
  assert (E : Forall2 (val_at opt (ScArray it)) (flatten_values vals) (List.concat (map given lss))).
  { clear -F. unfold flatten_values. induction F as [|v o vals lss [Hv _] F IH]; [constructor|]. cbn [flat_map map List.concat]. apply Forall2_app; [|assumption].
    destruct o as [sls|]; [|destruct Hv as [_ Hv]; discriminate]. destruct Hv as [vs [-> Fv]]. revert Fv. apply Forall2_weaken. now intros a b [H _]. }
  apply (list_done it opt true); try assumption; [now apply array_valid_item|discriminate].
Qed.
Lemma all_good : forall s, good s.
Proof.
  assert (U : forall vs, col_ok (ScUnion vs) /\ item_ok (ScUnion vs)).
  { intros vs. split; [intros w n0 d n p rows sls N|intros lw opt deep n0 d n p vals lss N]; now elim (N vs). }
  intros s. pattern s. apply avro_ind'; clear s.
  - intros i G. split; [|discriminate]. split; [now apply col_array|now apply item_array].
  - intros i _. split; [|discriminate]. split.
    + intros w n0 d n p rows sls N V L T P Np F. cbn in T. destruct (to_type i false) as [[d' n']| |]; try discriminate. injection T as <- <-. now apply (err_done _ _ _ EArrow).
    + intros lw opt deep n0 d n p vals lss N V L T P F. cbn in T. destruct (to_type i false) as [[d' n']| |]; try discriminate. injection T as <- <-. now apply (err_done _ _ _ EArrow).
  - intros vs H. split; [apply U|]. intros vs' x E I. injection E as <-. rewrite Forall_forall in H. now apply (H x I).
  - intros fs H. split; [|discriminate]. assert (H' : forall n al s, In (n, al, s) fs -> good s) by (intros n al s I; rewrite Forall_forall in H; exact (H _ I)).
    split; [now apply col_record|now apply item_record].
  - intros s A B C D. split; [|intros vs x E; now elim (C vs)]. split; [apply col_scalar|apply item_scalar]; repeat split; assumption.
Qed.
End Batch.

(** ** Batches *)
Lemma top_typed : forall fs dfs, to_arrow_schema (ScRecord fs) = Ok dfs -> Forall2 field_typed fs dfs.
Proof.
  intros fs dfs H. cbn in H. apply mapM_ok in H. revert H. apply Forall2_weaken. intros [[nm al] s] df H. cbn [fst snd] in H.
  destruct (to_type s (is_nullable s)) as [[d' u]| |] eqn:Et; try discriminate. injection H as <-. split; [reflexivity|]. exists (is_nullable s). exact Et.
Qed.
Lemma read_batch_shows : forall fc fs vs, valid (ScRecord fs) -> fs <> [] -> ~ unsupported (ScRecord fs) -> lossless false (ScRecord fs) = true ->
  Forall (conforms (ScRecord fs)) vs -> Forall (nulls_ok (ScRecord fs)) vs ->
  (exists dfs cols, to_arrow_schema (ScRecord fs) = Ok dfs /\ read_batch fc (ScRecord fs) vs = Ok (dfs, cols) /\ batch_shows (dfs, cols) vs)
  \/ (exists e, read_batch fc (ScRecord fs) vs = Err e /\ readable (ScRecord fs) = false).
Proof.
  intros fc fs vs V Ne U L C O. unfold read_batch.
  assert (T : exists dfs, to_arrow_schema (ScRecord fs) = Ok dfs).
  { cbn. apply mapM_succeeds. intros [[nm al] s] I. cbn [fst snd].
    assert (Vs : valid s) by (inversion V as [| | |l ND H|s' A B D E]; subst; [now apply (H nm al s)|exfalso; now apply (E fs)]).
    destruct (to_type_total s Vs (is_nullable s)) as [[[d [u ->]] _]|[_ Us]]; [eexists; reflexivity|]. elim U.
    destruct Us as [Us|Us]; [left|right]; now apply (pt_field _ nm al s). }
  destruct T as [dfs T]. rewrite T. cbn [bind]. pose proof (top_typed fs dfs T) as Ft. destruct (schema_lookup_ok fs V) as [lk [-> Hl]]. cbn [bind].
  set (subs := map (fun v => (true, match v with AvRecord r => r | _ => [] end) : bool * row) vs).
  assert (R : to_rows vs = Ok (map snd subs)).
  { unfold to_rows, subs. clear -C. induction C as [|v vs H C IH]; [reflexivity|]. cbn [mapM map]. rewrite IH. inversion H; subst. reflexivity. }
  rewrite R. cbn [bind].
  assert (Fs : Forall2 (sub_at fs) subs (map meaning vs)).
  { unfold subs. clear -C O. induction vs as [|v vs IH]; [constructor|]. cbn [map]. inversion C; subst. inversion O; subst. constructor; [|now apply IH]. left. split; [reflexivity|]. cbn [snd].
    match goal with H : conforms (ScRecord fs) v |- _ => inversion H; subst end. auto. }
  cbn [lossless] in L.
  destruct (rec_cols fc lk fs dfs "" subs _ (record_parts fc lk fs (fun _ _ s _ => all_good fc lk s) V L) Ft (fun j n al s E => Hl j n al s E) Fs)
    as [[cols [Ec [Lc Hc]]]|[e [Ec Rd]]]; unfold cols_of in Ec; rewrite Ec; cbn [bind]; [left|right; exists e; now split].
  exists dfs, cols. split; [reflexivity|]. destruct (struct_shows fs dfs subs _ cols Ft Fs Lc Hc) as [_ S].
  assert (Lvs : List.length subs = List.length vs) by (unfold subs; apply map_length).
  assert (Len : forall c, In c cols -> array_len c = List.length vs).
  { intros c I. apply In_nth_error in I. destruct I as [j E]. destruct (nth_error dfs j) as [df|] eqn:Ed; [|exfalso; apply nth_error_None in Ed; assert (j < List.length cols) by (apply nth_error_Some; congruence); lia].
    destruct (Hc j df c Ed E) as [[_ [Hlen _]] _]. now rewrite Hlen, map_length. }
  split.
  - unfold new_batch. destruct cols as [|c cols]; [destruct dfs; [|discriminate]; inversion Ft; subst; contradiction|]. rewrite <- Lc, Nat.eqb_refl. cbn [andb].
    match goal with |- context [forallb ?f ?l] => assert (E : forallb f l = true) end; [|now rewrite E].
    apply forallb_forall. intros [df col] I. apply In_nth_error in I. destruct I as [j E]. rewrite nth_combine in E. destruct (nth_error dfs j) as [df'|] eqn:Ed; [|discriminate].
    destruct (nth_error (c :: cols) j) as [col'|] eqn:Ecj; [|discriminate]. injection E as -> ->. cbn [fst snd]. destruct (Hc j df col Ed Ecj) as [Sc Hn].
    rewrite (Len col (nth_error_In _ _ Ecj)), (Len c (or_introl eq_refl)), Nat.eqb_refl. destruct Sc as [Ht [Hlen [Hv _]]]. rewrite Ht, dtype_eqb_refl, !andb_true_r.
    destruct (fnull df); [reflexivity|]. cbn [orb]. apply Nat.eqb_eq. unfold null_count. specialize (Hn eq_refl). rewrite map_length in Hv.
    assert (F : forall b, In b (array_valid col) -> b = true).
    { intros b I. apply In_nth with (d := false) in I. destruct I as [i [Li Eb]]. rewrite <- Eb. rewrite Hv in Li. apply nth_error_Some in Li.
      destruct (nth_error subs i) as [br|] eqn:Es; [|contradiction]. apply (Hn i br Es). unfold subs in Es. rewrite nth_error_map in Es. destruct (nth_error vs i); [|discriminate]. injection Es as <-. reflexivity. }
    revert F. generalize (array_valid col). intros l F. induction l as [|b l IH]; [reflexivity|]. cbn. rewrite (F b (or_introl eq_refl)). cbn. apply IH. intros x I. apply F. now right.
  - split; [cbn; now rewrite Lc|]. split; [exact Len|]. intros i v E. cbn [fst snd]. destruct S as [_ [_ [_ [S _]]]].
    assert (Es : nth_error (map meaning vs) i = Some (meaning v)) by (now rewrite nth_error_map, E). rewrite <- (S i _ Es).
    assert (Ev : nth i (map fst subs) false = true) by (apply nth_error_nth; unfold subs; rewrite !nth_error_map, E; reflexivity).
    rewrite slot_struct by assumption. f_equal. clear. revert dfs. induction cols as [|c cols IH]; intros [|df dfs]; try reflexivity. cbn. now rewrite IH.
Qed.
