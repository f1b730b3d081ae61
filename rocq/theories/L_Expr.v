(** Proofs about filters, partition pruning and query-engine predicates. *)
From Verif Require Import Base Str L_Str M_Utf8 M_Expr S_Expr L_Base.
Local Open Scope string_scope.

(** ** Operators *)
Lemma op_test_meaning : forall o c, op_test o c = true <-> op_meaning o c.
Proof. intros [] []; cbn; intuition (congruence || discriminate). Qed.
Lemma op_roundtrip : forall o, op_from_str (op_display o) = Ok o.
Proof. intros []; reflexivity. Qed.
Lemma tuple_roundtrip : forall f, filter_of_tuple (filter_to_tuple f) = Ok f.
Proof. intros [n o v]. unfold filter_of_tuple, filter_to_tuple. cbn [fe_field fe_op fe_value]. rewrite op_roundtrip. reflexivity. Qed.
Lemma tuples_roundtrip : forall l, from_str_tuples (map filter_to_tuple l) = Ok l.
Proof. induction l as [|f l IH]; [reflexivity|]. unfold from_str_tuples in *. cbn [map mapM]. rewrite tuple_roundtrip, IH. reflexivity. Qed.
Lemma op_parse_inv : forall s o, op_from_str s = Ok o -> s = op_display o.
Proof.
  intros s o H. unfold op_from_str in H.
  assert (L : forall c d, lower_ascii c = d -> (N_of_ascii d <? 97)%N = true -> c = d).
  { intros c d E Hd. unfold lower_ascii in E. destruct ((65 <=? N_of_ascii c)%N && (N_of_ascii c <=? 90)%N) eqn:X; [|exact E].
    exfalso. apply andb_true_iff in X as [X1 X2]. apply N.leb_le in X1. apply N.leb_le in X2. apply N.ltb_lt in Hd. subst d.
    rewrite N_ascii_embedding in Hd by lia. lia. }
  destruct (find _ TOKEN_OP_PAIRS) as [[t o']|] eqn:F; [|discriminate]. injection H as ->. apply find_some in F as [Hin E].
  apply String.eqb_eq in E. cbn in Hin. cbn [fst] in E.
  assert (Q : forall t, (t = "=" \/ t = "!=" \/ t = "<" \/ t = "<=" \/ t = ">" \/ t = ">=") -> to_ascii_lowercase t = to_ascii_lowercase s -> s = t).
  { intros u Hu Eu. assert (to_ascii_lowercase u = u) as Eu' by (destruct Hu as [ -> |[ -> |[ -> |[ -> |[ -> | ->]]]]]; reflexivity).
    rewrite Eu' in Eu. destruct s as [|c [|d [|? ?]]]; cbn in Eu; destruct Hu as [ -> |[ -> |[ -> |[ -> |[ -> | ->]]]]]; try discriminate Eu;
      injection Eu; intros; f_equal; try f_equal; apply L; auto. }
  destruct Hin as [[= <- <-]|[[= <- <-]|[[= <- <-]|[[= <- <-]|[[= <- <-]|[[= <- <-]|[]]]]]]]; apply Q; tauto.
Qed.
Lemma negate_total : forall f, exists g, negate_filter f = Some g /\ negate_filter g = Some f
  /\ fe_field g = fe_field f /\ fe_value g = fe_value f /\ forall c, op_meaning (fe_op g) c <-> ~ op_meaning (fe_op f) c.
Proof.
  intros [n o v]. destruct o; eexists; (split; [reflexivity|]); (split; [reflexivity|]); (split; [reflexivity|]); (split; [reflexivity|]);
    intros []; cbn; intuition (congruence || discriminate).
Qed.

(** ** UTF-8 and percent encoding *)
Lemma utf8_app : forall a b, utf8_valid a = true -> utf8_valid (a ++ b) = utf8_valid b.
Proof.
  intros a. remember (String.length a) as n eqn:E. assert (H : (String.length a <= n)%nat) by lia. clear E. revert a H.
  induction n as [|n IH]; intros [|a1 r] H b V; try reflexivity; [cbn in H; lia|]. cbn [append utf8_valid] in *. cbn in H.
  destruct (byte_in 0 127 a1); [apply IH; [lia|assumption]|].
  destruct r as [|b1 r2]; [discriminate|]. cbn [append] in *. cbn in H.
  destruct (byte_in 194 223 a1 && cont_byte b1); [apply IH; [lia|assumption]|].
  destruct r2 as [|c1 r3]; [discriminate|]. cbn [append] in *. cbn in H.
  destruct (utf8_3 a1 b1 && cont_byte c1); [apply IH; [lia|assumption]|].
  destruct r3 as [|d1 r4]; [discriminate|]. cbn [append] in *. cbn in H.
  destruct (utf8_4 a1 b1 && cont_byte c1 && cont_byte d1); [|discriminate]. cbn in *. apply IH; [lia|assumption].
Qed.
Lemma utf8_app_true : forall a b, utf8_valid a = true -> utf8_valid b = true -> utf8_valid (a ++ b) = true.
Proof. intros a b H1 H2. now rewrite utf8_app. Qed.
Lemma utf8_join : forall l, Forall (fun s => utf8_valid s = true) l -> utf8_valid (join "/" l) = true.
Proof.
  intros l F. induction F as [|x l H F IH]; [reflexivity|]. destruct l as [|y l]; [exact H|].
  rewrite join_cons2. apply utf8_app_true; [assumption|]. exact IH.
Qed.

Lemma decode_app : forall v e, encodes v e -> forall r, percent_decode (e ++ r) = v ++ percent_decode r.
Proof.
  intros v e H. induction H as [|c v e N H IH|c h l x y v e Hh Hl Hc H IH]; intros r; [reflexivity| |].
  - cbn [append percent_decode]. destruct (Ascii.eqb_spec c "%"); [now elim N|]. now rewrite IH.
  - cbn [append percent_decode]. cbn [Ascii.eqb Bool.eqb]. rewrite Hh, Hl, Hc. now rewrite IH.
Qed.
Lemma encodes_self : forall n, has_char "%" n = false -> encodes n n.
Proof.
  induction n as [|c n IH]; intros H; [constructor|]. cbn in H. apply orb_false_iff in H as [H1 H2].
  constructor; [|auto]. intros ->. rewrite Ascii.eqb_refl in H1. discriminate.
Qed.
Lemma encodes_app : forall v1 e1 v2 e2, encodes v1 e1 -> encodes v2 e2 -> encodes (v1 ++ v2) (e1 ++ e2).
Proof. intros v1 e1 v2 e2 H1 H2. induction H1; cbn [append]; [assumption| |]; econstructor; eauto. Qed.
Lemma decode_encodes : forall v e, encodes v e -> percent_decode e = v.
Proof. intros v e H. assert (X := decode_app v e H ""). now rewrite !app_nil_r_s in X. Qed.

(** ** Splitting *)
Fixpoint count_char (c : ascii) (s : string) : nat :=
  match s with "" => 0%nat | String d r => if Ascii.eqb d c then S (count_char c r) else count_char c r end.
Lemma split_length : forall c s, List.length (split c s) = S (count_char c s).
Proof.
  intros c. induction s as [|d r IH]; [reflexivity|]. cbn [split count_char]. destruct (Ascii.eqb d c).
  - cbn [List.length]. now rewrite IH.
  - destruct (split c r); [discriminate IH|exact IH].
Qed.
Lemma count_app : forall c a b, count_char c (a ++ b) = (count_char c a + count_char c b)%nat.
Proof. intros c. induction a as [|d a IH]; intros b; [reflexivity|]. cbn [append count_char]. destruct (Ascii.eqb d c); rewrite IH; lia. Qed.
Lemma count_join : forall l, (l <> [] -> count_char "/" (join "/" l) = (List.length l - 1) + fold_right (fun s n => count_char "/" s + n) 0 l)%nat.
Proof.
  induction l as [|x l IH]; intros N; [now elim N|]. destruct l as [|y l]; [cbn; lia|].
  rewrite join_cons2, count_app. cbn [count_char]. rewrite Ascii.eqb_refl. specialize (IH ltac:(discriminate)).
  rewrite IH. cbn [List.length fold_right]. lia.
Qed.
Lemma count_zero : forall c s, count_char c s = 0%nat <-> has_char c s = false.
Proof.
  intros c. induction s as [|d r IH]; [cbn; tauto|]. cbn [count_char has_char].
  destruct (Ascii.eqb_spec d c) as [E|E].
  - subst. rewrite ?Ascii.eqb_refl. cbn. split; intros; discriminate.
  - rewrite ?(proj2 (Ascii.eqb_neq d c)) by assumption. rewrite ?(proj2 (Ascii.eqb_neq c d)) by congruence. exact IH.
Qed.
Lemma split_join_iff : forall l, l <> [] ->
  (List.length (split "/" (join "/" l)) = List.length l <-> Forall (fun s => has_char "/" s = false) l).
Proof.
  intros l N. rewrite split_length, count_join by assumption.
  assert (X : fold_right (fun s n => count_char "/" s + n)%nat 0%nat l = 0%nat <-> Forall (fun s => has_char "/" s = false) l).
  { clear N. induction l as [|x l IH]; cbn; [split; [constructor|reflexivity]|]. split.
    - intros H. constructor; [apply count_zero; lia|apply IH; lia].
    - intros F. inversion F; subst. apply count_zero in H1. apply IH in H2. lia. }
  rewrite <- X. assert (List.length l <> 0%nat) by (destruct l; [now elim N|discriminate]). lia.
Qed.

Lemma nodup_assoc : forall A (l : list (string * A)) n a b, NoDup (map fst l) -> In (n, a) l -> In (n, b) l -> a = b.
Proof.
  induction l as [|[k q] l IH]; intros n a b Dl H1 H2; [elim H1|]. cbn in *. inversion Dl; subst.
  destruct H1 as [E1|H1]; destruct H2 as [E2|H2].
  - congruence.
  - injection E1 as -> ->. elim H3. apply in_map_iff. exists (n, b). auto.
  - injection E2 as -> ->. elim H3. apply in_map_iff. exists (n, a). auto.
  - eauto.
Qed.

(** ** Pruning *)
Section Pr.
Variable dtype value : Type.
Variable cast : dtype -> string -> option value.
Variable cmp : value -> value -> option comparison.
Notation parse := (parse_segments dtype value cast).
Notation newp := (new_pruner dtype value cast).
Notation include := (should_include dtype value cast cmp).
Notation compares := (compares dtype value cast cmp).
Notation satisfies := (satisfies dtype value cast cmp).

Definition plain_segs (hive : bool) (fields : list (string * dtype)) (vs : list string) : list string :=
  map (fun x => segment hive (fst (fst x)) (snd x)) (combine fields vs).

Lemma decode_join : forall hive (fields : list (string * dtype)) vs es,
  (forall n, In n (map fst fields) -> has_char "%" n = false) ->
  Forall2 encodes vs es -> encodes (join "/" (plain_segs hive fields vs)) (join "/" (plain_segs hive fields es)).
Proof.
  intros hive fields vs es Hn F. revert fields Hn. induction F as [|v e vs es H F IH]; intros fields Hn.
  - destruct fields; constructor.
  - destruct fields as [|[n ty] fields]; [constructor|].
    assert (S1 : encodes (segment hive n v) (segment hive n e)).
    { unfold segment. destruct hive; [|assumption]. apply encodes_app; [apply encodes_self; apply Hn; now left|].
      apply (encodes_app "=" "="); [repeat constructor; discriminate|assumption]. }
    assert (Hn' : forall m, In m (map fst fields) -> has_char "%" m = false) by (intros m Hm; apply Hn; now right).
    specialize (IH fields Hn'). unfold plain_segs in *. cbn [combine map fst snd].
    destruct fields as [|[n2 ty2] fields]; [exact S1|].
    destruct F as [|v2 e2 vs es H2 F]; [exact S1|]. cbn [combine map fst snd] in IH |- *. rewrite !join_cons2.
    apply encodes_app; [assumption|]. constructor; [discriminate|]. exact IH.
Qed.

Lemma plain_path : forall hive url (fields : list (string * dtype)) vs path, wf_fields fields -> named hive url fields vs path ->
  (if url then percent_decode path else path) = join "/" (plain_segs hive fields vs).
Proof.
  intros hive url fields vs path [_ W] [es [F ->]]. fold (plain_segs hive fields es). destruct url.
  - apply decode_encodes. apply decode_join; [|assumption]. intros n Hn. now destruct (W n Hn) as [_ [_ X]].
  - f_equal. f_equal. clear - F. induction F; [reflexivity|]. now subst.
Qed.

Lemma seg_length : forall hive (fields : list (string * dtype)) vs, List.length vs = List.length fields ->
  List.length (plain_segs hive fields vs) = List.length fields.
Proof. intros. unfold plain_segs. rewrite map_length, combine_length. lia. Qed.

Lemma hive_seg : forall n v, has_char "=" n = false -> split_once "=" (segment true n v) = Some (n, v).
Proof. intros n v H. unfold segment. apply (split_once_app "=" n v H). Qed.

(** The segments of a well-named path parse to the values of the naming fields; in hive style the
    naming order must be the schema order. *)
Lemma parse_inv : forall pr cfg vs path segs,
  wf_fields cfg -> List.length vs = List.length cfg ->
  named (pr_hive _ _ pr) (pr_url _ _ pr) cfg vs path ->
  List.length (pr_schema _ _ pr) = List.length cfg ->
  parse pr path = Ok segs ->
  Forall2 (fun (x : (string * dtype * string) * (string * dtype * string)) (s : string * value) => (pr_hive _ _ pr = true -> fst (fst (fst x)) = fst (fst (snd x)))
      /\ fst s = fst (fst (fst x)) /\ cast (snd (fst (fst x))) (snd (snd x)) = Some (snd s))
    (combine (combine (pr_schema _ _ pr) vs) (combine cfg vs)) segs.
Proof.
  intros pr cfg vs path segs W L N Ls H. unfold parse_segments in H.
  assert (P := plain_path _ _ _ _ _ W N). apply bind_ok in H as [plain [Hp H]].
  assert (plain = join "/" (plain_segs (pr_hive _ _ pr) cfg vs)) as ->.
  { destruct (pr_url _ _ pr); [|injection Hp as <-; assumption]. rewrite P in Hp.
    destruct (utf8_valid _); [|discriminate]. now injection Hp as <-. }
  destruct (Nat.eqb_spec (List.length (split "/" (join "/" (plain_segs (pr_hive _ _ pr) cfg vs)))) (List.length (pr_schema _ _ pr))) as [El|]; [|discriminate].
  cbn [negb] in H. destruct cfg as [|f0 cfg0] eqn:Ec.
  { destruct (pr_schema _ _ pr); [|discriminate Ls]. cbn in El. discriminate. }
  rewrite <- Ec in *. assert (Nn : plain_segs (pr_hive _ _ pr) cfg vs <> []).
  { intros X. assert (Y := seg_length (pr_hive _ _ pr) cfg vs L). rewrite X, Ec in Y. discriminate. }
  assert (Fs : Forall (fun s => has_char "/" s = false) (plain_segs (pr_hive _ _ pr) cfg vs)).
  { apply split_join_iff; [assumption|]. rewrite El, seg_length; auto. }
  rewrite join_split in H by assumption. clear El Fs Nn P N Ec f0 cfg0 Hp.
  destruct W as [_ W]. apply mapM_ok in H.
  revert cfg vs segs W L Ls H. induction (pr_schema _ _ pr) as [|f fields IH]; intros cfg vs segs W L Ls H.
  - cbn in H. inversion H; subst. constructor.
  - destruct cfg as [|g cfg]; [discriminate|]. destruct vs as [|v vs]; [discriminate|].
    unfold plain_segs in H. cbn [combine map fst snd] in H |- *. inversion H as [|? s ? ss Hs Hss]; subst. constructor.
    + clear - Hs W. cbn [fst snd] in *. unfold parse_segment in Hs. apply bind_ok in Hs as [u [Hu Hs]]. apply bind_ok in Hs as [x [Hx Hs]].
      injection Hs as <-. apply ok_or_ok in Hx. destruct (pr_hive _ _ pr).
      * rewrite hive_seg in Hu by (apply W; now left). cbn in Hu. destruct (String.eqb_spec (fst g) (fst f)); [|discriminate].
        injection Hu as ->. auto.
      * injection Hu as <-. cbn in Hx. split; [discriminate|]. auto.
    + apply IH; auto. intros m Hm. apply W. now right.
Qed.

Lemma parse_some : forall pr vs path,
  wf_fields (pr_schema _ _ pr) -> List.length vs = List.length (pr_schema _ _ pr) -> pr_schema _ _ pr <> [] ->
  named (pr_hive _ _ pr) (pr_url _ _ pr) (pr_schema _ _ pr) vs path ->
  Forall (fun v => has_char "/" v = false) vs ->
  (pr_url _ _ pr = true -> Forall (fun v => utf8_valid v = true) vs /\ Forall (fun n => utf8_valid n = true) (map fst (pr_schema _ _ pr))) ->
  (forall f v, In (f, v) (combine (pr_schema _ _ pr) vs) -> cast (snd f) v <> None) ->
  exists segs, parse pr path = Ok segs.
Proof.
  intros pr vs path W L Nn N Fv U C. unfold parse_segments.
  assert (P := plain_path _ _ _ _ _ W N).
  assert (X : (if pr_url _ _ pr then let d := percent_decode path in if utf8_valid d then Ok d else Err EUtf8 else Ok path)
     = Ok (join "/" (plain_segs (pr_hive _ _ pr) (pr_schema _ _ pr) vs))).
  { destruct (pr_url _ _ pr); [|now rewrite P]. cbn zeta. rewrite P. destruct (U eq_refl) as [U1 U2].
    rewrite utf8_join; [reflexivity|]. clear - U1 U2. revert vs U1. induction (pr_schema _ _ pr) as [|f fields IH]; intros vs U1; [constructor|].
    destruct vs as [|v vs]; [constructor|]. unfold plain_segs in *. cbn [combine map fst snd] in *. inversion U1; inversion U2; subst.
    constructor; [|apply IH; assumption]. unfold segment. destruct (pr_hive _ _ pr); [|assumption].
    apply utf8_app_true; [assumption|]. now apply (utf8_app_true "="). }
  cbn zeta in X. rewrite X. cbn [bind].
  assert (Hl := seg_length (pr_hive _ _ pr) _ _ L).
  assert (N2 : plain_segs (pr_hive _ _ pr) (pr_schema _ _ pr) vs <> []).
  { intros E. rewrite E in Hl. destruct (pr_schema _ _ pr); [now elim Nn|discriminate]. }
  assert (Fs : Forall (fun s => has_char "/" s = false) (plain_segs (pr_hive _ _ pr) (pr_schema _ _ pr) vs)).
  { destruct W as [_ W]. clear - W Fv. revert vs Fv. induction (pr_schema _ _ pr) as [|f fields IH]; intros vs Fv; [constructor|].
    destruct vs as [|v vs]; [constructor|]. unfold plain_segs in *. cbn [combine map fst snd] in *. inversion Fv; subst.
    constructor; [|apply IH; [intros m Hm; apply W; now right|assumption]]. unfold segment. destruct (pr_hive _ _ pr); [|assumption].
    rewrite !has_char_app. destruct (W (fst f) (or_introl eq_refl)) as [_ [E _]]. rewrite E, H1. reflexivity. }
  rewrite join_split by assumption. rewrite Hl, Nat.eqb_refl. cbn [negb].
  apply mapM_succeeds. intros [f part] Hin. cbn [fst snd]. destruct W as [_ W]. clear - Hin C W L.
  revert vs L C Hin. induction (pr_schema _ _ pr) as [|g fields IH]; intros vs L C Hin; [elim Hin|].
  destruct vs as [|v vs]; [discriminate|]. unfold plain_segs in *. cbn [combine map fst snd] in *. destruct Hin as [[= -> <-]|Hin].
  - unfold parse_segment. assert (Y := C f v (or_introl eq_refl)).
    assert (E : (if pr_hive _ _ pr then
              let* (name, v) := ok_or (split_once "=" (segment (pr_hive _ _ pr) (fst f) v)) EInvalidPartitionPath in
              if negb (String.eqb name (fst f)) then Err EInvalidPartitionPath else Ok v
            else Ok (segment (pr_hive _ _ pr) (fst f) v)) = Ok v).
    { destruct (pr_hive _ _ pr); [|reflexivity]. rewrite hive_seg by (apply W; now left). cbn. now rewrite String.eqb_refl. }
    rewrite E. cbn [bind]. destruct (cast (snd f) v); [|now elim Y]. cbn. eauto.
  - eapply IH; [intros m Hm; apply W; now right| | |exact Hin]; [cbn in L; lia|]. intros h u Hu. apply C. now right.
Qed.

Lemma new_inv : forall filters s h u pr, newp filters s (Ok h) (Ok u) = Ok pr ->
  pr_schema _ _ pr = s /\ pr_hive _ _ pr = h /\ pr_url _ _ pr = u
  /\ Forall2 (fun f sf => find (fun e => String.eqb (fst e) (fe_field f)) s = Some (sf_name _ _ sf, sf_type _ _ sf)
       /\ cast (sf_type _ _ sf) (fe_value f) = Some (sf_value _ _ sf) /\ sf_op _ _ sf = fe_op f) filters (pr_filters _ _ pr).
Proof.
  intros filters s h u pr H. unfold new_pruner in H. apply bind_ok in H as [fs [Hf H]]. cbn in H. injection H as <-. cbn.
  split; [reflexivity|]. split; [reflexivity|]. split; [reflexivity|]. apply mapM_ok in Hf.
  clear - Hf. induction Hf as [|f sf l l' H F IH]; [constructor|]. constructor; [|assumption].
  unfold schemable_of in H. apply bind_ok in H as [[n ty] [H1 H]]. apply bind_ok in H as [v [H2 H]]. injection H as <-. cbn.
  apply ok_or_ok in H1. apply ok_or_ok in H2. auto.
Qed.

(** Looking up a field among the parsed segments. *)
Lemma seg_get_in : forall segs n v, NoDup (map fst segs) -> In (n, v) segs -> seg_get value n segs = Some v.
Proof.
  intros segs n v D Hin. unfold seg_get.
  assert (D' : NoDup (map fst (rev segs))) by (rewrite map_rev; now apply NoDup_rev).
  assert (Hin' : In (n, v) (rev segs)) by now apply -> in_rev. clear - D' Hin'.
  induction (rev segs) as [|[m w] l IH]; [elim Hin'|]. cbn in *. inversion D'; subst. destruct (String.eqb_spec m n) as [ -> |E].
  - destruct Hin' as [[= ->]|Hin']; [reflexivity|]. elim H1. apply in_map_iff. exists (n, v). auto.
  - destruct Hin' as [[= -> ->]|Hin']; [now elim E|]. auto.
Qed.

Lemma find_field : forall (s : list (string * dtype)) k e, find (fun e => String.eqb (fst e) k) s = Some e -> In e s /\ fst e = k.
Proof. intros s k e H. apply find_some in H as [H1 H2]. apply String.eqb_eq in H2. auto. Qed.

Lemma combine_unique : forall A (l : list (string * A)) (m : list string) n ty1 ty2 v1 v2, NoDup (map fst l) ->
  In ((n, ty1), v1) (combine l m) -> In ((n, ty2), v2) (combine l m) -> ty1 = ty2 /\ v1 = v2.
Proof.
  induction l as [|[k a] l IH]; intros [|w m] n ty1 ty2 v1 v2 D H1 H2; try (now elim H1). cbn in *. inversion D; subst.
  assert (X : forall ty v, In (n, ty, v) (combine l m) -> In n (map fst l)).
  { intros ty v Hin. apply in_combine_l in Hin. apply in_map_iff. exists (n, ty). auto. }
  destruct H1 as [[= <- <- <-]|H1]; destruct H2 as [[= <- <-]|H2]; auto.
  - elim H3. eauto.
  - intros; subst. elim H3. eauto.
  - eauto.
Qed.

Lemma segs_values : forall (fields : list (string * dtype)) vs segs, List.length vs = List.length fields ->
  Forall2 (fun (x : string * dtype * string) (s : string * value) => fst s = fst (fst x) /\ cast (snd (fst x)) (snd x) = Some (snd s)) (combine fields vs) segs ->
  map fst segs = map fst fields /\ forall n ty v, In ((n, ty), v) (combine fields vs) -> exists x, In (n, x) segs /\ cast ty v = Some x.
Proof.
  induction fields as [|f fields IH]; intros [|v vs] segs L H; try discriminate; cbn in H; inversion H; subst.
  - split; [reflexivity|]. intros n ty v [].
  - destruct H2 as [E1 E2]. destruct (IH vs l' ltac:(cbn in L; lia) H4) as [M X]. cbn in E1. split; [cbn; now rewrite E1, M|].
    intros n ty w [[= -> <-]|Hin].
    + cbn in E1, E2. exists (snd y). split; [left; destruct y; cbn in *; now subst|assumption].
    + destruct (X _ _ _ Hin) as [x [X1 X2]]. exists x. split; [now right|assumption].
Qed.

Lemma hive_same_order : forall (s cfg : list (string * dtype)) vs segs,
  List.length vs = List.length cfg -> List.length s = List.length cfg ->
  Forall2 (fun (x : (string * dtype * string) * (string * dtype * string)) (sg : string * value) => (true = true -> fst (fst (fst x)) = fst (fst (snd x)))
      /\ fst sg = fst (fst (fst x)) /\ cast (snd (fst (fst x))) (snd (snd x)) = Some (snd sg))
    (combine (combine s vs) (combine cfg vs)) segs -> map fst s = map fst cfg.
Proof.
  induction s as [|f s IH]; intros [|g cfg] [|v vs] segs L1 L2 H; try discriminate; [reflexivity|].
  cbn in H. inversion H; subst. destruct H2 as [E _]. cbn in E. cbn. f_equal; [now apply E|]. eapply IH; eauto.
Qed.

Lemma diag : forall (fields : list (string * dtype)) vs (segs : list (string * value)) (Q : Prop),
  Forall2 (fun (x : (string * dtype * string) * (string * dtype * string)) (s : string * value) => (Q -> fst (fst (fst x)) = fst (fst (snd x)))
      /\ fst s = fst (fst (fst x)) /\ cast (snd (fst (fst x))) (snd (snd x)) = Some (snd s))
    (combine (combine fields vs) (combine fields vs)) segs ->
  Forall2 (fun (x : string * dtype * string) (s : string * value) => fst s = fst (fst x) /\ cast (snd (fst x)) (snd x) = Some (snd s)) (combine fields vs) segs.
Proof.
  intros fields vs segs Q. generalize (combine fields vs). intros l. revert segs.
  induction l as [|a l IH]; intros segs H; cbn in H; inversion H; subst; constructor; auto. cbn in H2. tauto.
Qed.

(** What the pruner decides once the segments parsed. *)
Lemma include_segs : forall filters s h u pr vs path segs,
  newp filters s (Ok h) (Ok u) = Ok pr -> NoDup (map fst s) -> List.length vs = List.length s ->
  parse pr path = Ok segs ->
  Forall2 (fun (x : string * dtype * string) (s : string * value) => fst s = fst (fst x) /\ cast (snd (fst x)) (snd x) = Some (snd s)) (combine s vs) segs ->
  (Forall (satisfies s vs) filters -> include pr path = true)
  /\ ((forall f, In f filters -> exists c, compares s vs f c) -> include pr path = true -> Forall (satisfies s vs) filters).
Proof.
  intros filters s h u pr vs path segs Hn D L Hp F. destruct (new_inv _ _ _ _ _ Hn) as [Es [Eh [Eu Ff]]].
  destruct (segs_values _ _ _ L F) as [Mk Gv]. assert (Ds : NoDup (map fst segs)) by now rewrite Mk.
  unfold should_include. rewrite Hp.
  assert (Key : forall f sf, find (fun e => String.eqb (fst e) (fe_field f)) s = Some (sf_name _ _ sf, sf_type _ _ sf) ->
     cast (sf_type _ _ sf) (fe_value f) = Some (sf_value _ _ sf) -> sf_op _ _ sf = fe_op f ->
     forall c, compares s vs f c -> exists x, seg_get value (sf_name _ _ sf) segs = Some x /\ cmp x (sf_value _ _ sf) = Some c).
  { intros f sf Hf Hc Ho c [ty [v [x [w [Hin [C1 [C2 C3]]]]]]].
    apply find_field in Hf as [Hf1 Hf2]. cbn in Hf2.
    assert (ty = sf_type _ _ sf) as ->.
    { assert (Hl := in_combine_l _ _ _ _ Hin). clear - D Hf1 Hf2 Hl. rewrite Hf2 in Hf1.
      exact (nodup_assoc _ _ _ _ _ D Hl Hf1). }
    destruct (Gv _ _ _ Hin) as [x' [Hx C1']]. rewrite Hf2. exists x'. split; [now apply seg_get_in|]. congruence. }
  split.
  - intros Sat. apply forallb_forall. intros sf Hsf. destruct (Forall2_in_r _ _ _ _ _ _ Ff Hsf) as [f [Hfin [K1 [K2 K3]]]].
    rewrite Forall_forall in Sat. destruct (Sat f Hfin) as [c [Hc Hm]]. destruct (Key f sf K1 K2 K3 c Hc) as [x [G1 G2]].
    rewrite G1. unfold apply_comparison. rewrite G2, K3. now apply op_test_meaning.
  - intros Cmp Inc. apply Forall_forall. intros f Hfin. destruct (Forall2_in_l _ _ _ _ _ _ Ff Hfin) as [sf [Hsf [K1 [K2 K3]]]].
    destruct (Cmp f Hfin) as [c Hc]. exists c. split; [assumption|]. destruct (Key f sf K1 K2 K3 c Hc) as [x [G1 G2]].
    rewrite forallb_forall in Inc. specialize (Inc sf Hsf). rewrite G1 in Inc. unfold apply_comparison in Inc. rewrite G2, K3 in Inc.
    now apply op_test_meaning.
Qed.

Lemma pruning_sound : forall filters s hive url pr vs path,
  newp filters s (Ok hive) (Ok url) = Ok pr -> wf_fields s -> List.length vs = List.length s ->
  named hive url s vs path -> Forall (satisfies s vs) filters -> include pr path = true.
Proof.
  intros filters s hive url pr vs path Hn W L N Sat. destruct (new_inv _ _ _ _ _ Hn) as [Es [Eh [Eu Ff]]].
  destruct (parse pr path) as [segs|e|] eqn:Hp; [|unfold should_include; now rewrite Hp|unfold should_include; now rewrite Hp].
  assert (F := parse_inv pr s vs path segs W L). rewrite Eh, Eu, Es in F. specialize (F N eq_refl Hp).
  apply diag in F. destruct W as [D _]. now apply (include_segs filters s hive url pr vs path segs Hn D L Hp F).
Qed.

Lemma pruning_exact : forall filters s hive url pr vs path,
  newp filters s (Ok hive) (Ok url) = Ok pr -> wf_fields s -> List.length vs = List.length s -> s <> [] ->
  named hive url s vs path ->
  Forall (fun v => has_char "/" v = false) vs ->
  (url = true -> Forall (fun v => utf8_valid v = true) vs /\ Forall (fun n => utf8_valid n = true) (map fst s)) ->
  (forall f v, In (f, v) (combine s vs) -> cast (snd f) v <> None) ->
  (forall f, In f filters -> exists c, compares s vs f c) ->
  (include pr path = true <-> Forall (satisfies s vs) filters).
Proof.
  intros filters s hive url pr vs path Hn W L Nn N Fv U C Cmp. destruct (new_inv _ _ _ _ _ Hn) as [Es [Eh [Eu Ff]]].
  assert (P := parse_some pr vs path). rewrite Eh, Eu, Es in P. destruct (P W L Nn N Fv U C) as [segs Hp].
  assert (F := parse_inv pr s vs path segs W L). rewrite Eh, Eu, Es in F. specialize (F N eq_refl Hp). apply diag in F. destruct W as [D _].
  destruct (include_segs filters s hive url pr vs path segs Hn D L Hp F) as [I1 I2]. split; [now apply I2|assumption].
Qed.

Lemma no_filter_keeps : forall s h u pr path, newp [] s h u = Ok pr -> include pr path = true /\ pruner_is_empty _ _ pr = true.
Proof.
  intros s h u pr path H. unfold new_pruner in H. cbn in H. apply bind_ok in H as [h' [_ H]]. apply bind_ok in H as [u' [_ H]].
  injection H as <-. unfold should_include. split; [|reflexivity]. destruct (parse_segments _ _ _ _ path); reflexivity.
Qed.
Lemma empty_keeps_all : forall pr path, pruner_is_empty _ _ pr = true -> include pr path = true.
Proof.
  intros pr path H. unfold pruner_is_empty in H. unfold should_include. destruct (pr_filters _ _ pr); [|discriminate]. destruct (parse_segments _ _ _ _ path); reflexivity.
Qed.

(** ** Order of the fields *)
Lemma partition_schema_subseq : forall (table fields : list (string * dtype)), NoDup (map fst table) -> subseq fields table ->
  partition_schema _ table (map fst fields) = fields.
Proof.
  intros table fields D S. unfold partition_schema.
  assert (In_sub : forall (l m : list (string * dtype)), subseq l m -> forall x, In x l -> In x m).
  { intros l m H. induction H; intros y Hy; [elim Hy| |]; [destruct Hy; [now left|right; auto]|right; auto]. }
  revert D. induction S as [m|x l m S IH|x l m S IH]; intros D.
  - clear D. induction m as [|y m IHm]; [reflexivity|exact IHm].
  - cbn [map filter existsb]. inversion D; subst. rewrite String.eqb_refl. cbn [orb]. f_equal. etransitivity; [|exact (IH H2)].
    apply filter_ext_in. intros y Hy. destruct (String.eqb_spec (fst y) (fst x)) as [E|E]; [|reflexivity].
    elim H1. rewrite <- E. now apply in_map.
  - cbn [map filter]. inversion D; subst. destruct (existsb (String.eqb (fst x)) (map fst l)) eqn:E; [|auto].
    exfalso. apply existsb_exists in E as [n [Hn En]]. apply String.eqb_eq in En. subst n. apply H1.
    apply in_map_iff in Hn as [y [Ey Hy]]. rewrite <- Ey. apply in_map. eapply In_sub; eauto.
Qed.

Lemma hive_sound_any_order : forall filters table cfg url pr vs path,
  newp filters (partition_schema _ table (map fst cfg)) (Ok true) (Ok url) = Ok pr ->
  Permutation cfg (partition_schema _ table (map fst cfg)) ->
  wf_fields cfg -> List.length vs = List.length cfg -> named true url cfg vs path ->
  Forall (satisfies cfg vs) filters -> include pr path = true.
Proof.
  intros filters table cfg url pr vs path Hn P W L N Sat. set (s := partition_schema _ table (map fst cfg)) in *.
  destruct (new_inv _ _ _ _ _ Hn) as [Es [Eh [Eu Ff]]]. assert (Ls : List.length s = List.length cfg) by (symmetry; now apply Permutation_length).
  destruct (parse pr path) as [segs|e|] eqn:Hp; [|unfold should_include; now rewrite Hp|unfold should_include; now rewrite Hp].
  assert (F := parse_inv pr cfg vs path segs W L). rewrite Eh, Eu, Es in F. specialize (F N Ls Hp).
  assert (M : map fst s = map fst cfg) by (eapply hive_same_order; eauto).
  assert (s = cfg) as E.
  { destruct W as [D _]. clear - M P D. assert (Hin : forall x, In x s -> In x cfg) by (intros x Hx; eapply Permutation_in; [symmetry; exact P|exact Hx]).
    clearbody s. clear P. assert (U : forall n a b, In (n, a) cfg -> In (n, b) cfg -> a = b).
    { intros n a b. now apply nodup_assoc. }
    assert (G : forall l m, map fst l = map fst m -> (forall x, In x l -> In x cfg) -> (forall x, In x m -> In x cfg) -> l = m).
    { induction l as [|[n a] l IH]; intros [|[n' b] m] E H1 H2; try discriminate; [reflexivity|]. cbn in E. injection E as -> E.
      f_equal; [f_equal; eapply U; [apply H1; now left|apply H2; now left]|]. apply IH; auto; intros x Hx; [apply H1|apply H2]; now right. }
    apply G; auto. }
  rewrite E in *. apply diag in F. destruct W as [D _]. now apply (include_segs filters cfg true url pr vs path segs Hn D L Hp F).
Qed.
End Pr.

(** ** DataFusion *)
Section DF.
Variable dtype value lit : Type.
Variable cast : dtype -> string -> option value.
Variable cmp : value -> value -> option comparison.
Variable lit_display : lit -> string.
Variable lit_value : lit -> option value.
Variable row : string -> option value.
Variable opaque : df_expr lit -> option bool.
Variable coltype : string -> dtype.
Hypothesis cmp_sym : forall a b c, cmp a b = Some c -> cmp b a = Some (CompOpp c).
Notation text_ok := (literal_text_ok cast lit_display lit_value coltype).

Definition row_satisfies (f : filter_expr) : Prop :=
  exists x w k, row (fe_field f) = Some x /\ cast (coltype (fe_field f)) (fe_value f) = Some w /\ cmp x w = Some k /\ op_meaning (fe_op f) k.

Lemma df_test_meaning : forall o op c b, df_operator o = Some op -> df_test o c = Some b -> (b = true <-> op_meaning op c).
Proof. intros [] op [] b H1 H2; cbn in *; try discriminate; injection H1 as <-; injection H2 as <-; cbn; intuition (congruence || discriminate). Qed.

Lemma bin_sound : forall l o r f b, binary_expr_to_filter lit lit_display l o r = Some f ->
  literal_side_ok (XBin l o r) -> text_ok (XBin l o r) -> truth lit value lit_value cmp row opaque (XBin l o r) = Some b ->
  exists x w k, row (fe_field f) = Some x /\ cast (coltype (fe_field f)) (fe_value f) = Some w /\ cmp x w = Some k
    /\ (b = true <-> op_meaning (fe_op f) k).
Proof.
  intros l o r f b H Ok_side lit_text T. unfold binary_expr_to_filter in H.
  destruct l as [c|v|? ? ?|?|? ?]; destruct r as [c'|v'|? ? ?|?|? ?]; try discriminate H.
  - destruct (df_operator o) as [op|] eqn:Eo; [|discriminate]. injection H as <-. cbn [fe_field fe_op fe_value]. cbn [truth operand] in T.
    assert (T' : match row c with Some a => match lit_value v' with Some b0 => match cmp a b0 with Some k => df_test o k | None => None end | None => None end | None => None end = Some b).
    { destruct o; try discriminate Eo; destruct (row c); try discriminate T; destruct (lit_value v'); try discriminate T; exact T. }
    destruct (row c) as [x|]; [|discriminate]. destruct (lit_value v') as [w|] eqn:Ev; [|discriminate].
    destruct (cmp x w) as [k|] eqn:Ek; [|discriminate]. exists x, w, k. split; [reflexivity|]. split; [apply lit_text; [exists o; eexists; eauto|assumption]|]. split; [assumption|].
    eapply df_test_meaning; eauto.
  - destruct (df_operator o) as [op|] eqn:Eo; [|discriminate]. injection H as <-. cbn [fe_field fe_op fe_value]. cbn [truth operand] in T.
    assert (T' : match lit_value v with Some a => match row c' with Some b0 => match cmp a b0 with Some k => df_test o k | None => None end | None => None end | None => None end = Some b).
    { destruct o; try discriminate Eo; destruct (lit_value v); try discriminate T; destruct (row c'); try discriminate T; exact T. }
    destruct (lit_value v) as [w|] eqn:Ev; [|discriminate]. destruct (row c') as [x|]; [|discriminate].
    destruct (cmp w x) as [k|] eqn:Ek; [|discriminate]. exists x, w, (CompOpp k). split; [reflexivity|]. split; [apply lit_text; [exists o; eexists; eauto|assumption]|].
    split; [now apply cmp_sym|]. cbn in Ok_side. destruct Ok_side as [-> |[-> |[m ->]]]; try discriminate Eo; injection Eo as <-;
      injection T' as <-; destruct k; cbn; intuition (congruence || discriminate).
Qed.

Lemma expr_sound : forall e f, expr_to_filter lit lit_display e = Some f -> literal_side_ok e -> text_ok e ->
  truth lit value lit_value cmp row opaque e = Some true -> row_satisfies f.
Proof.
  intros e f H S X T. destruct e as [c|v|l o r|n|? ?]; try discriminate H.
  - cbn [expr_to_filter] in H. destruct (bin_sound _ _ _ _ _ H S X T) as [x [w [k [H1 [H2 [H3 H4]]]]]].
    exists x, w, k. split; [assumption|]. split; [assumption|]. split; [assumption|]. now apply H4.
  - cbn [expr_to_filter] in H. destruct n as [c|v|l o r|n|? ?]; try discriminate H. unfold not_expr_to_filter in H.
    destruct (binary_expr_to_filter lit lit_display l o r) as [g|] eqn:Eg; [|discriminate].
    change (truth lit value lit_value cmp row opaque (XNot (XBin l o r))) with
      (match truth lit value lit_value cmp row opaque (XBin l o r) with Some b => Some (negb b) | None => None end) in T.
    destruct (truth lit value lit_value cmp row opaque (XBin l o r)) as [b|] eqn:Tb; [|discriminate]. injection T as T. apply negb_true_iff in T. subst b.
    assert (S' : literal_side_ok (XBin l o r)) by exact S.
    assert (X' : text_ok (XBin l o r)). { intros c u v [o' [b' [B [E|E]]]] Hv; [|destruct B as [B|B]; rewrite B in E; discriminate]. apply X; [|exact Hv]. exists o', b'. split; [exact B|right; now f_equal]. }
    destruct (bin_sound _ _ _ _ _ Eg S' X' Tb) as [x [w [k [H1 [H2 [H3 H4]]]]]].
    destruct (negate_total g) as [g' [N1 [_ [N3 [N4 N5]]]]]. assert (f = g') as -> by congruence.
    exists x, w, k. rewrite N3, N4. split; [assumption|]. split; [assumption|]. split; [assumption|]. apply N5. rewrite <- H4. discriminate.
Qed.

Definition derived (es : list (df_expr lit)) : list filter_expr :=
  flat_map (fun e => match expr_to_filter lit lit_display e with Some f => [f] | None => [] end) es.

Lemma exprs_sound : forall es, (forall e, In e es -> literal_side_ok e /\ text_ok e /\ truth lit value lit_value cmp row opaque e = Some true) ->
  exists fs, from_str_tuples (exprs_to_filters lit lit_display es) = Ok fs /\ Forall row_satisfies fs.
Proof.
  intros es H. exists (derived es). split; [apply tuples_roundtrip|]. apply Forall_forall. intros f Hf.
  apply in_flat_map in Hf as [e [He Hf]]. destruct (expr_to_filter lit lit_display e) as [g|] eqn:Eg; [|elim Hf].
  destruct Hf as [ -> |[]]. destruct (H e He) as [S [X T]]. eapply expr_sound; eauto.
Qed.

Lemma row_partition_kept : forall es s hive url fs pr vs path,
  (forall e, In e es -> literal_side_ok e /\ text_ok e /\ truth lit value lit_value cmp row opaque e = Some true) ->
  from_str_tuples (exprs_to_filters lit lit_display es) = Ok fs ->
  new_pruner dtype value cast fs s (Ok hive) (Ok url) = Ok pr ->
  wf_fields s -> List.length vs = List.length s -> named hive url s vs path ->
  (forall n ty v, In ((n, ty), v) (combine s vs) -> ty = coltype n /\ exists x, cast ty v = Some x /\ row n = Some x) ->
  should_include dtype value cast cmp pr path = true.
Proof.
  intros es s hive url fs pr vs path H Hfs Hn W L N R. eapply pruning_sound; eauto.
  destruct (exprs_sound es H) as [fs' [E F]]. assert (fs' = fs) as -> by congruence.
  destruct (new_inv _ _ _ _ _ _ _ _ Hn) as [_ [_ [_ Ff]]]. clear - F Ff R L.
  rewrite Forall_forall in *. intros f Hf. specialize (F f Hf).
  destruct (Forall2_in_l _ _ _ _ _ _ Ff Hf) as [sf [_ [K1 _]]]. apply find_field in K1 as [K1 K2]. cbn in K2.
  assert (X : exists v, In ((fe_field f, sf_type _ _ sf), v) (combine s vs)).
  { rewrite K2 in K1. clear - K1 L. revert vs L. induction s as [|e s IH]; intros vs L; [elim K1|]. destruct vs as [|v vs]; [discriminate|].
    destruct K1 as [ -> |K1]; [exists v; now left|]. destruct (IH K1 vs) as [u Hu]; [cbn in L; lia|]. exists u. now right. }
  destruct X as [v Hv]. destruct (R _ _ _ Hv) as [Ety [x [C1 C2]]]. destruct F as [x' [w [k [F1 [F2 [F3 F4]]]]]].
  assert (x' = x) as -> by congruence. exists k. split; [|assumption]. exists (sf_type _ _ sf), v, x, w.
  split; [assumption|]. split; [assumption|]. split; [|assumption]. now rewrite Ety.
Qed.

(** Which conjuncts are translated. *)
Lemma translated_iff : forall e, expr_to_filter lit lit_display e <> None <->
  exists l o r, (e = XBin l o r \/ e = XNot (XBin l o r)) /\ (forall n, o <> DOther n)
    /\ ((exists c v, l = XCol c /\ r = XLit v) \/ (exists c v, l = XLit v /\ r = XCol c)).
Proof.
  assert (B : forall l o r, binary_expr_to_filter lit lit_display l o r <> None <->
     (forall n, o <> DOther n) /\ ((exists c v, l = XCol c /\ r = XLit v) \/ (exists c v, l = XLit v /\ r = XCol c))).
  { intros l o r. unfold binary_expr_to_filter. split.
    - intros H. destruct l; try (now elim H); destruct r; try (now elim H); (split; [intros m ->; now elim H|]); [left|right]; eauto.
    - intros [No [[c [v [-> ->]]]|[c [v [-> ->]]]]]; destruct o; try discriminate; now elim (No n). }
  intros e. destruct e as [c|v|l o r|n|? ?].
  - split; [intros H; now elim H|intros [l [o [r [[E|E] _]]]]; discriminate].
  - split; [intros H; now elim H|intros [l [o [r [[E|E] _]]]]; discriminate].
  - cbn [expr_to_filter]. rewrite B. split; [intros [H1 H2]; exists l, o, r; auto|].
    intros [l' [o' [r' [[E|E] H]]]]; [injection E as -> -> ->; assumption|discriminate].
  - cbn [expr_to_filter]. split.
    + intros H. destruct n as [c|v|l o r|n|? ?]; try (now elim H). exists l, o, r. split; [now right|]. apply B.
      cbn in H. destruct (binary_expr_to_filter lit lit_display l o r); [discriminate|now elim H].
    + intros [l [o [r [[E|E] H]]]]; [discriminate|]. injection E as ->. apply B in H. cbn.
      destruct (binary_expr_to_filter lit lit_display l o r) as [f|]; [|now elim H]. destruct (negate_total f) as [g [-> _]]. discriminate.
  - split; [intros H; now elim H|intros [l [o [r [[E|E] _]]]]; discriminate].
Qed.

(** A conjunct on a column that is not a partition field makes the scan fail. *)
Lemma foreign_column_fails : forall s hive url fs f, In f fs -> ~ In (fe_field f) (map fst s) ->
  forall pr, new_pruner dtype value cast fs s hive url <> Ok pr.
Proof.
  intros s hive url fs f Hf N pr H. unfold new_pruner in H. apply bind_ok in H as [sfs [H _]]. apply mapM_ok in H.
  destruct (Forall2_in_l _ _ _ _ _ _ H Hf) as [sf [_ E]]. unfold schemable_of in E. apply bind_ok in E as [[n ty] [E _]].
  apply ok_or_ok in E. apply find_field in E as [E1 E2]. apply N. rewrite <- E2. now apply in_map.
Qed.
End DF.
