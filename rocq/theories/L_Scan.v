(** Proofs about the table provider for SQL queries. *)
From Verif Require Import Base Str L_Str M_Utf8 M_Time M_Instant M_Timeline M_FileGroup M_Builder M_Listing M_Expr S_Expr M_Config S_Config M_Log M_Reader S_Reader
  M_Table S_Table S_FileGroup S_Builder S_Timeline S_Listing M_Storage S_Storage M_Scan S_Scan
  L_Base L_Expr L_Config L_FileGroup L_Listing L_View L_Reader L_Table L_Storage L_Python L_Records.
From Coq Require Import Sorting.Sorted.
Local Open Scope string_scope.

(** ** Encoding *)
Lemma part_char_encodes : forall c v e, encodes v e -> encodes (String c v) (encode_part_char c ++ e).
Proof.
  intros c v e H. unfold encode_part_char. destruct (invalid_in_part c) eqn:E.
  - cbn [append]. pose proof (N_ascii_bounded c) as B. apply (enc_pct c _ _ (N_of_ascii c / 16) (N_of_ascii c mod 16)); [| | |exact H].
    + apply hex_char_val. apply N.div_lt_upper_bound; lia.
    + apply hex_char_val. apply N.mod_lt. lia.
    + replace (N_of_ascii c / 16 * 16 + N_of_ascii c mod 16)%N with (N_of_ascii c); [apply ascii_N_embedding|]. rewrite (N.div_mod (N_of_ascii c) 16) at 1; lia.
  - cbn [append]. apply enc_plain; [|exact H]. intros ->. discriminate.
Qed.
Lemma chars_encode : forall s, encodes s (encode_chars s).
Proof. induction s as [|c r IH]; [constructor|]. cbn [encode_chars]. now apply part_char_encodes. Qed.
Lemma encodes_same_len : forall v e, encodes v e -> String.length v = String.length e -> v = e.
Proof.
  intros v e H. induction H as [|c v e N H IH|c h l x y v e Hx Hy Hc H IH]; intros L; [reflexivity| |].
  - cbn in L. f_equal. apply IH. lia.
  - exfalso. cbn in L. apply encodes_len in H. lia.
Qed.
Lemma encodes_no_slash : forall v e, encodes v e -> has_char "/" v = false -> has_char "/" e = false.
Proof.
  intros v e H. induction H as [|c v e N H IH|c h l x y v e Hx Hy Hc H IH]; intros S; [reflexivity| |]; cbn [has_char] in *; apply Bool.orb_false_iff in S as [S1 S2].
  - rewrite S1. now apply IH.
  - rewrite IH by exact S2. assert (X : forall d z, hex_val d = Some z -> Ascii.eqb "/" d = false).
    { intros d z E. destruct (Ascii.eqb_spec "/" d) as [ <- |]; [discriminate E|reflexivity]. }
    assert (Y : forall d, Ascii.eqb d "/" = Ascii.eqb "/" d) by (intros; apply Ascii.eqb_sym).
    try rewrite !(Y h), !(Y l). try rewrite (X h x Hx), (X l y Hy). reflexivity.
Qed.
Lemma encodes_nonempty : forall v e, encodes v e -> v <> "" -> e <> "".
Proof. intros v e H N ->. inversion H; subst. now elim N. Qed.
Lemma encodes_dot : forall v e, encodes v e -> legal v -> e <> "." /\ e <> "..".
Proof.
  intros v e H [_ [_ [N1 [N2 _]]]]. split; intros ->; inversion H as [|? ? ? A B|]; subst; try (now elim A).
  - inversion B; subst. now elim N1.
  - inversion B as [|? ? ? A' B'|]; subst. inversion B'; subst. now elim N2.
Qed.

(** what encoding leaves alone *)
Lemma safe_char_spec : forall c, c <> "/"%char -> (safe_char c <-> invalid_in_part c = false /\ to_encode true c = false).
Proof.
  intros c S. unfold safe_char, invalid_in_part, to_encode, is_control. rewrite !Bool.orb_false_iff. split.
  - intros [[A B] N]. assert (X : forall l, (forall d, In d l -> d = "/"%char \/ In d ["\"; "{"; "}"; "^"; "%"; "`"; "["; "]"; "034"; "<"; ">"; "~"; "#"; "|"; "*"; "?"]%char) -> existsb (Ascii.eqb c) l = false).
    { intros l H. apply Bool.not_true_is_false. intros T. apply existsb_exists in T as [d [I E]]. apply Ascii.eqb_eq in E. subst d. destruct (H c I); contradiction. }
    rewrite !X. 2,3: intros d I; cbn in I |- *; intuition.
    assert (c <> "\"%char) by (intros ->; apply N; cbn; auto). destruct (Ascii.eqb_spec c "\"); [contradiction|].
    assert (N_of_ascii c <> 127%N) by lia.
    repeat split; try reflexivity; try (apply N.ltb_ge; lia); try (apply N.leb_gt; lia); try (apply N.eqb_neq; lia).
  - intros [[[[A1 A2] A3] A4] [[[B1 B2] B3] B4]]. apply N.ltb_ge in B1. apply N.leb_gt in B2. split; [lia|]. intros I.
    assert (X : forall l, In c l -> existsb (Ascii.eqb c) l = true). { intros l J. apply existsb_exists. exists c. split; [exact J|apply Ascii.eqb_refl]. }
    rewrite X in A4; [discriminate|]. cbn in I |- *. intuition.
Qed.
Lemma invalid_len : forall c, (String.length (encode_part_char c) = 1)%nat <-> invalid_in_part c = false.
Proof. intros c. unfold encode_part_char. destruct (invalid_in_part c); cbn; split; (reflexivity || discriminate). Qed.
Lemma to_encode_special : forall sp c, invalid_in_part c = false -> to_encode sp c = to_encode true c.
Proof.
  intros sp c H. destruct sp; [reflexivity|]. unfold to_encode. cbn [andb]. rewrite Bool.orb_false_r.
  destruct (Ascii.eqb_spec c "\") as [ -> |_]; [discriminate H|]. now rewrite Bool.orb_false_r.
Qed.
Lemma encode_same : forall s, encode_chars s = s <-> Forall (fun c => invalid_in_part c = false) (list_ascii_of_string s).
Proof.
  induction s as [|c r IH]; cbn [encode_chars list_ascii_of_string]; [split; auto; constructor|]. unfold encode_part_char. destruct (invalid_in_part c) eqn:E; cbn [append].
  - split; [|intros H; inversion H; congruence]. intros H. exfalso. assert (L := f_equal String.length H). cbn in L. pose proof (encodes_len _ _ (chars_encode r)). lia.
  - split; [intros [= H]; constructor; [exact E|now apply IH]|]. intros H. inversion H; subst. f_equal. now apply IH.
Qed.
Lemma safe_encode : forall s, has_char "/" s = false -> (safe s <-> encode_chars s = s /\ enc true s = s).
Proof.
  intros s H. rewrite encode_same. induction s as [|c r IH]; cbn [safe list_ascii_of_string enc]; [split; auto|].
  cbn [has_char] in H. apply Bool.orb_false_iff in H as [H1 H2]. specialize (IH H2).
  assert (NS : c <> "/"%char) by (intros ->; now rewrite Ascii.eqb_refl in H1). rewrite (safe_char_spec c NS), IH. unfold encode_char. split.
  - intros [[A B] [C D]]. split; [constructor; assumption|]. rewrite B. cbn [append]. now rewrite D.
  - intros [A B]. inversion A as [|? ? A1 A2]; subst. destruct (to_encode true c) eqn:E; cbn [append] in B.
    + exfalso. assert (L := f_equal String.length B). cbn in L. pose proof (encodes_len _ _ (enc_encodes true r)). lia.
    + injection B as B. auto.
Qed.
Lemma enc_special : forall sp s, encode_chars s = s -> enc sp s = enc true s.
Proof.
  intros sp s H. apply encode_same in H. induction s as [|c r IH]; [reflexivity|]. cbn [list_ascii_of_string] in H. inversion H; subst. cbn [enc]. rewrite IH by assumption. unfold encode_char. now rewrite (to_encode_special sp) by assumption.
Qed.
Lemma url_text_to_encode : forall s, url_text s -> encode_chars s = s -> enc true s = s.
Proof.
  intros s U H. apply encode_same in H. induction s as [|c r IH]; [reflexivity|]. cbn [list_ascii_of_string] in H. inversion H; subst. destruct U as [[A B] U]. cbn [enc]. rewrite IH by assumption.
  unfold encode_char. destruct (to_encode true c) eqn:E; [|reflexivity]. exfalso. unfold to_encode in E.
  assert (X : existsb (Ascii.eqb c) ["034"; "<"; ">"; "`"; "#"; "?"; "{"; "}"; "/"; "%"]%char = true \/ Ascii.eqb c "\" = true).
  { apply Bool.orb_true_iff in E as [E|E]; [|right; now rewrite Bool.andb_true_l in E]. apply Bool.orb_true_iff in E as [E|E]; [|now left].
    exfalso. apply Bool.orb_true_iff in E as [E|E]; [apply N.ltb_lt in E; lia|apply N.leb_le in E; lia]. }
  match goal with H0 : invalid_in_part c = false |- _ => unfold invalid_in_part in H0; apply Bool.orb_false_iff in H0 as [_ H0] end.
  destruct X as [X|X].
  - apply existsb_exists in X as [d [I X]]. apply Ascii.eqb_eq in X. subst d. cbn in I. repeat (destruct I as [ <- |I]; [discriminate|]). destruct I.
  - apply Ascii.eqb_eq in X. subst c. discriminate.
Qed.

(** ** The object of a planned file *)
Lemma written_encodes : forall names encs, Forall2 encodes names encs -> encodes (leading names) (leading encs).
Proof. intros names encs H. induction H as [|n e names encs E H IH]; [constructor|]. cbn [leading fold_right append]. apply (enc_plain "/"); [discriminate|]. now apply encodes_app. Qed.
Lemma ends_char : forall s c, ends_with "/" (s ++ String c "") = Ascii.eqb "/" c.
Proof.
  intros s c. destruct (ends_with "/" (s ++ String c "")) eqn:E.
  - apply ends_with_spec in E as [p E]. symmetry. apply Ascii.eqb_eq. revert p E. induction s as [|x s IH]; intros p E; destruct p as [|y p]; cbn [append] in E.
    + now injection E.
    + destruct p; discriminate.
    + destruct s; discriminate.
    + injection E as _ E. eauto.
  - symmetry. apply Bool.not_true_is_false. intros X. apply Ascii.eqb_eq in X. subst c. now rewrite ends_slash in E.
Qed.
Lemma last_char : forall s, s <> "" -> exists a c, s = a ++ String c "".
Proof. induction s as [|c s IH]; intros N; [now elim N|]. destruct s as [|d s]; [now exists "", c|]. destruct IH as [a [e E]]; [discriminate|]. exists (String c a), e. cbn. now rewrite E. Qed.
Lemma has_char_app : forall c a b, has_char c (a ++ b) = has_char c a || has_char c b.
Proof. induction a as [|x a IH]; intros b; cbn; [reflexivity|]. now rewrite IH, Bool.orb_assoc. Qed.
Lemma leading_ends : forall l, Forall (fun e => e <> "" /\ has_char "/" e = false) l -> ends_with "/" (leading l) = false.
Proof.
  intros l. induction l as [|x l _] using rev_ind; intros F; [reflexivity|]. apply Forall_app in F as [_ F]. inversion F as [|? ? [N S] _]; subst.
  rewrite leading_app. cbn [leading fold_right]. rewrite app_nil_r_s. destruct (last_char x N) as [a [c ->]].
  replace (leading l ++ "/" ++ a ++ String c "") with ((leading l ++ "/" ++ a) ++ String c "") by now rewrite !app_assoc_s.
  rewrite ends_char. rewrite has_char_app in S. apply Bool.orb_false_iff in S as [_ S]. cbn in S. rewrite Bool.orb_false_r in S. rewrite Ascii.eqb_sym. first [exact S|rewrite Ascii.eqb_sym; exact S].
Qed.
Lemma written_parts : forall names encs, Forall legal names -> Forall2 encodes names encs -> Forall (fun e => e <> "" /\ has_char "/" e = false /\ e <> "." /\ e <> "..") encs.
Proof.
  intros names encs F H. induction H as [|n e names encs E H IH]; [constructor|]. inversion F as [|? ? L F']; subst. constructor; [|auto].
  pose proof (encodes_dot _ _ E L). destruct L as [N [S _]]. split; [eapply encodes_nonempty; eauto|]. split; [eapply encodes_no_slash; eauto|]. assumption.
Qed.
Lemma leading_enc : forall sp ns, enc_all sp ns = leading (map (enc sp) ns).
Proof. intros sp. induction ns as [|n ns IH]; [reflexivity|]. cbn. f_equal. f_equal. exact IH. Qed.
Lemma parts_encoded : forall l, Forall (fun e => e <> "" /\ has_char "/" e = false /\ e <> "." /\ e <> "..") l ->
  filter (fun p => negb (String.eqb p "")) (map encode_part l) = map encode_chars l.
Proof.
  intros l F. induction F as [|e l [N [S [D1 D2]]] F IH]; [reflexivity|].
  assert (E : encode_part e = encode_chars e). { unfold encode_part. destruct (String.eqb_spec e "."); [contradiction|]. destruct (String.eqb_spec e ".."); [contradiction|]. reflexivity. }
  cbn [map filter]. rewrite E. destruct (String.eqb_spec (encode_chars e) "") as [X|X]; [now elim (encodes_nonempty _ _ (chars_encode e) N)|]. cbn [negb]. now rewrite IH.
Qed.
Lemma path_from_parts : forall l, Forall (fun e => e <> "" /\ has_char "/" e = false /\ e <> "." /\ e <> "..") l -> path_from (leading l) = join "/" (map encode_chars l).
Proof.
  intros l F. unfold path_from. destruct l as [|x l]; [reflexivity|]. rewrite leading_key by discriminate. unfold key_of.
  replace (split "/" (String "/" (join "/" (x :: l)))) with ("" :: split "/" (join "/" (x :: l))) by reflexivity.
  rewrite join_split; [|discriminate|eapply Forall_impl; [|exact F]; intros a [_ [A _]]; exact A].
  rewrite <- (parts_encoded _ F). reflexivity.
Qed.
Definition location (base : url) (rel : string) : outcome string := let* u := join_url_segments base [rel] in Ok (path_from (u_path u)).
Lemma location_at : forall base names encs rel ns, written base names encs -> plain rel -> utf8_valid rel = true -> path_names rel ns ->
  location base rel = Ok (join "/" (map encode_chars (encs ++ map (enc (u_special base)) ns)%list)).
Proof.
  intros base names encs rel ns [OP [LG [FI [EN [UT UP]]]]] PL U PN. pose proof (written_parts _ _ LG EN) as WP. pose proof (path_names_named _ _ U PN) as NN.
  assert (EE : ends_with "/" (leading encs) = false). { apply leading_ends. eapply Forall_impl; [|exact WP]. intros a [A [B _]]. auto. }
  destruct (join_at base names rel ns _ OP LG FI (written_encodes _ _ EN) EE UP PL PN) as [F [J D]]. unfold location. rewrite J. cbn [bind u_path with_path]. f_equal.
  assert (WN : Forall (fun e => e <> "" /\ has_char "/" e = false /\ e <> "." /\ e <> "..") (map (enc (u_special base)) ns)).
  { apply Forall_forall. intros e I. apply in_map_iff in I as [n [ <- I]]. rewrite Forall_forall in NN. specialize (NN n I). destruct NN as [IN [NS NU]].
    pose proof (enc_encodes (u_special base) n) as E.
    split; [eapply encodes_nonempty; [exact E|]; intros ->; apply IN; cbn; auto|]. split; [eapply encodes_no_slash; eauto|].
    split; intros X; rewrite X in E; inversion E as [|? ? ? A B|]; subst; try (now elim A).
    - inversion B; subst. apply IN. cbn. auto.
    - inversion B as [|? ? ? A' B'|]; subst. inversion B'; subst. apply IN. cbn. auto. }
  destruct D as [ -> |[ -> [_ E]]].
  - rewrite leading_enc, <- leading_app. apply path_from_parts. apply Forall_app. auto.
  - apply app_eq_nil in E as [ -> -> ]. inversion EN; subst. reflexivity.
Qed.
Lemma join_inj : forall a b, Forall (fun e => e <> "" /\ has_char "/" e = false) a -> Forall (fun e => e <> "" /\ has_char "/" e = false) b -> join "/" a = join "/" b -> a = b.
Proof.
  assert (N : forall x l, x <> "" -> join "/" (x :: l) <> "").
  { intros x l Hx. destruct l; [exact Hx|]. rewrite join_cons2. destruct x; [now elim Hx|discriminate]. }
  intros a b Fa Fb E. destruct a as [|x a]; destruct b as [|y b]; [reflexivity| | |].
  - inversion Fb as [|? ? [Hy _] _]; subst. symmetry in E. now elim (N y b Hy).
  - inversion Fa as [|? ? [Hx _] _]; subst. now elim (N x a Hx).
  - assert (X : forall l, Forall (fun e => e <> "" /\ has_char "/" e = false) l -> Forall (fun e => has_char "/" e = false) l) by (intros l F; eapply Forall_impl; [|exact F]; intros e [_ B]; exact B).
    rewrite <- (join_split "/" (x :: a)), <- (join_split "/" (y :: b)); auto; try discriminate. now rewrite E.
Qed.
Lemma encoded_parts : forall l, Forall (fun e => e <> "" /\ has_char "/" e = false) l -> Forall (fun e => e <> "" /\ has_char "/" e = false) (map encode_chars l).
Proof.
  intros l F. apply Forall_forall. intros e I. apply in_map_iff in I as [n [ <- I]]. rewrite Forall_forall in F. destruct (F n I) as [A B]. pose proof (chars_encode n) as E.
  split; [eapply encodes_nonempty; eauto|eapply encodes_no_slash; eauto].
Qed.
Lemma twice_same : forall n e, encodes n e -> encode_chars e = n -> e = n /\ encode_chars n = n.
Proof.
  intros n e E H. pose proof (encodes_len _ _ E) as L1. pose proof (encodes_len _ _ (chars_encode e)) as L2. rewrite H in L2.
  assert (n = e) by (apply encodes_same_len; [exact E|lia]). subst e. auto.
Qed.
Lemma location_exact : forall base names encs rel ns, written base names encs -> plain rel -> utf8_valid rel = true -> path_names rel ns -> existsb has_control ns = false ->
  exists loc, location base rel = Ok loc /\ (object_path base rel = Ok loc <-> encs = names /\ Forall safe (names ++ ns)).
Proof.
  intros base names encs rel ns W PL U PN NC. eexists. split; [eapply location_at; eassumption|].
  pose proof W as [OP [LG [FI [EN [UT UP]]]]]. pose proof (written_parts _ _ LG EN) as WP. pose proof (path_names_named _ _ U PN) as NN.
  assert (EE : ends_with "/" (leading encs) = false). { apply leading_ends. eapply Forall_impl; [|exact WP]. intros a [A [B _]]. auto. }
  assert (LC : located base names). { split; [exact OP|]. split; [exact LG|]. split; [exact FI|]. exists (leading encs). split; [now apply written_encodes|]. split; assumption. }
  rewrite (object_path_exact base names rel ns LC PL U PN), NC. unfold key_of.
  assert (PN1 : Forall (fun e => e <> "" /\ has_char "/" e = false) (names ++ ns)).
  { apply Forall_app. split; [eapply Forall_impl; [|exact LG]; intros e [A [B _]]; auto|]. eapply Forall_impl; [|exact NN]. intros e [A [B _]]. split; [|exact B]. intros ->. apply A. cbn. auto. }
  assert (PN2 : Forall (fun e => e <> "" /\ has_char "/" e = false) (encs ++ map (enc (u_special base)) ns)).
  { apply Forall_app. split; [eapply Forall_impl; [|exact WP]; intros e [A [B _]]; auto|]. apply Forall_forall. intros e I. apply in_map_iff in I as [n [ <- I]].
    apply Forall_app in PN1 as [_ PN1]. rewrite Forall_forall in PN1. destruct (PN1 n I) as [A B]. split; [eapply encodes_nonempty; [apply enc_encodes|exact A]|eapply encodes_no_slash; [apply enc_encodes|exact B]]. }
  rewrite Forall_app in PN1 |- *. destruct PN1 as [P1 P2]. split.
  - intros [= E]. apply join_inj in E; [|apply Forall_app; split; assumption|now apply encoded_parts].
    rewrite map_app in E. assert (LE : List.length names = List.length (map encode_chars encs)). { rewrite map_length. now apply Forall2_len in EN. }
    assert (E1 : names = map encode_chars encs /\ ns = map encode_chars (map (enc (u_special base)) ns)).
    { clear - E LE. revert LE E. generalize (map encode_chars encs) as b. generalize (map encode_chars (map (enc (u_special base)) ns)) as d. generalize ns as c. generalize names as a.
      induction a as [|x a IH]; intros c d [|y b] L E; try discriminate; [auto|]. cbn in E. injection E as -> E. injection L as L. destruct (IH c d b L E) as [ -> -> ]. auto. }
    destruct E1 as [E1 E2].
    assert (ES : encs = names /\ Forall safe names).
    { clear - E1 EN UT P1. revert E1 UT P1. induction EN as [|n e names encs EN H IH]; intros E1 UT P1; [split; constructor|]. cbn [map] in E1. injection E1 as X E1'. inversion UT as [|? ? U1 UT' X1]. inversion P1 as [|? ? [_ S] P1' X3].
      destruct (IH E1' UT' P1') as [A B]. symmetry in X. destruct (twice_same _ _ EN X) as [ -> C]. rewrite A. split; [reflexivity|]. constructor; [|exact B]. apply safe_encode; [exact S|]. split; [exact C|]. now apply url_text_to_encode. }
    destruct ES as [ES SN]. split; [exact ES|]. split; [exact SN|].
    clear - E2 P2. induction ns as [|n ns IH]; [constructor|]. cbn [map] in E2. injection E2 as X E2'. inversion P2 as [|? ? [_ S] P2' X1]. constructor; [|now apply IH].
    symmetry in X. destruct (twice_same _ _ (enc_encodes (u_special base) n) X) as [A B]. apply safe_encode; [exact S|]. split; [exact B|]. now rewrite <- (enc_special (u_special base)).
  - intros [ -> [S1 S2]]. f_equal. f_equal. rewrite map_app, map_map. f_equal.
    + clear - S1 P1. induction S1 as [|n l S F IH]; [reflexivity|]. inversion P1 as [|? ? [_ X] P1']; subst. cbn [map]. apply safe_encode in S as [S _]; [|exact X]. rewrite S. f_equal. auto.
    + clear - S2 P2. induction S2 as [|n l S F IH]; [reflexivity|]. inversion P2 as [|? ? [_ X] P2']; subst. cbn [map]. apply safe_encode in S as [S1 S3]; [|exact X]. rewrite (enc_special _ _ S1), S3, S1. f_equal. auto.
Qed.
(** Different files are different objects in the plan too. *)
Lemma location_distinct : forall base names encs rel1 ns1 rel2 ns2 loc, written base names encs -> plain rel1 -> plain rel2 -> utf8_valid rel1 = true -> utf8_valid rel2 = true ->
  path_names rel1 ns1 -> path_names rel2 ns2 -> location base rel1 = Ok loc -> location base rel2 = Ok loc -> ns1 = ns2.
Proof.
  intros base names encs rel1 ns1 rel2 ns2 loc W P1 P2 U1 U2 N1 N2 H1 H2.
  rewrite (location_at base names encs rel1 ns1 W P1 U1 N1) in H1. rewrite (location_at base names encs rel2 ns2 W P2 U2 N2) in H2. injection H1 as <-. injection H2 as E.
  pose proof W as [OP [LG [FI [EN [UT UP]]]]]. pose proof (written_parts _ _ LG EN) as WP.
  assert (X : forall rel ns, utf8_valid rel = true -> path_names rel ns -> Forall (fun e => e <> "" /\ has_char "/" e = false) (map encode_chars (encs ++ map (enc (u_special base)) ns)%list)).
  { intros rel ns U N. apply encoded_parts. apply Forall_app. split; [eapply Forall_impl; [|exact WP]; intros e [A [B _]]; auto|]. pose proof (path_names_named _ _ U N) as NN. apply Forall_forall. intros e I. apply in_map_iff in I as [n [ <- I]].
    rewrite Forall_forall in NN. destruct (NN n I) as [A [B _]]. split; [eapply encodes_nonempty; [apply enc_encodes|]; intros ->; apply A; cbn; auto|eapply encodes_no_slash; [apply enc_encodes|exact B]]. }
  apply join_inj in E; [|now apply (X rel2)|now apply (X rel1)]. rewrite !map_app in E. apply app_inv_head in E.
  clear - E. revert ns2 E. induction ns1 as [|n ns1 IH]; intros [|m ns2] E; try discriminate; [reflexivity|]. cbn [map] in E. injection E as A E. f_equal; [|now apply IH].
  assert (Y : enc (u_special base) m = enc (u_special base) n).
  { rewrite <- (decode_encodes _ _ (chars_encode (enc (u_special base) m))), <- (decode_encodes _ _ (chars_encode (enc (u_special base) n))). now rewrite A. }
  rewrite <- (decode_encodes _ _ (enc_encodes (u_special base) n)), <- (decode_encodes _ _ (enc_encodes (u_special base) m)). now rewrite Y.
Qed.

(** ** Filtered and unfiltered answers *)
Lemma mapM_split : forall A B (f : A -> outcome B) l1 l2 r, mapM f (l1 ++ l2) = Ok r -> exists r1 r2, mapM f l1 = Ok r1 /\ mapM f l2 = Ok r2 /\ r = (r1 ++ r2)%list.
Proof. intros A B f l1 l2 r H. rewrite mapM_app in H. apply bind_ok in H as [r1 [H1 H]]. apply bind_ok in H as [r2 [H2 H]]. injection H as <-. eauto. Qed.
Lemma filter_same : forall A (f : A -> bool) b l, (forall x, In x l -> f x = b) -> filter f l = if b then l else [].
Proof.
  intros A f b l H. induction l as [|x l IH]; [now destruct b|]. cbn. rewrite (H x (or_introl eq_refl)), IH by (intros; apply H; now right). now destruct b.
Qed.
Section Pruned.
Variable list_files : string -> outcome (list file_meta).
Variable fm : string -> outcome file_meta.
Variable format : string.
Variable t : string.
Variable ex : groups.
Lemma listed_partition : forall p gs ss, lists0 list_files format p = Ok gs -> mapM (load_metadata_if_needed fm) (flat_map (pick t ex) gs) = Ok ss ->
  forall s, In s ss -> fs_partition s = p.
Proof.
  intros p gs ss Hg H s Hs. apply mapM_ok in H. destruct (Forall2_in_r _ _ _ _ _ _ H Hs) as [s0 [Hs0 L0]].
  apply in_flat_map in Hs0 as [g [Hin Hp]]. assert (exists listed, list_files p = Ok listed) as [listed El].
  { unfold lists0, list_file_groups_for_partition in Hg. apply bind_ok in Hg as [l [Hl _]]. eauto. }
  destruct (group_slices list_files format p listed gs g El Hg Hin) as [W [_ G]].
  apply (pick_in list_files fm format) in Hp as [_ Hp]. pose proof (as_of_spec g t W) as A. rewrite Hp in A. destruct A as [A _].
  destruct (G s0 A) as [m [b [_ [_ [_ [E _]]]]]]. destruct (load_same fm s0 s L0) as [E1 _]. congruence.
Qed.
Lemma pruned_paths : forall include paths gss ss,
  mapM (lists0 list_files format) paths = Ok gss -> mapM (load_metadata_if_needed fm) (flat_map (pick t ex) (List.concat gss)) = Ok ss ->
  exists gss', mapM (lists0 list_files format) (filter include paths) = Ok gss'
    /\ mapM (load_metadata_if_needed fm) (flat_map (pick t ex) (List.concat gss')) = Ok (filter (fun s => include (fs_partition s)) ss).
Proof.
  intros include. induction paths as [|p paths IH]; intros gss ss Hg H; cbn [mapM] in Hg.
  - injection Hg as <-. cbn in H. injection H as <-. exists []. auto.
  - apply bind_ok in Hg as [gs [Hp Hg]]. apply bind_ok in Hg as [gss1 [Hg E]]. injection E as <-. cbn [List.concat] in H. rewrite flat_map_app in H.
    apply mapM_split in H as [ss1 [ss2 [H1 [H2 ->]]]]. destruct (IH _ _ Hg H2) as [gss' [X1 X2]].
    rewrite filter_app. rewrite (filter_same _ _ (include p) ss1) by (intros s Hs; now rewrite (listed_partition p gs ss1 Hp H1 s Hs)).
    cbn [filter]. destruct (include p).
    + exists (gs :: gss'). cbn [mapM]. rewrite Hp, X1. split; [reflexivity|]. cbn [List.concat]. rewrite flat_map_app, mapM_app, H1, X2. reflexivity.
    + exists gss'. auto.
Qed.
Lemma expected_pruned : forall partitioned root q1 q2 ss1 ss2, q_time q1 = t -> q_time q2 = t -> q_excluded q1 = ex -> q_excluded q2 = ex ->
  (forall p, q_include q2 p = true) -> expected list_files fm format partitioned root q1 = Ok ss1 -> expected list_files fm format partitioned root q2 = Ok ss2 ->
  ss1 = filter (fun s => q_include q1 (fs_partition s)) ss2.
Proof.
  intros partitioned root q1 q2 ss1 ss2 T1 T2 X1 X2 I H1 H2. unfold expected in H1, H2. apply bind_ok in H1 as [g1 [A1 H1]]. apply bind_ok in H2 as [g2 [A2 H2]].
  rewrite T1, X1 in H1. rewrite T2, X2, I, Bool.orb_true_r in H2. unfold paths_of in A1, A2. destruct partitioned.
  - rewrite filter_all in A2 by exact I.
    destruct (pruned_paths (q_include q1) _ _ _ A2 H2) as [g' [B1 B2]]. rewrite A1 in B1. injection B1 as <-. cbn [orb] in H1. congruence.
  - destruct (pruned_paths (q_include q1) _ _ _ A2 H2) as [g' [B1 B2]]. cbn [orb filter] in *. destruct (q_include q1 "").
    + rewrite A1 in B1. injection B1 as <-. congruence.
    + cbn in B1. injection B1 as <-. cbn in B2, H1. congruence.
Qed.
End Pruned.

Section Queries.
Variable dtype value : Type.
Variable cast : dtype -> string -> option value.
Variable cmp : value -> value -> option comparison.
Variable L : ndt -> option ndt.
Variable st : store dtype.
Variable tb : table.
Notation as_of := (get_file_slices_as_of dtype value cast cmp L st tb).
Notation slices_now := (get_file_slices dtype value cast cmp L st tb).
Notation after := (view_after dtype value cast cmp L st tb).

Lemma answer_expected : forall root, serves_dirs root (st_dirs _ st) -> wf_tree root ->
  forall c c' t filters ss, after c -> as_of t filters c c' (Ok ss) ->
  exists fs q pt format ss0, from_str_tuples filters = Ok fs /\ plan dtype value cast cmp L st tb t fs = Ok q
    /\ is_table_partitioned (t_configs tb) = Ok pt /\ base_format (t_configs tb) = Ok format
    /\ expected (st_files _ st) (st_meta _ st) format pt root q = Ok ss0 /\ Permutation ss ss0.
Proof.
  intros root Sv Wf c c' t filters ss Hc H. inversion H as [|? ? fs ? Hf Ha]; subst.
  inversion Ha as [| |? ? q pt format n ? Hp F1 F2 F3 V]; subst.
  pose proof (after_history _ _ _ _ _ _ _ c Hc _ _ _ F1 F2 F3) as Hh.
  destruct (query_answer _ _ _ _ _ _ root Sv Wf c q c' (Ok ss) (history_ok _ _ _ _ _ _ root Sv Wf c Hh) (plan_wf _ _ _ _ _ _ _ _ _ _ Hp) V) as [_ A].
  destruct (expected (st_files dtype st) (st_meta dtype st) format pt root q) as [ss0| |] eqn:E; cbn in A; try tauto.
  exists fs, q, pt, format, ss0. auto 10.
Qed.
(** The answer with filters is the answer without, restricted to the partitions that the filters keep. *)
Lemma pruned_answer : forall root, serves_dirs root (st_dirs _ st) -> wf_tree root ->
  forall c1 c1' c2 c2' t filters ss1 ss2, after c1 -> after c2 -> as_of t filters c1 c1' (Ok ss1) -> as_of t [] c2 c2' (Ok ss2) ->
  exists fs ps h u pr, from_str_tuples filters = Ok fs /\ get_partition_schema dtype st tb = Ok ps /\ hive_flag tb = Ok h /\ url_flag tb = Ok u
    /\ new_pruner dtype value cast fs ps (Ok h) (Ok u) = Ok pr
    /\ Permutation ss1 (filter (fun s => should_include dtype value cast cmp pr (fs_partition s)) ss2).
Proof.
  intros root Sv Wf c1 c1' c2 c2' t filters ss1 ss2 A1 A2 H1 H2.
  destruct (answer_expected root Sv Wf _ _ _ _ _ A1 H1) as [fs1 [q1 [pt [format [s1 [F1 [P1 [B1 [B2 [E1 X1]]]]]]]]]].
  destruct (answer_expected root Sv Wf _ _ _ _ _ A2 H2) as [fs2 [q2 [pt' [format' [s2 [F2 [P2 [B1' [B2' [E2 X2]]]]]]]]]].
  rewrite B1 in B1'. injection B1' as <-. rewrite B2 in B2'. injection B2' as <-. cbn in F2. injection F2 as <-.
  destruct (plan_inv _ _ _ _ _ _ _ _ _ _ P1) as [tz [ps [pr [h [u [G1 [G2 [G3 [G4 [G5 [G6 [G7 [G8 G9]]]]]]]]]]]]].
  destruct (plan_inv _ _ _ _ _ _ _ _ _ _ P2) as [tz' [ps' [pr' [h' [u' [K1 [K2 [K3 [K4 [K5 [K6 [K7 [K8 K9]]]]]]]]]]]]].
  rewrite G1 in K1. injection K1 as <-. rewrite G2 in K2. injection K2 as K2.
  exists fs1, ps, h, u, pr. split; [exact F1|]. split; [exact G3|]. split; [exact G4|]. split; [exact G5|]. split; [exact G6|]. rewrite <- G9.
  assert (I : forall p, q_include q2 p = true).
  { apply (plan_wf _ _ _ _ _ _ _ _ _ _ P2). rewrite K8. unfold new_pruner in K6. cbn in K6. injection K6 as <-. reflexivity. }
  pose proof (expected_pruned _ _ _ t (q_excluded q1) pt root q1 q2 s1 s2 G7 K7 eq_refl (eq_sym K2) I E1 E2) as E.
  rewrite X1, E. now apply filter_perm.
Qed.
End Queries.

(** ** Plans *)
Lemma partitions_asked : forall m n, input_partitions m = Ok n <-> asked_partitions m n.
Proof.
  intros m n. unfold input_partitions, read_or_default, read_value, as_uint, raw. cbn [read_key read_default]. unfold asked_partitions.
  change (oget "hoodie.read.input.partitions" m) with (oget (read_key InputPartitions) m). cbn [read_key].
  destruct (oget "hoodie.read.input.partitions" m) as [s|] eqn:G; cbn [ok_or bind].
  - destruct (parse_usize s) as [k|] eqn:P; cbn [ok_or bind or_default to_usize].
    + apply parse_usize_text in P. split.
      * intros [= <-]. left. eauto.
      * intros [[s' [[= <-] U]]|[N _]]; [|now elim (N s k eq_refl)]. apply parse_usize_text in U. apply parse_usize_text in P. congruence.
    + split.
      * intros [= <-]. right. split; [|reflexivity]. intros s' k [= <-] U. apply parse_usize_text in U. congruence.
      * intros [[s' [[= <-] U]]|[_ ->]]; [|reflexivity]. apply parse_usize_text in U. congruence.
  - cbn [or_default to_usize bind]. split.
    + intros [= <-]. right. split; [|reflexivity]. discriminate.
    + intros [[s' [E _]]|[_ ->]]; [discriminate|reflexivity].
Qed.
Lemma partitions_total : forall m, exists n, input_partitions m = Ok n.
Proof. intros m. apply lookups_ok. Qed.
Lemma mapM_concat : forall A B (f : A -> outcome B) ls gs, mapM (mapM f) ls = Ok gs -> mapM f (List.concat ls) = Ok (List.concat gs) /\ map (@List.length A) ls = map (@List.length B) gs.
Proof.
  intros A B f. induction ls as [|l ls IH]; intros gs H; cbn [mapM] in H; [injection H as <-; split; reflexivity|].
  apply bind_ok in H as [g [H1 H]]. apply bind_ok in H as [gs' [H2 H]]. injection H as <-. destruct (IH _ H2) as [I1 I2]. cbn [List.concat map]. rewrite mapM_app, H1, I1, I2. split; [reflexivity|]. f_equal. apply mapM_ok in H1. eapply Forall2_len; exact H1.
Qed.
Lemma split_lengths : forall A B n (l : list A) (parts : list (list A)) (groups : list (list B)), split_into n l parts -> map (@List.length A) parts = map (@List.length B) groups -> split_into n (List.concat groups) groups.
Proof.
  intros A B n l parts groups [S1 [S2 [S3 [size S4]]]] E.
  assert (X : forall before p after, groups = (before ++ p :: after)%list -> exists before' p' after', parts = (before' ++ p' :: after')%list /\ List.length p' = List.length p /\ (after <> [] -> after' <> [])).
  { intros before p after ->. rewrite map_app in E. cbn [map] in E. clear - E. revert parts E. induction before as [|b before IH]; intros [|q parts] E; cbn [map app] in E; try discriminate.
    - injection E as E1 E2. exists [], q, parts. split; [reflexivity|]. split; [exact E1|]. intros N ->. destruct after; [now elim N|discriminate].
    - injection E as E1 E2. destruct (IH parts E2) as [b' [p' [a' [-> [H1 H2]]]]]. exists (q :: b'), p', a'. auto. }
  split; [|split; [reflexivity|split]].
  - apply (f_equal (@List.length nat)) in E. rewrite !map_length in E. lia.
  - intros p Hp ->. apply in_split in Hp as [before [after ->]]. destruct (X before [] after eq_refl) as [b' [p' [a' [E' [H1 _]]]]].
    assert (p' = []) as -> by (destruct p'; [reflexivity|discriminate]). apply (S3 []); [rewrite E'; apply in_elt|reflexivity].
  - exists size. intros before p after EG. destruct (X before p after EG) as [b' [p' [a' [E' [H1 H2]]]]]. destruct (S4 _ _ _ E') as [K1 K2]. rewrite H1 in *. split; [exact K1|]. auto.
Qed.
Lemma scan_file_location : forall base s f, scan_file base s = Ok f -> location base (base_relative_path s) = Ok (pf_location f).
Proof. intros base s f H. unfold scan_file in H. unfold location. apply bind_ok in H as [u [-> H]]. injection H as <-. reflexivity. Qed.
Lemma safe_char_plain : forall c, safe_char c -> tab_or_newline c = false /\ is_control c = false /\ byte_in 0 127 c = true.
Proof.
  intros c [[A B] _]. split; [|split].
  - unfold tab_or_newline. apply Bool.not_true_is_false. intros X. apply existsb_exists in X as [d [I X]]. apply Ascii.eqb_eq in X. subst d. destruct I as [ <- |[ <- |[ <- |[]]]]; cbn in A; lia.
  - unfold is_control. apply Bool.orb_false_iff. split; [apply N.ltb_ge; lia|apply N.eqb_neq; lia].
  - unfold byte_in. apply andb_true_iff. split; apply N.leb_le; lia.
Qed.
Lemma safe_plain : forall s, safe s -> plain s /\ has_control s = false /\ utf8_valid s = true.
Proof.
  induction s as [|c r IH]; intros H; [repeat split|]. destruct H as [H1 H2]. destruct (IH H2) as [I1 [I2 I3]]. destruct (safe_char_plain c H1) as [A [B C]].
  split; [split; assumption|]. split; [cbn [has_control]; now rewrite B, I2|]. cbn [utf8_valid]. now rewrite C.
Qed.
Lemma plain_join : forall l, Forall plain l -> plain (join "/" l).
Proof. intros l F. induction F as [|x l H F IH]; [exact I|]. destruct l as [|y l]; [exact H|]. rewrite join_cons2. apply plain_app; [exact H|]. split; [reflexivity|exact IH]. Qed.
Lemma safe_rel : forall rel ns, path_names rel ns -> Forall safe ns -> plain rel /\ utf8_valid rel = true /\ existsb has_control ns = false.
Proof.
  intros rel ns PN F. unfold path_names in PN. assert (X : Forall (fun p => plain p /\ utf8_valid p = true) (split "/" rel)).
  { induction PN as [|p ps ns I PN IH|p ps ns I PN IH]; [constructor| |].
    - constructor; [|auto]. destruct I as [ <- |[ <- |[ <- |[]]]]; repeat split.
    - inversion F as [|? ? S F']; subst. constructor; [|auto]. destruct (safe_plain _ S) as [A [_ B]]. auto. }
  rewrite <- (split_join "/" rel). split; [|split].
  - apply plain_join. eapply Forall_impl; [|exact X]. intros p [A _]. exact A.
  - apply utf8_join. eapply Forall_impl; [|exact X]. intros p [_ A]. exact A.
  - apply Bool.not_true_is_false. intros E. apply existsb_exists in E as [n [I E]]. rewrite Forall_forall in F. destruct (safe_plain _ (F n I)) as [_ [A _]]. congruence.
Qed.
Lemma safe_location : forall base names rel ns, written base names names -> path_names rel ns -> Forall safe (names ++ ns) -> location base rel = Ok (key_of (names ++ ns)) /\ object_path base rel = Ok (key_of (names ++ ns)).
Proof.
  intros base names rel ns W PN F. pose proof F as F0. apply Forall_app in F0 as [_ F2]. destruct (safe_rel rel ns PN F2) as [A [B C]].
  destruct (location_exact base names names rel ns W A B PN C) as [loc [H1 H2]].
  pose proof W as [OP [LG [FI [EN [UT UP]]]]]. pose proof (written_parts _ _ LG EN) as WP.
  assert (LC : located base names).
  { split; [exact OP|]. split; [exact LG|]. split; [exact FI|]. exists (leading names). split; [now apply written_encodes|]. split; [|exact UP]. apply leading_ends. eapply Forall_impl; [|exact WP]. intros a [X [Y _]]. auto. }
  assert (E : object_path base rel = Ok loc) by now apply H2. rewrite (object_path_exact base names rel ns LC A B PN), C in *. split; [|reflexivity]. congruence.
Qed.
Section Plan.
Variable dtype value : Type.
Variable cast : dtype -> string -> option value.
Variable cmp : value -> value -> option comparison.
Variable L : ndt -> option ndt.
Variable st : store dtype.
Variable tb : table.
Variable base : url.
Variable lit : Type.
Variable lit_display : lit -> string.
Notation slices_now := (get_file_slices dtype value cast cmp L st tb).
Notation after := (view_after dtype value cast cmp L st tb).
Notation scans := (scan dtype value cast cmp L st tb base lit lit_display).

Lemma scan_inv : forall es c c' groups, scans es c c' (Ok groups) -> exists n ss parts, input_partitions (t_configs tb) = Ok n
  /\ slices_now (exprs_to_filters lit lit_display es) c c' (Ok ss) /\ split_into (Z.to_nat n) ss parts /\ mapM (mapM (scan_file base)) parts = Ok groups.
Proof.
  intros es c c' groups H. inversion H as [|n ? ? r Hn Hs]; subst. destruct r as [parts| |]; try discriminate. cbn [bind] in *.
  destruct (splits_of_latest _ _ _ _ _ _ _ _ _ _ _ _ Hs) as [[ss| |] [G X]]; try discriminate. destruct X as [parts' [[= ->] X]]. exists n, ss, parts'. auto.
Qed.
Lemma scan_plan : forall root, serves_dirs root (st_dirs _ st) -> wf_tree root ->
  (forall p listed m, st_files _ st p = Ok listed -> In m listed -> fm_populated m = false) ->
  forall es c c' groups, after c -> scans es c c' (Ok groups) ->
  exists n ss, asked_partitions (t_configs tb) n /\ slices_now (exprs_to_filters lit lit_display es) c c' (Ok ss)
    /\ plans (st_meta _ st) (located_at base) n ss groups.
Proof.
  intros root Sv Wf U es c c' groups Hc H. destruct (scan_inv _ _ _ _ H) as [n [ss [parts [Hn [Hs [Sp Hm]]]]]]. exists n, ss. split; [now apply partitions_asked|]. split; [exact Hs|].
  destruct (mapM_concat _ _ _ _ _ Hm) as [M1 M2]. pose proof Sp as [_ [Sc _]]. rewrite Sc in M1. split; [eapply split_lengths; eassumption|].
  assert (MD : forall s, In s ss -> has_metadata (st_meta _ st) s).
  { inversion Hs as [|? ? t ? Ht Ha]; subst; [intros s []|]. eapply as_of_sizes; eassumption. }
  apply mapM_ok in M1. clear - M1 MD. induction M1 as [|s f ss fs E M1 IH]; [constructor|]. constructor; [|apply IH; intros; apply MD; now right].
  split.
  - intros names ns W PN F. pose proof (scan_file_location _ _ _ E) as X. destruct (safe_location _ _ _ _ W PN F) as [Y _]. congruence.
  - destruct (MD s (or_introl eq_refl)) as [m [A B]]. exists m. split; [exact A|]. unfold scan_file in E. apply bind_ok in E as [u [_ E]]. injection E as <-. cbn [pf_size]. now rewrite B.
Qed.
Lemma scan_total : u_opaque base = false -> forall es c c' ss, slices_now (exprs_to_filters lit lit_display es) c c' (Ok ss) -> exists groups, scans es c c' (Ok groups).
Proof.
  intros O es c c' ss H. destruct (partitions_total (t_configs tb)) as [n Hn].
  assert (F : forall s, exists f, scan_file base s = Ok f). { intros s. unfold scan_file, join_url_segments. rewrite O. destruct (ends_with "/" (u_path base)); cbn [bind foldM u_opaque with_path]; rewrite O; cbn [bind]; eauto. }
  assert (FM : forall l, exists g, mapM (scan_file base) l = Ok g). { intros l. apply mapM_succeeds. intros s _. apply F. }
  assert (FMM : forall l, exists g, mapM (mapM (scan_file base)) l = Ok g). { intros l. apply mapM_succeeds. intros s _. apply FM. }
  inversion H as [? N|? ? t ? Ht Ha]; subst.
  - exists []. change (@Ok (list (list planned_file)) []) with (let* parts := Ok [] in mapM (mapM (scan_file base)) parts). eapply sc_plan; [exact Hn|]. now apply gl_none.
  - destruct (splits_spec (Z.to_nat n) ss) as [parts [Sp _]]. destruct (FMM parts) as [g Hg]. exists g. rewrite <- Hg.
    change (mapM (mapM (scan_file base)) parts) with (let* ps := Ok parts in mapM (mapM (scan_file base)) ps). eapply sc_plan; [exact Hn|]. eapply gl_some; [exact Ht|].
    rewrite <- Sp. change (splits (Z.to_nat n) ss) with (let* x := Ok ss in splits (Z.to_nat n) x). constructor. exact Ha.
Qed.
End Plan.

(** ** Queries *)
Lemma handed_incl : forall A (es : list A) flags e, In e (handed es flags) -> In e es.
Proof. induction es as [|x es IH]; intros [|f flags] e H; cbn in H; try destruct H. destruct f; [destruct H as [ -> |H]|]; [now left|right; eauto|right; eauto]. Qed.
Lemma handed_in : forall A (g : A -> bool) es e, In e es -> g e = true -> In e (handed es (map g es)).
Proof.
  intros A g. induction es as [|x es IH]; intros e H G; [destruct H|]. cbn [map handed]. destruct H as [ -> |H]; [rewrite G; now left|]. destruct (g x); [right|]; auto.
Qed.
Lemma filter_perm_flat : forall A B (f : A -> list B) l l', Permutation l l' -> Permutation (flat_map f l) (flat_map f l').
Proof. intros A B f l l' H. now apply Permutation_flat_map. Qed.
Lemma filter_flat : forall A B (keep : A -> bool) (f : A -> list B) (p : B -> bool) l, (forall x y, In x l -> In y (f x) -> p y = true -> keep x = true) ->
  filter p (flat_map f (filter keep l)) = filter p (flat_map f l).
Proof.
  intros A B keep f p. induction l as [|x l IH]; intros H; [reflexivity|]. cbn [flat_map filter]. rewrite filter_app. assert (IH' : filter p (flat_map f (filter keep l)) = filter p (flat_map f l)) by (apply IH; intros; eapply H; eauto; now right).
  destruct (keep x) eqn:K.
  - cbn [flat_map]. now rewrite filter_app, IH'.
  - rewrite IH'. replace (filter p (f x)) with (@nil B); [reflexivity|]. symmetry. assert (X : forall y, In y (f x) -> p y = false).
    { intros y Hy. apply Bool.not_true_is_false. intros E. specialize (H x y (or_introl eq_refl) Hy E). congruence. }
    clear - X. induction (f x) as [|y r IHr]; [reflexivity|]. cbn. rewrite (X y (or_introl eq_refl)). apply IHr. intros z Hz. apply X. now right.
Qed.

Section Sql.
Variable dtype value : Type.
Variable cast : dtype -> string -> option value.
Variable cmp : value -> value -> option comparison.
Variable L : ndt -> option ndt.
Variable st : store dtype.
Variable tb : table.
Variable base : url.
Variable lit : Type.
Variable lit_display : lit -> string.
Variable row : Type.
Variable objects : string -> outcome (list row).
Variable column : row -> string -> option value.
Variable lit_value : lit -> option value.
Variable opaque : row -> df_expr lit -> option bool.
Notation slices_now := (get_file_slices dtype value cast cmp L st tb).
Notation after := (view_after dtype value cast cmp L st tb).
Notation scans := (scan dtype value cast cmp L st tb base lit lit_display).
Notation sql := (sql_query dtype value cast cmp L st tb base lit lit_display row objects column lit_value opaque).
Notation keeps := (all_true value cmp lit row column lit_value opaque).

Lemma skips_filter : forall p q l l', (forall r, q r = true -> p r = true) -> skips row p l l' -> filter q l' = filter q l.
Proof.
  intros p q l l' H S. induction S as [|r l l' S IH|r l l' E S IH]; [reflexivity| |]; cbn [filter]; rewrite IH; [reflexivity|].
  destruct (q r) eqn:Q; [|reflexivity]. apply H in Q. congruence.
Qed.
Lemma keeps_handed : forall es flags r, keeps es r = true -> keeps (handed es flags) r = true.
Proof. intros es flags r H. unfold all_true in *. rewrite forallb_forall in *. intros e He. apply H. eapply handed_incl; eauto. Qed.

Lemma sql_inv : forall es c c' out, sql es c c' (Ok out) -> exists flags groups rss, supports_filters_pushdown dtype st tb lit es = Ok flags
  /\ scans (handed es flags) c c' (Ok groups) /\ Forall2 (fun f rs => objects (pf_location f) = Ok rs) (List.concat groups) rss
  /\ Permutation (filter (keeps es) (List.concat rss)) out.
Proof.
  intros es c c' out H. inversion H as [| | | |flags ? ? groups rss kept ? Hf Hs Ho Hk Hp]; subst. exists flags, groups, rss. split; [exact Hf|]. split; [exact Hs|]. split; [exact Ho|].
  replace (filter (keeps es) (List.concat rss)) with (filter (keeps es) (List.concat kept)); [exact Hp|].
  clear - Hk. induction Hk as [|rs ks rss kept K Hk IH]; [reflexivity|]. cbn [List.concat]. rewrite !filter_app, IH. f_equal. eapply skips_filter; [|exact K]. intros r. apply keeps_handed.
Qed.

Lemma sql_rows : forall root coltype, serves_dirs root (st_dirs _ st) -> wf_tree root -> (forall a b c, cmp a b = Some c -> cmp b a = Some (CompOpp c)) ->
  forall es c1 c1' c2 c2' out ss fields hive url names rss, after c1 -> after c2 -> sql es c1 c1' (Ok out) -> slices_now [] c2 c2' (Ok ss) ->
  (forall e, In e es -> literal_side_ok e /\ literal_text_ok cast lit_display lit_value coltype e) ->
  get_partition_schema dtype st tb = Ok fields -> hive_flag tb = Ok hive -> url_flag tb = Ok url -> wf_fields fields ->
  written base names names -> Forall safe names -> Forall2 (stores objects names) ss rss ->
  (forall s rs r, In (s, rs) (combine ss rss) -> In r rs -> lies_in cast coltype fields hive url (column r) (fs_partition s)) ->
  Permutation out (filter (keeps es) (List.concat rss)).
Proof.
  intros root coltype Sv Wf Sy es c1 c1' c2 c2' out ss fields hive url names rss A1 A2 Hq H2 Lit G1 G2 G3 W Wr Sn St In_part.
  destruct (sql_inv _ _ _ _ Hq) as [flags [groups [rss' [Hf [Hs [Ho Hp]]]]]]. rewrite <- Hp. clear Hp.
  destruct (scan_inv _ _ _ _ _ _ _ _ _ _ _ _ _ _ Hs) as [n [ss1 [parts [_ [H1 [[_ [Sc _]] Hm]]]]]]. destruct (mapM_concat _ _ _ _ _ Hm) as [M _]. rewrite Sc in M. clear Hm Sc.
  set (rows_at := fun s => match location base (base_relative_path s) with Ok k => match objects k with Ok rs => rs | _ => [] end | _ => [] end).
  assert (E1 : List.concat rss' = flat_map rows_at ss1).
  { apply mapM_ok in M. clear - M Ho. revert rss' Ho. induction M as [|s f ss1 fs E M IH]; intros rss' Ho; inversion Ho as [|? rs ? rss1 O1 O2]; subst; [reflexivity|]. cbn [flat_map List.concat]. rewrite (IH _ O2). f_equal.
    unfold rows_at. rewrite (scan_file_location _ _ _ E), O1. reflexivity. }
  assert (E2 : List.concat rss = flat_map rows_at ss /\ Forall2 (fun s rs => rs = rows_at s) ss rss).
  { clear - St Wr Sn. induction St as [|s rs ss rss [ns [S1 [S2 S3]]] St [IH1 IH2]]; [split; constructor|]. assert (X : rs = rows_at s).
    { unfold rows_at. destruct (safe_location base names _ _ Wr S1) as [ -> _]; [apply Forall_app; auto|]. now rewrite S3. }
    split; [cbn [flat_map List.concat]; rewrite IH1; now rewrite X|]. constructor; assumption. }
  destruct E2 as [E2 E3]. rewrite E1, E2.
  inversion H1 as [? N|? ? t ? Ht Ha]; subst.
  - inversion H2 as [|? ? t ? Ht Ha]; subst; [reflexivity|congruence].
  - inversion H2 as [|? ? t' ? Ht' Hb]; subst; [congruence|]. assert (t' = t) as -> by congruence.
    destruct (pruned_answer dtype value cast cmp L st tb root Sv Wf _ _ _ _ _ _ _ _ A1 A2 Ha Hb) as [fs [ps [h [u [pr [F1 [F2 [F3 [F4 [F5 F6]]]]]]]]]].
    rewrite G1 in F2. injection F2 as <-. rewrite G2 in F3. injection F3 as <-. rewrite G3 in F4. injection F4 as <-.
    rewrite (filter_perm _ _ _ _ (filter_perm_flat _ _ rows_at _ _ F6)). rewrite filter_flat; [reflexivity|].
    intros s r Is Ir K. assert (exists rs, In (s, rs) (combine ss rss) /\ rs = rows_at s) as [rs [Ic Er]].
    { clear - E3 Is. induction E3 as [|x y ss rss E E3 IH]; [destruct Is|]. destruct Is as [ -> |Is]; [exists y; split; [now left|exact E]|]. destruct (IH Is) as [rs [I1 I2]]. exists rs. split; [now right|exact I2]. }
    subst rs. destruct (In_part _ _ _ Ic Ir) as [values [N1 [N2 N3]]].
    eapply (row_partition_kept dtype value lit cast cmp lit_display lit_value (column r) (opaque r) coltype Sy (handed es flags)); eauto.
    intros e He. apply handed_incl in He. destruct (Lit e He) as [X Y]. split; [exact X|]. split; [exact Y|].
    unfold all_true in K. rewrite forallb_forall in K. specialize (K e He). unfold is_true in K. destruct (truth _ _ _ _ _ _ e) as [[|]|]; congruence.
Qed.

(** A comparison with a column of the table that is no partition field. *)
Lemma pushed_down : forall has_column c l o e, (forall n, o <> DOther n) -> has_column c = true ->
  (exists b, (b = XBin (XCol c) o (XLit l) \/ b = XBin (XLit l) o (XCol c)) /\ (e = b \/ e = XNot b)) ->
  can_push_down lit has_column e = true /\ exists f, expr_to_filter lit lit_display e = Some f /\ fe_field f = c.
Proof.
  intros has_column c l o e No H [b [B E]]. assert (D : exists op, df_operator o = Some op) by (destruct o; cbn; eauto; now elim (No n)). destruct D as [op D].
  assert (DO : match o with DOther _ => false | _ => true end = true) by (destruct o; try reflexivity; discriminate).
  assert (BE : exists f, (forall x y, b = XBin x o y -> binary_expr_to_filter lit lit_display x o y = Some f) /\ fe_field f = c).
  { destruct B as [ -> | -> ]; (exists {| fe_field := c; fe_op := op; fe_value := lit_display l |}; split; [|reflexivity]); intros x y [= <- <-]; unfold binary_expr_to_filter; now rewrite D. }
  destruct BE as [f [BE Ef]]. assert (CB : can_push_down lit has_column b = true). { destruct B as [ -> | -> ]; cbn; now rewrite DO, H. }
  destruct E as [ -> | -> ].
  - split; [exact CB|]. exists f. split; [|exact Ef]. destruct B as [ -> | -> ]; cbn [expr_to_filter]; now apply BE.
  - split; [exact CB|]. destruct (negate_total f) as [g [N1 [_ [N2 _]]]]. exists g. split; [|congruence]. destruct B as [ -> | -> ]; cbn [expr_to_filter not_expr_to_filter]; rewrite (BE _ _ eq_refl); exact N1.
Qed.
Lemma foreign_filter : forall i md path cols c l o e es, last_opt (t_commits tb) = Some i -> st_json _ st (".hoodie/" ++ file_name i) = Ok md -> names_schema_file md path ->
  st_schema _ st path = Ok cols -> In c (map fst cols) -> (forall fields, get_partition_schema dtype st tb = Ok fields -> ~ In c (map fst fields)) ->
  (forall n, o <> DOther n) -> (exists b, (b = XBin (XCol c) o (XLit l) \/ b = XBin (XLit l) o (XCol c)) /\ (e = b \/ e = XNot b)) -> In e es ->
  forall c1 c2 out, ~ sql es c1 c2 (Ok out).
Proof.
  intros i md path cols c l o e es Hl Hr Hn Hc Hi Hf No He Ie c1 c2 out H. destruct (sql_inv _ _ _ _ H) as [flags [groups [rss [Hp [Hs _]]]]].
  unfold supports_filters_pushdown, schema_columns in Hp. rewrite (schema_path _ _ _ _ _ Hl Hr Hn) in Hp. cbn [bind] in Hp. rewrite Hc in Hp. cbn [bind] in Hp. injection Hp as Hp.
  set (hc := fun c0 => existsb (String.eqb c0) (map fst cols)) in Hp. destruct (pushed_down hc c l o e No) as [P1 [f [P2 P3]]]; [|exact He|].
  { unfold hc. apply existsb_exists. exists c. split; [exact Hi|apply String.eqb_refl]. }
  assert (Ih : In e (handed es flags)). { rewrite <- Hp. now apply handed_in. }
  destruct (scan_inv _ _ _ _ _ _ _ _ _ _ _ _ _ _ Hs) as [n [ss1 [parts [_ [H1 _]]]]]. inversion H1 as [? N|? ? t ? Ht Ha]; subst.
  { unfold latest_commit_timestamp in N. rewrite Hl in N. discriminate. }
  inversion Ha as [|? ? fs ? Hfs Hq]; subst. unfold exprs_to_filters in Hfs. rewrite tuples_roundtrip in Hfs. injection Hfs as <-.
  inversion Hq as [| |? ? q pt format k ? Hpl _ _ _ _]; subst. destruct (plan_inv _ _ _ _ _ _ _ _ _ _ Hpl) as [tz [ps [pr [h [u [_ [_ [G3 [_ [_ [G6 _]]]]]]]]]]].
  refine (foreign_column_fails _ _ _ _ _ _ _ f _ _ pr G6); [|now apply Hf].
  apply in_flat_map. exists e. split; [exact Ih|]. rewrite P2. now left.
Qed.
End Sql.

(** ** SQL and the API *)
Section Agree.
Variable dtype value : Type.
Variable cast : dtype -> string -> option value.
Variable cmp : value -> value -> option comparison.
Variable avro_schema avro_value : Type.
Variable parse_schema : string -> option avro_schema.
Variable datum : avro_schema -> string -> option (avro_value * string).
Variable check_schema : avro_schema -> outcome unit.
Variable to_batch : avro_schema -> list avro_value -> outcome record_batch.
Variable parquet : string -> option (list record_batch).
Variable L : ndt -> option ndt.
Variable st : store dtype.
Variable tb : table.
Variable base : url.
Variable lit : Type.
Variable lit_display : lit -> string.
Variable objects : string -> outcome (list (list cell)).
Variable column : list cell -> string -> option value.
Variable lit_value : lit -> option value.
Variable opaque : list cell -> df_expr lit -> option bool.
Notation slices_now := (get_file_slices dtype value cast cmp L st tb).
Notation after := (view_after dtype value cast cmp L st tb).
Notation sql := (sql_query dtype value cast cmp L st tb base lit lit_display (list cell) objects column lit_value opaque).
Notation keeps := (all_true value cmp lit (list cell) column lit_value opaque).
Notation snapshot := (read_snapshot dtype value cast cmp avro_schema avro_value parse_schema datum check_schema to_batch parquet L st tb).

Lemma snapshot_files : forall c c' batches, after c -> snapshot [] c c' (Ok batches) ->
  one_per_key (t_storage tb) -> (forall k v r, In (k, v) (t_storage tb) -> k <> "hoodie." ++ r) ->
  oget "hoodie.populate.meta.fields" (t_configs tb) = Some "false" \/ oget "hoodie.read.file_group.start_timestamp" (t_configs tb) = None ->
  oget "hoodie.read.use.read_optimized.mode" (t_configs tb) = Some "true" \/ (forall s, latest_slice value cast cmp L st tb s -> fs_logs s = []) ->
  exists ss, slices_now [] c c' (Ok ss) /\ Forall2 (fun s b => st_parquet _ st (base_relative_path s) = Ok b) ss batches.
Proof.
  intros c c' batches Hc H D N Hstart Hlogs. inversion H as [? Hn|? ? t ? Ht Hr]; subst; [exists []; split; [now apply gs_none|constructor]|].
  inversion Hr as [| |? ? ss ? Hs Hread]; subst. exists ss. assert (Hg : slices_now [] c c' (Ok ss)) by (eapply gs_some; eassumption). split; [exact Hg|].
  inversion Hread as [| |iter os ? P [_ F] J]; subst. apply joined_ok in J. subst os.
  assert (O : forall key, is_hudi key = true -> key <> "hoodie.read.file_group.end_timestamp" ->
    oget key (fst (table_reader_options iter (t_configs tb) (t_storage tb) [("hoodie.read.file_group.end_timestamp", t)])) = oget key (t_configs tb)).
  { intros key K1 K2. rewrite (reader_option iter tb _ key P D N K1). cbn [last_value first_given]. destruct (String.eqb_spec "hoodie.read.file_group.end_timestamp" key); [congruence|]. cbn [first_given]. destruct (oget key (t_configs tb)); reflexivity. }
  assert (Hl : forall s, In s ss -> oget "hoodie.read.use.read_optimized.mode" (t_configs tb) = Some "true" \/ fs_logs s = []).
  { intros s Is. destruct Hlogs as [X|X]; [now left|]. right. apply X. exists c, c', ss. auto. }
  clear - F O Hl Hstart. revert batches F. induction ss as [|s ss IH]; intros [|b batches] F; cbn [map] in F; inversion F as [|? ? ? ? [sort [visit [_ [_ E]]]] F']; subst; [constructor|].
  constructor; [|apply IH; [|exact F']; intros; apply Hl; now right].
  rewrite slice_read_optimized in E.
  2: { rewrite O by (reflexivity || discriminate). apply Hl. now left. }
  unfold read_base_file in E. destruct (st_parquet dtype st (base_relative_path s)) as [records| |] eqn:R; try discriminate E. f_equal.
  symmetry in E.
  assert (B := base_all (st_parquet dtype st) (fst (table_reader_options iter (t_configs tb) (t_storage tb) [("hoodie.read.file_group.end_timestamp", t)])) _ _ R).
  unfold read_base_file in B. rewrite R in B. cbn [bind] in B, E. rewrite B in E; [congruence|].
  unfold read_start. rewrite !O by (reflexivity || discriminate). exact Hstart.
Qed.
Lemma sql_agrees : forall root coltype, serves_dirs root (st_dirs _ st) -> wf_tree root -> (forall a b c, cmp a b = Some c -> cmp b a = Some (CompOpp c)) ->
  one_per_key (t_storage tb) -> (forall k v r, In (k, v) (t_storage tb) -> k <> "hoodie." ++ r) ->
  oget "hoodie.populate.meta.fields" (t_configs tb) = Some "false" \/ oget "hoodie.read.file_group.start_timestamp" (t_configs tb) = None ->
  oget "hoodie.read.use.read_optimized.mode" (t_configs tb) = Some "true" \/ (forall s, latest_slice value cast cmp L st tb s -> fs_logs s = []) ->
  forall es c1 c1' c2 c2' out batches fields hive url names, after c1 -> after c2 -> sql es c1 c1' (Ok out) -> snapshot [] c2 c2' (Ok batches) ->
  (forall e, In e es -> literal_side_ok e /\ literal_text_ok cast lit_display lit_value coltype e) ->
  get_partition_schema dtype st tb = Ok fields -> hive_flag tb = Ok hive -> url_flag tb = Ok url -> wf_fields fields ->
  written base names names -> Forall safe names ->
  (forall s b, latest_slice value cast cmp L st tb s -> st_parquet _ st (base_relative_path s) = Ok b ->
     stores objects names s (rb_rows b) /\ forall r, In r (rb_rows b) -> lies_in cast coltype fields hive url (column r) (fs_partition s)) ->
  Permutation out (filter (keeps es) (rows_of batches)).
Proof.
  intros root coltype Sv Wf Sy D N Hstart Hlogs es c1 c1' c2 c2' out batches fields hive url names A1 A2 Hq Hr Lit G1 G2 G3 W Wr Sn Hf.
  destruct (snapshot_files _ _ _ A2 Hr D N Hstart Hlogs) as [ss [Hs F]].
  assert (X : forall s, In s ss -> latest_slice value cast cmp L st tb s) by (intros s Is; exists c2, c2', ss; auto).
  unfold rows_of. apply (sql_rows dtype value cast cmp L st tb base lit lit_display (list cell) objects column lit_value opaque root coltype Sv Wf Sy es c1 c1' c2 c2' out ss fields hive url names (map rb_rows batches)); try assumption.
  - clear - F X Hf. induction F as [|s b ss bs E F IH]; [constructor|]. cbn [map]. constructor; [|apply IH; intros; apply X; now right]. apply (Hf s b); [apply X; now left|exact E].
  - intros s rs r Ic Ir. assert (exists b, rs = rb_rows b /\ In s ss /\ st_parquet _ st (base_relative_path s) = Ok b) as [b [ -> [Is E]]].
    { clear - F Ic. induction F as [|s0 b ss bs E F IH]; [destruct Ic|]. cbn [map combine] in Ic. destruct Ic as [[= <- <-]|Ic]; [exists b; split; [reflexivity|]; split; [now left|exact E]|]. destruct (IH Ic) as [b' [I1 [I2 I3]]]. exists b'. split; [exact I1|]. split; [now right|exact I3]. }
    destruct (Hf s b (X s Is) E) as [_ Y]. now apply Y.
Qed.
End Agree.

(** ** Options of new tables *)
Lemma factory_get : forall iter location session command, (forall m, Permutation (iter m) m) -> one_per_key command -> NoDup (map fst session) ->
  one_per_key (b_options (factory_builder iter location session command))
  /\ forall k v, oget k (b_options (factory_builder iter location session command)) = Some v
       <-> oget k command = Some v \/ (oget k command = None /\ session_sets session k v).
Proof.
  intros iter location session command P D DS. unfold factory_builder. cbn [b_options]. split; [apply oputs_nodup; constructor|]. intros k v.
  set (given := flat_map (fun e : string * option string => match snd e with Some v0 => if String.eqb v0 "" then [] else [(fst e, v0)] | None => [] end) session).
  assert (G : one_per_key given /\ forall x w, In (x, w) given <-> session_sets session x w).
  { subst given. unfold one_per_key, session_sets. clear - DS. induction session as [|[k o] session IH]; [split; [constructor|]; intros x w; cbn; tauto|].
    cbn [map fst] in DS. inversion DS as [|? ? N DS']; subst. destruct (IH DS') as [I1 I2]. cbn [flat_map fst snd].
    assert (X : forall x w, (In (x, w) ((k, o) :: session) /\ False <-> False)%type) by tauto. clear X.
    destruct o as [w0|]; [destruct (String.eqb_spec w0 "") as [ -> |Nw]|]; cbn [app].
    - split; [exact I1|]. intros x w. rewrite I2. cbn [In]. split; [tauto|]. intros [[[= <- <-]|H] Nn]; [now elim Nn|tauto].
    - split.
      + cbn [map fst]. constructor; [|exact I1]. intros I. apply in_map_iff in I as [[x w] [E I]]. cbn in E. subst x. apply I2 in I as [I _]. apply N. now apply (in_map fst) in I.
      + intros x w. cbn [In]. rewrite I2. split; [intros [[= <- <-]|[H1 H2]]; auto|]. intros [[[= <- <-]|H] Nn]; auto.
    - split; [exact I1|]. intros x w. rewrite I2. cbn [In]. split; [tauto|]. intros [[E|H] Nn]; [discriminate|tauto]. }
  destruct G as [G1 G2]. rewrite oget_oputs. cbn [oget first_given]. rewrite (iter_last iter P) by (unfold factory_options; apply oputs_nodup, oputs_nodup; constructor).
  unfold factory_options. fold given. rewrite oget_oputs, (last_value_oget command) by exact D. rewrite oget_oputs, (last_value_oget given) by exact G1. rewrite <- (G2 k v). rewrite <- (oget_in k v given G1).
  cbn [oget first_given]. destruct (oget k command) as [x|]; destruct (oget k given) as [y|]; cbn; intuition (congruence || discriminate).
Qed.

(** ** Addressing of slices *)
Lemma scan_exact : forall base names encs s ns, written base names encs -> plain (base_relative_path s) -> utf8_valid (base_relative_path s) = true ->
  path_names (base_relative_path s) ns -> existsb has_control ns = false ->
  exists f, scan_file base s = Ok f /\ (object_path base (base_relative_path s) = Ok (pf_location f) <-> encs = names /\ Forall safe (names ++ ns)).
Proof.
  intros base names encs s ns W P U N C. destruct (location_exact base names encs _ ns W P U N C) as [loc [H1 H2]]. unfold location in H1. unfold scan_file. destruct (join_url_segments base [base_relative_path s]) as [u|e|]; try discriminate. injection H1 as <-.
  eexists. split; [reflexivity|]. exact H2.
Qed.
Lemma scan_distinct : forall base names encs s1 ns1 s2 ns2 f1 f2, written base names encs -> plain (base_relative_path s1) -> plain (base_relative_path s2) ->
  utf8_valid (base_relative_path s1) = true -> utf8_valid (base_relative_path s2) = true ->
  path_names (base_relative_path s1) ns1 -> path_names (base_relative_path s2) ns2 -> scan_file base s1 = Ok f1 -> scan_file base s2 = Ok f2 ->
  pf_location f1 = pf_location f2 -> ns1 = ns2.
Proof.
  intros base names encs s1 ns1 s2 ns2 f1 f2 W P1 P2 U1 U2 N1 N2 H1 H2 E. apply scan_file_location in H1, H2. rewrite E in H1. exact (location_distinct base names encs _ ns1 _ ns2 _ W P1 P2 U1 U2 N1 N2 H1 H2).
Qed.

(** ** Options of tables that SQL commands create *)
Lemma factory_resolved : forall iter env open properties global location session command b', visits_all iter -> one_per_key command -> NoDup (map fst session) ->
  resolve iter env open properties global (factory_builder iter location session command) = Ok b' ->
  exists asked storage hudi data props,
    (forall k v, asked k = Some v <-> oget k command = Some v \/ (oget k command = None /\ session_sets session k v))
    /\ properties storage hudi = Ok data /\ parse_data "=" data = Ok props
    /\ (forall k, oget k (b_hudi b') =
         first_given [oget k props; if String.eqb "hoodie.base.path" k then Some location else None; when (starts_with "hoodie." k) (asked k);
                      when (starts_with "hoodie." k) (oget k (global_options (global storage hudi)))])
    /\ (forall k, oget k (b_storage b') = first_given [when (negb (starts_with "hoodie." k)) (asked k); env_value env k]).
Proof.
  intros iter env open properties global location session command b' V D N H. destruct (factory_get iter location session command V D N) as [F1 F2].
  destruct (resolve_get iter V env open properties global _ b' F1 H) as [storage [hudi [data [props [_ [H2 [H3 [H4 [H5 _]]]]]]]]].
  exists (fun k => oget k (b_options (factory_builder iter location session command))), storage, hudi, data, props. split; [exact F2|]. split; [exact H2|]. split; [exact H3|]. split.
  - intros k. rewrite H4. cbn [factory_builder b_base b_hudi oget]. reflexivity.
  - intros k. rewrite H5. reflexivity.
Qed.
