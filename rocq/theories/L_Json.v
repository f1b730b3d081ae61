(** Lemmas for C79: JSON texts. *)
From Verif Require Import Base Str M_Utf8 M_Builder M_Json S_Json L_Base L_Str.
Local Open Scope string_scope.

(** ** Blanks *)
Lemma blank_is : forall c, is_blank c = true <-> In c [" "; "009"; "010"; "013"]%char.
Proof.
  intros c. unfold is_blank. rewrite !Bool.orb_true_iff, !Ascii.eqb_eq. cbn [In]. intuition congruence.
Qed.
Lemma blank_nil : blank "".
Proof. intros c [=]. Qed.
Lemma blank_cons : forall c w, blank (String c w) <-> is_blank c = true /\ blank w.
Proof.
  intros c w. unfold blank. rewrite blank_is. cbn [has_char]. split.
  - intros H. split; [apply H; now rewrite Ascii.eqb_refl|]. intros x X. apply H. rewrite X. apply Bool.orb_true_r.
  - intros [H G] x X. apply Bool.orb_true_iff in X as [X|X]; [|now apply G]. apply Ascii.eqb_eq in X. now subst x.
Qed.
Lemma skip_blank : forall w s, blank w -> skip (w ++ s) = skip s.
Proof. induction w as [|c w IH]; intros s B; [reflexivity|]. apply blank_cons in B as [B W]. cbn [append skip]. rewrite B. now apply IH. Qed.
Lemma skip_head : forall c r, is_blank c = false -> skip (String c r) = String c r.
Proof. intros c r H. cbn [skip]. now rewrite H. Qed.
Lemma skip_to : forall w c r, blank w -> is_blank c = false -> skip (w ++ String c r) = String c r.
Proof. intros w c r B H. rewrite skip_blank by exact B. now apply skip_head. Qed.
Lemma skip_split : forall s, exists w, blank w /\ s = w ++ skip s.
Proof.
  induction s as [|c s [w [B E]]]; [exists ""; split; [exact blank_nil|reflexivity]|]. cbn [skip]. destruct (is_blank c) eqn:C.
  - exists (String c w). split; [now apply blank_cons|]. cbn [append]. now rewrite <- E.
  - exists "". split; [exact blank_nil|reflexivity].
Qed.
Lemma skip_not_blank : forall s c r, skip s = String c r -> is_blank c = false.
Proof. induction s as [|a s IH]; intros c r H; [discriminate|]. cbn [skip] in H. destruct (is_blank a) eqn:A; [now apply (IH c r)|]. now injection H as <- <-. Qed.
Lemma skip_nil : forall s, skip s = "" <-> blank s.
Proof.
  intros s. split; intros H.
  - destruct (skip_split s) as [w [B E]]. rewrite H, app_nil_r_s in E. now subst s.
  - rewrite <- (app_nil_r_s s). now rewrite skip_blank.
Qed.
Lemma skip_le : forall s, (String.length (skip s) <= String.length s)%nat.
Proof. intros s. destruct (skip_split s) as [w [_ E]]. rewrite E at 2. rewrite length_app_s. lia. Qed.
Lemma ident_app : forall w s, ident w (w ++ s) = Some s.
Proof. induction w as [|c w IH]; intros s; [reflexivity|]. cbn [append ident]. rewrite Ascii.eqb_refl. apply IH. Qed.
Lemma ident_some : forall w s r, ident w s = Some r -> s = w ++ r.
Proof.
  induction w as [|c w IH]; intros s r H; cbn [ident] in H; [now injection H|]. destruct s as [|b s]; [discriminate|].
  destruct (Ascii.eqb_spec c b) as [ -> |]; [|discriminate]. cbn [append]. now rewrite <- (IH s r H).
Qed.

(** ** Hexadecimal digits and UTF-8 *)
Lemma ascii_code : forall c n, (n < 256)%N -> (c = ascii_of_N n <-> N_of_ascii c = n).
Proof.
  intros c n H. split; [intros ->; now apply N_ascii_embedding|]. intros <-. symmetry. apply ascii_N_embedding.
Qed.
Lemma hex_val_digit : forall c n, hex_val c = Some n <-> hex_digit c n.
Proof.
  intros c n. unfold hex_val, hex_digit, byte_in. pose proof (N_ascii_bounded c) as B.
  assert (A : forall k, (k < 256)%N -> (c = ascii_of_N k <-> N_of_ascii c = k)) by (intros k K; now apply ascii_code).
  destruct (N.leb_spec 48 (N_of_ascii c)), (N.leb_spec (N_of_ascii c) 57); cbn [andb].
  1: { split; [intros [= <-]; left; split; [lia|apply A; lia]|]. intros [[L E]|[L [E|E]]]; apply A in E; try lia; f_equal; lia. }
  all: destruct (N.leb_spec 65 (N_of_ascii c)), (N.leb_spec (N_of_ascii c) 70); cbn [andb]; try lia.
  all: try (split; [intros [= <-]; right; split; [lia|left; apply A; lia]|intros [[L E]|[L [E|E]]]; apply A in E; try lia; f_equal; lia]).
  all: destruct (N.leb_spec 97 (N_of_ascii c)), (N.leb_spec (N_of_ascii c) 102); cbn [andb]; try lia.
  all: try (split; [intros [= <-]; right; split; [lia|right; apply A; lia]|intros [[L E]|[L [E|E]]]; apply A in E; try lia; f_equal; lia]).
  all: split; [discriminate|intros [[L E]|[L [E|E]]]; apply A in E; lia].
Qed.
Lemma hex4_text : forall a b c e n, hex4 a b c e = Some n <-> hex_text (String a (String b (String c (String e "")))) n.
Proof.
  intros a b c e n. unfold hex4, hex_text. split.
  - destruct (hex_val a) as [x|] eqn:A; [|discriminate]. destruct (hex_val b) as [y|] eqn:B; [|discriminate].
    destruct (hex_val c) as [z|] eqn:C; [|discriminate]. destruct (hex_val e) as [w|] eqn:E; [|discriminate].
    apply hex_val_digit in A, B, C, E. intros [= <-]. exists a, b, c, e, x, y, z, w. repeat (split; [first [reflexivity|assumption]|]). lia.
  - intros (a' & b' & c' & e' & x & y & z & w & [= <- <- <- <-] & A & B & C & E & ->). apply hex_val_digit in A, B, C, E. rewrite A, B, C, E. f_equal. lia.
Qed.
Lemma hex_text_four : forall h n, hex_text h n -> exists a b c e, h = String a (String b (String c (String e ""))).
Proof. intros h n (a & b & c & e & _ & _ & _ & _ & -> & _). eauto. Qed.
Lemma hex_text_below : forall h n, hex_text h n -> (n < 65536)%N.
Proof.
  intros h n (a & b & c & e & x & y & z & w & _ & A & B & C & E & ->).
  assert (H : forall c n, hex_digit c n -> (n < 16)%N) by (intros c' n' [[L _]|[L _]]; lia). apply H in A, B, C, E. lia.
Qed.
Lemma encode_is : forall n, (n < 2097152)%N -> utf8_char n (encode_utf8 n).
Proof.
  intros n H. unfold encode_utf8. change byte_of with one.
  destruct (N.ltb_spec n 128); [now constructor|].
  pose proof (N.div_mod n 64) as D1. pose proof (N.mod_lt n 64) as M1.
  destruct (N.ltb_spec n 2048).
  { rewrite D1 at 1 by lia. constructor; [|lia]. split; [apply N.div_le_lower_bound; lia|apply N.div_lt_upper_bound; lia]. }
  pose proof (N.div_mod (n / 64) 64) as D2. pose proof (N.mod_lt (n / 64) 64) as M2. rewrite N.div_div in D2 by lia. change (64 * 64)%N with 4096%N in D2.
  destruct (N.ltb_spec n 65536).
  { assert (E : n = (4096 * (n / 4096) + 64 * (n / 64 mod 64) + n mod 64)%N) by lia. rewrite E at 1. constructor; try lia. apply N.div_lt_upper_bound; lia. }
  pose proof (N.div_mod (n / 4096) 64) as D3. pose proof (N.mod_lt (n / 4096) 64) as M3. rewrite N.div_div in D3 by lia. change (4096 * 64)%N with 262144%N in D3.
  assert (E : n = (262144 * (n / 262144) + 4096 * (n / 4096 mod 64) + 64 * (n / 64 mod 64) + n mod 64)%N) by lia. rewrite E at 1. constructor; try lia. apply N.div_lt_upper_bound; lia.
Qed.
Lemma char_encode : forall n u, utf8_char n u -> u = encode_utf8 n.
Proof.
  intros n u H. unfold encode_utf8. change byte_of with one.
  destruct H as [n H|a b A B|a b c A B C L|a b c e A B C E L].
  - destruct (N.ltb_spec n 128); [reflexivity|lia].
  - destruct (N.ltb_spec (64 * a + b) 128); [lia|]. destruct (N.ltb_spec (64 * a + b) 2048); [|lia].
    assert (E1 : ((64 * a + b) / 64 = a)%N) by (symmetry; apply (N.div_unique _ _ _ b); lia). assert (E2 : ((64 * a + b) mod 64 = b)%N) by (symmetry; apply (N.mod_unique _ _ a); lia).
    now rewrite E1, E2.
  - set (n := (4096 * a + 64 * b + c)%N) in *. destruct (N.ltb_spec n 128); [lia|]. destruct (N.ltb_spec n 2048); [lia|]. destruct (N.ltb_spec n 65536); [|lia].
    assert (E1 : (n / 4096 = a)%N) by (symmetry; apply (N.div_unique _ _ _ (64 * b + c)); lia).
    assert (E2 : (n / 64 = 64 * a + b)%N) by (symmetry; apply (N.div_unique _ _ _ c); lia).
    assert (E3 : ((64 * a + b) mod 64 = b)%N) by (symmetry; apply (N.mod_unique _ _ a); lia).
    assert (E4 : (n mod 64 = c)%N) by (symmetry; apply (N.mod_unique _ _ (64 * a + b)); lia). now rewrite E1, E2, E3, E4.
  - set (n := (262144 * a + 4096 * b + 64 * c + e)%N) in *. destruct (N.ltb_spec n 128); [lia|]. destruct (N.ltb_spec n 2048); [lia|]. destruct (N.ltb_spec n 65536); [lia|].
    assert (E1 : (n / 262144 = a)%N) by (symmetry; apply (N.div_unique _ _ _ (4096 * b + 64 * c + e)); lia).
    assert (E2 : (n / 4096 = 64 * a + b)%N) by (symmetry; apply (N.div_unique _ _ _ (64 * c + e)); lia).
    assert (E3 : ((64 * a + b) mod 64 = b)%N) by (symmetry; apply (N.mod_unique _ _ a); lia).
    assert (E4 : (n / 64 = 4096 * a + 64 * b + c)%N) by (symmetry; apply (N.div_unique _ _ _ e); lia).
    assert (E5 : ((4096 * a + 64 * b + c) mod 64 = c)%N) by (symmetry; apply (N.mod_unique _ _ (64 * a + b)); lia).
    assert (E6 : (n mod 64 = e)%N) by (symmetry; apply (N.mod_unique _ _ (4096 * a + 64 * b + c)); lia).
    now rewrite E1, E2, E3, E4, E5, E6.
Qed.

(** ** Strings *)
Lemma high_is : forall n, high_surrogate n = true <-> (55296 <= n < 56320)%N.
Proof. intros n. unfold high_surrogate. rewrite Bool.andb_true_iff, !N.leb_le. lia. Qed.
Lemma low_is : forall n, low_surrogate n = true <-> (56320 <= n < 57344)%N.
Proof. intros n. unfold low_surrogate. rewrite Bool.andb_true_iff, !N.leb_le. lia. Qed.
Lemma neither : forall n, low_surrogate n = false -> high_surrogate n = false -> (n < 55296 \/ 57343 < n)%N.
Proof.
  intros n L H. destruct (N.ltb_spec n 55296); [lia|]. destruct (N.ltb_spec 57343 n); [lia|].
  destruct (N.ltb_spec n 56320); [rewrite (proj2 (high_is n)) in H by lia; discriminate|rewrite (proj2 (low_is n)) in L by lia; discriminate].
Qed.
Lemma short_is : forall e x, short_escape e = Some x <-> exists n, In (e, n) escapes /\ x = one n.
Proof.
  intros e x. unfold short_escape. split.
  - repeat match goal with |- context [Ascii.eqb e ?c] => destruct (Ascii.eqb_spec e c) as [ -> |]; [intros [= <-]; eexists; split; [cbn; eauto 12|reflexivity]|] end. discriminate.
  - intros [n [I ->]]. cbn in I. repeat (destruct I as [[= <- <-]|I]; [reflexivity|]). destruct I.
Qed.
Lemma short_not_u : forall e n, In (e, n) escapes -> Ascii.eqb e "u" = false.
Proof. intros e n I. cbn in I. repeat (destruct I as [[= <- <-]|I]; [reflexivity|]). destruct I. Qed.
Lemma chars_read : forall t e, chars t e -> forall r, string_bytes (e ++ String """" r) = Some (t, r).
Proof.
  intros t e H. induction H as [|c t d L Q B _ IH|e n t d I _ IH|h n u t d X Y U _ IH|h l a b u t d X Y A B U _ IH]; intros r.
  - reflexivity.
  - cbn [append string_bytes]. destruct (Ascii.eqb_spec c """"); [contradiction|]. destruct (Ascii.eqb_spec c "\"); [contradiction|].
    destruct (N.ltb_spec (N_of_ascii c) 32); [lia|]. now rewrite IH.
  - cbn [append]. cbn [string_bytes]. cbn [Ascii.eqb Bool.eqb]. rewrite (short_not_u _ _ I). rewrite (proj2 (short_is e (one n))) by eauto. now rewrite IH.
  - destruct (hex_text_four _ _ X) as (p & q & s & v & ->). pose proof (hex_text_below _ _ X) as L. apply hex4_text in X. cbn [append]. cbn [string_bytes]. cbn [Ascii.eqb Bool.eqb]. rewrite X.
    unfold low_surrogate, high_surrogate. destruct (N.leb_spec 56320 n), (N.leb_spec n 57343); cbn [andb]; try lia.
    all: destruct (N.leb_spec 55296 n), (N.leb_spec n 56319); cbn [andb]; try lia.
    all: rewrite IH; cbn [cons_to]; now rewrite <- (char_encode _ _ U).
  - destruct (hex_text_four _ _ X) as (p & q & s & v & ->). destruct (hex_text_four _ _ Y) as (p' & q' & s' & v' & ->). apply hex4_text in X, Y.
    cbn [append]. cbn [string_bytes]. cbn [Ascii.eqb Bool.eqb]. rewrite X. unfold low_surrogate, high_surrogate.
    destruct (N.leb_spec 56320 (55296 + a)); [lia|]. cbn [andb]. destruct (N.leb_spec 55296 (55296 + a)); [|lia]. destruct (N.leb_spec (55296 + a) 56319); [|lia]. cbn [andb]. rewrite Y.
    destruct (N.leb_spec 56320 (56320 + b)); [|lia]. destruct (N.leb_spec (56320 + b) 57343); [|lia]. cbn [andb]. rewrite IH. cbn [cons_to].
    replace (65536 + (55296 + a - 55296) * 1024 + (56320 + b - 56320))%N with (65536 + 1024 * a + b)%N by lia. now rewrite <- (char_encode _ _ U).
Qed.
Lemma bytes_chars : forall k s t r, (String.length s <= k)%nat -> string_bytes s = Some (t, r) -> exists e, chars t e /\ s = e ++ String """" r.
Proof.
  induction k as [|k IH]; intros s t r K H; [destruct s; [discriminate|cbn in K; lia]|]. destruct s as [|c s]; [discriminate|]. cbn [string_bytes] in H. cbn [String.length] in K.
  assert (C : forall x y, cons_to x y = Some (t, r) -> exists u, y = Some (u, r) /\ t = x ++ u) by (intros x [[u q]|] Y; [|discriminate]; injection Y as <- <-; eauto).
  destruct (Ascii.eqb_spec c """") as [ -> |Q]; [injection H as <- <-; exists ""; split; [constructor|reflexivity]|].
  destruct (Ascii.eqb_spec c "\") as [ -> |B].
  - destruct s as [|e s]; [discriminate|]. cbn [String.length] in K. destruct (Ascii.eqb_spec e "u") as [ -> |U].
    + destruct s as [|h1 [|h2 [|h3 [|h4 s]]]]; try discriminate. cbn [String.length] in K. destruct (hex4 h1 h2 h3 h4) as [n|] eqn:X; [|discriminate]. apply hex4_text in X.
      pose proof (hex_text_below _ _ X) as L. destruct (low_surrogate n) eqn:Lo; [discriminate|]. destruct (high_surrogate n) eqn:Hi.
      * destruct s as [|b [|u [|l1 [|l2 [|l3 [|l4 s]]]]]]; try discriminate. cbn [String.length] in K.
        destruct (Ascii.eqb_spec b "\") as [ -> |]; [|discriminate]. destruct (Ascii.eqb_spec u "u") as [ -> |]; [|discriminate]. cbn [andb] in H.
        destruct (hex4 l1 l2 l3 l4) as [m|] eqn:Y; [|discriminate]. apply hex4_text in Y. destruct (low_surrogate m) eqn:Lm; [|discriminate]. apply low_is in Lm. apply high_is in Hi.
        apply C in H as [v [H ->]]. apply IH in H as [e [E ->]]; [|lia].
        assert (En : exists a, n = (55296 + a)%N /\ (a < 1024)%N) by (exists (n - 55296)%N; lia). assert (Em : exists b, m = (56320 + b)%N /\ (b < 1024)%N) by (exists (m - 56320)%N; lia).
        destruct En as [a [ -> A]], Em as [b [ -> Bb]].
        exists ("\u" ++ String h1 (String h2 (String h3 (String h4 ""))) ++ "\u" ++ String l1 (String l2 (String l3 (String l4 ""))) ++ e). split; [|reflexivity].
        eapply ch_pair; [exact X|exact Y|exact A|exact Bb| |exact E].
        replace (65536 + (55296 + a - 55296) * 1024 + (56320 + b - 56320))%N with (65536 + 1024 * a + b)%N by lia. apply encode_is. lia.
      * apply C in H as [v [H ->]]. apply IH in H as [e [E ->]]; [|lia]. exists ("\u" ++ String h1 (String h2 (String h3 (String h4 ""))) ++ e). split; [|reflexivity].
        eapply ch_unit; [exact X| |apply encode_is; lia|exact E]. now apply neither.
    + destruct (short_escape e) as [x|] eqn:X; [|discriminate]. apply C in H as [v [H ->]]. apply IH in H as [d [E ->]]; [|lia].
      apply short_is in X as [n [I ->]]. exists ("\" ++ String e d). split; [now constructor|reflexivity].
  - destruct (N.ltb_spec (N_of_ascii c) 32) as [|L]; [discriminate|]. apply C in H as [v [H ->]]. apply IH in H as [d [E ->]]; [|lia].
    exists (String c d). split; [now constructor|reflexivity].
Qed.
Lemma quoted_read : forall t d, quoted t d -> exists e, d = String """" e /\ forall r, parse_str (e ++ r) = Some (t, r).
Proof.
  intros t d [V [e [C ->]]]. exists (e ++ """"). split; [reflexivity|]. intros r. unfold parse_str. rewrite app_assoc_s. cbn [append]. rewrite (chars_read t e C). now rewrite V.
Qed.
Lemma parse_quoted : forall s t r, parse_str s = Some (t, r) -> exists d, quoted t d /\ String """" s = d ++ r.
Proof.
  intros s t r. unfold parse_str. destruct (string_bytes s) as [[u q]|] eqn:E; [|discriminate]. destruct (utf8_valid u) eqn:V; [|discriminate]. intros [= <- <-].
  apply (bytes_chars (String.length s)) in E as [e [C ->]]; [|lia]. exists (String """" (e ++ """")). split; [split; [exact V|exists e; split; [exact C|reflexivity]]|].
  cbn [append]. now rewrite app_assoc_s.
Qed.

(** ** Numbers *)
Definition stops (r : string) : Prop := match r with String c _ => is_digit c = false /\ Ascii.eqb c "." = false /\ Ascii.eqb c "e" = false /\ Ascii.eqb c "E" = false | EmptyString => True end.
Definition no_digit (r : string) : Prop := match r with String c _ => is_digit c = false | EmptyString => True end.
Lemma digits_cons : forall c d, digits (String c d) <-> is_digit c = true /\ (d = "" \/ digits d).
Proof.
  intros c d. unfold digits. cbn [has_char]. split.
  - intros [_ H]. split; [apply H; now rewrite Ascii.eqb_refl|]. destruct d as [|x d]; [now left|right]. split; [discriminate|]. intros y Y. apply H. rewrite Y. apply Bool.orb_true_r.
  - intros [H G]. split; [discriminate|]. intros x X. apply Bool.orb_true_iff in X as [X|X]; [apply Ascii.eqb_eq in X; now subst x|].
    destruct G as [ -> |[_ G]]; [discriminate|]. now apply G.
Qed.
Lemma take_app : forall d r, d = "" \/ digits d -> no_digit r -> take_digits (d ++ r) = (d, r).
Proof.
  induction d as [|c d IH]; intros r D N.
  - cbn [append]. destruct r as [|c r]; [reflexivity|]. cbn [take_digits]. cbn in N. now rewrite N.
  - destruct D as [[=]|D]. apply digits_cons in D as [C D]. cbn [append take_digits]. rewrite C. now rewrite IH.
Qed.
Lemma take_split : forall s d r, take_digits s = (d, r) -> s = d ++ r /\ (d = "" \/ digits d) /\ no_digit r.
Proof.
  induction s as [|c s IH]; intros d r H; cbn [take_digits] in H; [injection H as <- <-; split; [reflexivity|]; split; [now left|exact I]|].
  destruct (is_digit c) eqn:C.
  - destruct (take_digits s) as [d' r'] eqn:E. injection H as <- <-. destruct (IH _ _ eq_refl) as [ -> [D N]]. split; [reflexivity|]. split; [|exact N]. right. now apply digits_cons.
  - injection H as <- <-. split; [reflexivity|]. split; [now left|exact C].
Qed.
Lemma some_app : forall d r, digits d -> no_digit r -> some_digits (d ++ r) = Some (d, r).
Proof. intros d r D N. unfold some_digits. rewrite take_app by auto. destruct d; [now elim (proj1 D)|reflexivity]. Qed.
Lemma some_split : forall s d r, some_digits s = Some (d, r) -> s = d ++ r /\ digits d /\ no_digit r.
Proof.
  intros s d r. unfold some_digits. destruct (take_digits s) as [d' r'] eqn:E. destruct (take_split _ _ _ E) as [ -> [D N]]. destruct d' as [|c d']; [discriminate|].
  intros [= <- <-]. split; [reflexivity|]. split; [|exact N]. now destruct D.
Qed.
Definition frac (f : string) : Prop := f = "" \/ (exists x, digits x /\ f = "." ++ x).
Definition expo (e : string) : Prop := e = "" \/ (exists l g x, (l = "e" \/ l = "E") /\ (g = "" \/ g = "+" \/ g = "-") /\ digits x /\ e = l ++ g ++ x).
Lemma digit_plain : forall c, is_digit c = true -> Ascii.eqb c "." = false /\ Ascii.eqb c "e" = false /\ Ascii.eqb c "E" = false /\ Ascii.eqb c "+" = false /\ Ascii.eqb c "-" = false.
Proof.
  intros c H. repeat split; apply Bool.not_true_is_false; intros E; apply Ascii.eqb_eq in E; subst c; discriminate H.
Qed.
Lemma exponent_app : forall e r, expo e -> stops r -> exponent (e ++ r) = Some (e, r).
Proof.
  intros e r [ -> |(l & g & x & L & G & D & ->)] S.
  - cbn [append]. destruct r as [|c r]; [reflexivity|]. destruct S as [_ [_ [E1 E2]]]. cbn [exponent]. now rewrite E1, E2.
  - assert (N : no_digit r) by (destruct r; [exact I|apply S]). rewrite !app_assoc_s. destruct D as [D0 D1]. destruct x as [|c x]; [now elim D0|].
    assert (C : is_digit c = true) by (apply D1; cbn; now rewrite Ascii.eqb_refl). apply digit_plain in C as (_ & _ & _ & Cp & Cm).
    pose proof (some_app (String c x) r (conj D0 D1) N) as P.
    destruct L as [ -> | -> ], G as [ -> |[ -> | -> ]]; cbn [append exponent] in *; cbn [Ascii.eqb Bool.eqb orb]; rewrite ?Cp, ?Cm; cbn [orb]; rewrite P; reflexivity.
Qed.
Lemma cons_some : forall x y t r, cons_to x y = Some (t, r) -> exists u, y = Some (u, r) /\ t = x ++ u.
Proof. intros x [[u q]|] t r Y; [|discriminate]. injection Y as <- <-. eauto. Qed.
Lemma exponent_split : forall s e r, exponent s = Some (e, r) -> s = e ++ r /\ expo e.
Proof.
  intros s e r H. destruct s as [|c s]; cbn [exponent] in H; [injection H as <- <-; split; [reflexivity|now left]|].
  destruct (Ascii.eqb c "e" || Ascii.eqb c "E")%bool eqn:C; [|injection H as <- <-; split; [reflexivity|now left]].
  assert (L : String c "" = "e" \/ String c "" = "E") by (apply Bool.orb_true_iff in C as [C|C]; apply Ascii.eqb_eq in C; subst c; auto).
  destruct s as [|g s]; [discriminate|]. destruct (Ascii.eqb g "+" || Ascii.eqb g "-")%bool eqn:G; apply cons_some in H as [u [H ->]]; apply some_split in H as [E [D _]].
  - subst s. split; [reflexivity|]. right. exists (String c ""), (String g ""), u. split; [exact L|]. split; [|split; [exact D|reflexivity]].
    right. apply Bool.orb_true_iff in G as [G|G]; apply Ascii.eqb_eq in G; subst g; auto.
  - rewrite E. split; [reflexivity|]. right. exists (String c ""), "", u. split; [exact L|]. split; [now left|]. split; [exact D|reflexivity].
Qed.
Lemma expo_head : forall e r, expo e -> stops r -> no_digit (e ++ r) /\ match e ++ r with String c _ => Ascii.eqb c "." = false | EmptyString => True end.
Proof.
  intros e r [ -> |(l & g & x & L & _ & _ & ->)] S; [cbn [append]; destruct r; [easy|split; apply S]|]. destruct L as [ -> | -> ]; split; reflexivity.
Qed.
Lemma fraction_app : forall f s, frac f -> no_digit s -> match s with String c _ => Ascii.eqb c "." = false | EmptyString => True end -> fraction (f ++ s) = Some (f, s).
Proof.
  intros f s [ -> |[x [D ->]]] N P.
  - cbn [append]. destruct s as [|c s]; [reflexivity|]. cbn [fraction]. now rewrite P.
  - cbn [append fraction]. cbn [Ascii.eqb Bool.eqb]. now rewrite some_app.
Qed.
Lemma fraction_split : forall s f r, fraction s = Some (f, r) -> s = f ++ r /\ frac f.
Proof.
  intros s f r H. destruct s as [|c s]; cbn [fraction] in H; [injection H as <- <-; split; [reflexivity|now left]|].
  destruct (Ascii.eqb_spec c ".") as [ -> |]; [|injection H as <- <-; split; [reflexivity|now left]].
  apply cons_some in H as [u [H ->]]. apply some_split in H as [ -> [D _]]. split; [reflexivity|]. right. eauto.
Qed.
Lemma frac_head : forall f s, frac f -> no_digit s -> no_digit (f ++ s).
Proof. intros f s [ -> |[x [_ ->]]] N; [exact N|reflexivity]. Qed.
Lemma integer_app : forall i s, whole i -> no_digit s -> integer_part (i ++ s) = Some (i, s).
Proof.
  intros i s [[D0 D] Z] N. destruct i as [|c i]; [now elim D0|].
  assert (C : is_digit c = true) by (apply D; cbn; now rewrite Ascii.eqb_refl).
  destruct (Ascii.eqb_spec c "0") as [ -> |C0].
  - destruct Z as [[= ->]|Z]; [|cbn in Z; discriminate]. cbn [append integer_part]. cbn [Ascii.eqb Bool.eqb]. destruct s as [|e s]; [reflexivity|]. cbn in N. now rewrite N.
  - cbn [append integer_part]. destruct (Ascii.eqb_spec c "0"); [contradiction|]. rewrite C. f_equal. apply (take_app (String c i) s); [right; split; [discriminate|exact D]|exact N].
Qed.
Lemma integer_split : forall s i r, integer_part s = Some (i, r) -> s = i ++ r /\ whole i.
Proof.
  intros s i r H. destruct s as [|c s]; [discriminate|]. cbn [integer_part] in H. destruct (Ascii.eqb_spec c "0") as [ -> |C0].
  - assert (H' : Some ("0", s) = Some (i, r)) by (destruct s as [|e s]; [exact H|destruct (is_digit e); [discriminate|exact H]]). injection H' as <- <-. split; [reflexivity|].
    split; [|now left]. apply digits_cons. split; [reflexivity|now left].
  - destruct (is_digit c) eqn:C; [|discriminate]. assert (H' : take_digits (String c s) = (i, r)) by congruence. clear H. rename H' into H. destruct (take_split _ _ _ H) as [E [D _]]. cbn [take_digits] in H. rewrite C in H. destruct (take_digits s) as [d q].
    injection H as <- <-. split; [exact E|]. split; [now destruct D|]. right. cbn [starts_with]. destruct (Ascii.eqb_spec "0" c) as [ <- |]; [now elim C0|reflexivity].
Qed.
Lemma lexeme_read : forall d, num_lexeme d -> exists m i f e, d = m ++ i ++ f ++ e /\ (m = "" \/ m = "-") /\ whole i /\ forall r, stops r -> number_text ((i ++ f ++ e) ++ r) = Some (i ++ f ++ e, r).
Proof.
  intros d [m i f e M W F E]. exists m, i, f, e. split; [reflexivity|]. split; [exact M|]. split; [exact W|]. intros r S.
  unfold number_text. rewrite !app_assoc_s. destruct (expo_head e r E S) as [N P].
  rewrite integer_app; [|exact W|now apply frac_head]. rewrite fraction_app; [|exact F|exact N|exact P]. now rewrite exponent_app.
Qed.
Lemma number_split : forall s t r, number_text s = Some (t, r) -> s = t ++ r /\ num_lexeme t /\ num_lexeme (String "-" t).
Proof.
  intros s t r. unfold number_text. destruct (integer_part s) as [[i r1]|] eqn:Ei; [|discriminate]. destruct (fraction r1) as [[f r2]|] eqn:Ef; [|discriminate].
  destruct (exponent r2) as [[e r3]|] eqn:Ee; [|discriminate]. intros [= <- <-].
  apply integer_split in Ei as [ -> W]. apply fraction_split in Ef as [ -> F]. apply exponent_split in Ee as [ -> E]. split; [now rewrite !app_assoc_s|].
  split; [apply (nl "" i f e); auto|apply (nl "-" i f e); auto].
Qed.

(** ** Values *)
Section Values.
Variable number_of : string -> option Z.
Variable collect : list (string * json) -> list (string * json).
Notation text := (text number_of collect).
Notation elements := (elements number_of collect).
Notation members := (members number_of collect).
Notation parse_value := (parse_value number_of collect).
Notation parse_items := (parse_items number_of collect).
Notation parse_members := (parse_members number_of collect).

Lemma value_eq : forall fuel depth s, parse_value (S fuel) depth s =
      match skip s with
      | EmptyString => None
      | String c r =>
          if Ascii.eqb c "n" then match ident "ull" r with Some r => Some (JNull, r) | None => None end
          else if Ascii.eqb c "t" then match ident "rue" r with Some r => Some (JBool true, r) | None => None end
          else if Ascii.eqb c "f" then match ident "alse" r with Some r => Some (JBool false, r) | None => None end
          else if Ascii.eqb c "-" then match number_text r with Some (t, r) => number_value number_of (String "-" t) r | None => None end
          else if is_digit c then match number_text (String c r) with Some (t, r) => number_value number_of t r | None => None end
          else if Ascii.eqb c """" then match parse_str r with Some (t, r) => Some (JStr t, r) | None => None end
          else if Ascii.eqb c "[" then
            match depth with
            | S (S depth) =>
                match skip r with
                | String d r' => if Ascii.eqb d "]" then Some (JArr [], r')
                                 else match parse_value fuel (S depth) r with
                                      | Some (v, r) => match parse_items fuel (S depth) r with Some (l, r) => Some (JArr (v :: l), r) | None => None end
                                      | None => None
                                      end
                | EmptyString => None
                end
            | _ => None
            end
          else if Ascii.eqb c "{" then
            match depth with
            | S (S depth) =>
                match skip r with
                | String d r' => if Ascii.eqb d "}" then Some (JObj (collect []), r')
                                 else match parse_members fuel (S depth) r with Some (l, r) => Some (JObj (collect l), r) | None => None end
                | EmptyString => None
                end
            | _ => None
            end
          else None
      end.
Proof. reflexivity. Qed.
Lemma items_eq : forall fuel depth s, parse_items (S fuel) depth s =
      match skip s with
      | String c r =>
          if Ascii.eqb c "]" then Some ([], r)
          else if Ascii.eqb c "," then
            match parse_value fuel depth r with
            | Some (v, r) => match parse_items fuel depth r with Some (l, r) => Some (v :: l, r) | None => None end
            | None => None
            end
          else None
      | EmptyString => None
      end.
Proof. reflexivity. Qed.
Lemma members_eq : forall fuel depth s, parse_members (S fuel) depth s =
      match skip s with
      | String c r =>
          if Ascii.eqb c """" then
            match parse_str r with
            | Some (k, r) =>
                match skip r with
                | String c r =>
                    if Ascii.eqb c ":" then
                      match parse_value fuel depth r with
                      | Some (v, r) =>
                          match skip r with
                          | String c r =>
                              if Ascii.eqb c "}" then Some ([(k, v)], r)
                              else if Ascii.eqb c "," then match parse_members fuel depth r with Some (l, r) => Some ((k, v) :: l, r) | None => None end
                              else None
                          | EmptyString => None
                          end
                      | None => None
                      end
                    else None
                | EmptyString => None
                end
            | None => None
            end
          else None
      | EmptyString => None
      end.
Proof. reflexivity. Qed.

Scheme text_mut := Minimality for S_Json.text Sort Prop
  with elements_mut := Minimality for S_Json.elements Sort Prop
  with members_mut := Minimality for S_Json.members Sort Prop.
Combined Scheme text_all from text_mut, elements_mut, members_mut.

Lemma digit_not : forall c, is_digit c = true -> is_blank c = false /\ Ascii.eqb c "n" = false /\ Ascii.eqb c "t" = false /\ Ascii.eqb c "f" = false /\ Ascii.eqb c "-" = false /\ Ascii.eqb c "]" = false /\ Ascii.eqb c "}" = false.
Proof.
  intros c H. unfold is_blank. repeat split; try (apply Bool.not_true_is_false; intros E; apply Ascii.eqb_eq in E; subst c; discriminate H).
  apply Bool.not_true_is_false. rewrite !Bool.orb_true_iff, !Ascii.eqb_eq. intros E. repeat (destruct E as [E|E]); subst c; discriminate H.
Qed.
Lemma whole_head : forall i, whole i -> exists c x, i = String c x /\ is_digit c = true.
Proof. intros i [[N D] _]. destruct i as [|c x]; [now elim N|]. exists c, x. split; [reflexivity|]. apply D. cbn. now rewrite Ascii.eqb_refl. Qed.
Lemma text_head : forall n v d, text n v d -> exists c x, d = String c x /\ is_blank c = false /\ Ascii.eqb c "]" = false /\ Ascii.eqb c "}" = false.
Proof.
  intros n v d H. destruct H as [n|n|n|n d z L _|n t d [_ [e [_ ->]]]|n w _|n l d _ _|n w _|n l d _ _]; try (eexists _, _; repeat split; fail).
  destruct L as [m i f e M W _ _]. destruct (whole_head i W) as (c & x & -> & C). destruct (digit_not c C) as (B & _ & _ & _ & _ & X & Y).
  destruct M as [ -> | -> ]; eexists _, _; repeat split; auto.
Qed.
Lemma stops_blank : forall w r, blank w -> stops r -> stops (w ++ r).
Proof.
  intros [|c w] r B S; [exact S|]. apply blank_cons in B as [B _]. apply blank_is in B. cbn in B. repeat (destruct B as [ <- |B]; [repeat split|]). destruct B.
Qed.

Lemma value_step : forall f n w c r, blank w -> is_blank c = false -> parse_value (S f) n (w ++ String c r) = parse_value (S f) n (String c r).
Proof. intros f n w c r B C. rewrite !value_eq. rewrite (skip_to w c r B C), (skip_head c r C). reflexivity. Qed.

Ltac len := repeat (cbn [append String.length] in *; rewrite ?length_app_s in * ); lia.
Ltac flat := repeat progress (rewrite ?app_assoc_s in *; cbn [append] in * ).
Lemma value_all :
  (forall n v d, text n v d -> forall fuel w r, blank w -> (forall z, v = JNum z -> stops r) -> (String.length (w ++ d ++ r) < fuel)%nat -> parse_value fuel (S n) (w ++ d ++ r) = Some (v, r)) /\
  (forall n l d, elements n l d -> forall fuel r, (String.length (d ++ "]" ++ r) < fuel)%nat ->
     (exists c x, skip (d ++ "]" ++ r) = String c x /\ Ascii.eqb c "]" = false) /\
     exists v l' r1, l = v :: l' /\ parse_value fuel (S n) (d ++ "]" ++ r) = Some (v, r1) /\ parse_items fuel (S n) r1 = Some (l', r)) /\
  (forall n l d, members n l d -> forall fuel r, (String.length (d ++ "}" ++ r) < fuel)%nat ->
     (exists c x, skip (d ++ "}" ++ r) = String c x /\ Ascii.eqb c "}" = false) /\
     parse_members fuel (S n) (d ++ "}" ++ r) = Some (l, r)).
Proof.
  apply text_all.
  - intros n [|fuel] w r B _ L; [lia|]. cbn [append]. rewrite value_step by easy. reflexivity.
  - intros n [|fuel] w r B _ L; [lia|]. cbn [append]. rewrite value_step by easy. reflexivity.
  - intros n [|fuel] w r B _ L; [lia|]. cbn [append]. rewrite value_step by easy. reflexivity.
  - intros n d z X Z [|fuel] w r B S L; [lia|]. specialize (S z eq_refl). destruct (lexeme_read d X) as (m & i & f & e & E & M & W & R). specialize (R r S).
    destruct (whole_head i W) as (c & x & Ei & C). destruct (digit_not c C) as (Cb & Cn & Ct & Cf & Cm & _). destruct M as [ -> | -> ]; cbn [append] in E.
    + rewrite <- E in R. assert (D : d ++ r = String c (x ++ f ++ e ++ r)) by (rewrite E, Ei; cbn [append]; now rewrite !app_assoc_s). rewrite D in *.
      rewrite value_step by assumption. rewrite value_eq. rewrite (skip_head c _ Cb), Cn, Ct, Cf, Cm, C, R. unfold number_value. now rewrite Z.
    + rewrite E in Z |- *. cbn [append]. rewrite value_step by easy. rewrite value_eq. rewrite skip_head by reflexivity. cbn [Ascii.eqb Bool.eqb]. rewrite R. unfold number_value. now rewrite Z.
  - intros n t d Q [|fuel] w r B _ L; [lia|]. destruct (quoted_read t d Q) as [e [ -> R]]. cbn [append]. rewrite value_step by easy. rewrite value_eq. rewrite skip_head by reflexivity.
    cbn [Ascii.eqb Bool.eqb is_digit]. change (is_digit """") with false. cbn iota. now rewrite R.
  - intros n w' B' [|fuel] w r B _ L; [lia|]. cbn [append]. rewrite value_step by easy. rewrite value_eq. rewrite skip_head by reflexivity. cbn [Ascii.eqb Bool.eqb]. change (is_digit "[") with false. cbn iota.
    rewrite app_assoc_s. cbn [append]. rewrite skip_to by easy. reflexivity.
  - intros n l d _ _ IH [|fuel] w r B _ L; [lia|]. cbn [append] in *. rewrite value_step by easy. rewrite value_eq. rewrite skip_head by reflexivity. cbn [Ascii.eqb Bool.eqb]. change (is_digit "[") with false. cbn iota.
    rewrite app_assoc_s in *. destruct (IH fuel r) as [(c & x & K & C) (v & l' & r1 & -> & P & Q)]; [len|].
    cbn [append] in *. rewrite K, C, P. cbv beta iota. rewrite Q. reflexivity.
  - intros n w' B' [|fuel] w r B _ L; [lia|]. cbn [append]. rewrite value_step by easy. rewrite value_eq. rewrite skip_head by reflexivity. cbn [Ascii.eqb Bool.eqb]. change (is_digit "{") with false. cbn iota.
    rewrite app_assoc_s. cbn [append]. rewrite skip_to by easy. reflexivity.
  - intros n l d _ _ IH [|fuel] w r B _ L; [lia|]. cbn [append] in *. rewrite value_step by easy. rewrite value_eq. rewrite skip_head by reflexivity. cbn [Ascii.eqb Bool.eqb]. change (is_digit "{") with false. cbn iota.
    rewrite app_assoc_s in *. destruct (IH fuel r) as [(c & x & K & C) P]; [len|].
    cbn [append] in *. rewrite K, C, P. reflexivity.
  - (* the last element *)
    intros n w v d w' B T IH B' fuel r L. destruct (text_head n v d T) as (c & x & Ed & Cb & Cx & _). rewrite ?app_assoc_s in *. split.
    { exists c, (x ++ w' ++ "]" ++ r). split; [|exact Cx]. rewrite Ed. cbn [append]. now apply skip_to. }
    exists v, [], (w' ++ "]" ++ r). split; [reflexivity|]. split.
    + apply IH; [exact B|intros; apply stops_blank; [exact B'|repeat split]|exact L].
    + destruct fuel as [|fuel]; [lia|]. rewrite items_eq. cbn [append]. rewrite skip_to by easy. reflexivity.
  - intros n w v d w' l e B T IH B' El IHe fuel r L. destruct (text_head n v d T) as (c & x & Ed & Cb & Cx & _). rewrite ?app_assoc_s in *. split.
    { exists c, (x ++ w' ++ "," ++ e ++ "]" ++ r). split; [|exact Cx]. rewrite Ed. cbn [append]. rewrite skip_to by easy. now rewrite ?app_assoc_s. }
    exists v, l, (w' ++ "," ++ e ++ "]" ++ r). split; [reflexivity|]. split.
    + cbn [append] in *. rewrite ?app_assoc_s in *. apply IH; [exact B|intros; apply stops_blank; [exact B'|repeat split]|]. exact L.
    + destruct fuel as [|fuel]; [lia|]. rewrite items_eq. cbn [append]. rewrite skip_to by easy. cbn [Ascii.eqb Bool.eqb].
      cbn [append] in *. rewrite ?app_assoc_s in *.
      destruct (IHe fuel r) as [_ (v1 & l' & r1 & -> & P & Q)]; [len|]. cbn [append] in *. rewrite P. cbv beta iota. now rewrite Q.
  - (* the last member *)
    intros n w k q w1 w2 v d w3 B Q B1 B2 T IH B3 fuel r L. destruct (quoted_read k q Q) as [e [ -> R]]. flat. split.
    { eexists _, _. split; [now apply skip_to|reflexivity]. }
    destruct fuel as [|fuel]; [lia|]. rewrite members_eq. rewrite skip_to by easy. cbn [Ascii.eqb Bool.eqb]. rewrite R. cbv beta iota. rewrite skip_to by easy. cbn [Ascii.eqb Bool.eqb].
    rewrite IH; [|exact B2|intros; apply stops_blank; [exact B3|repeat split]|len]. cbv beta iota. rewrite skip_to by easy. reflexivity.
  - intros n w k q w1 w2 v d w3 l m B Q B1 B2 T IH B3 El IHe fuel r L. destruct (quoted_read k q Q) as [e [ -> R]]. flat. split.
    { eexists _, _. split; [now apply skip_to|reflexivity]. }
    destruct fuel as [|fuel]; [lia|]. rewrite members_eq. rewrite skip_to by easy. cbn [Ascii.eqb Bool.eqb]. rewrite R. cbv beta iota. rewrite skip_to by easy. cbn [Ascii.eqb Bool.eqb].
    rewrite IH; [|exact B2|intros; apply stops_blank; [exact B3|repeat split]|len]. cbv beta iota. rewrite skip_to by easy. cbn [Ascii.eqb Bool.eqb].
    destruct (IHe fuel r) as [_ P]; [len|]. now rewrite P.
Qed.

Lemma values_read : forall fuel,
  (forall n s v r, parse_value fuel (S n) s = Some (v, r) -> exists w d, blank w /\ text n v d /\ s = w ++ d ++ r) /\
  (forall n s l r, parse_items fuel (S n) s = Some (l, r) -> exists w, blank w /\ ((l = [] /\ s = w ++ "]" ++ r) \/ exists e, elements n l e /\ s = w ++ "," ++ e ++ "]" ++ r)) /\
  (forall n s l r, parse_members fuel (S n) s = Some (l, r) -> l <> [] /\ exists e, members n l e /\ s = e ++ "}" ++ r).
Proof.
  induction fuel as [|fuel (IHv & IHi & IHm)]; [repeat split; discriminate|]. split; [|split]; intros n s.
  - intros v r H. rewrite value_eq in H. destruct (skip_split s) as [w [B E]]. destruct (skip s) as [|c x] eqn:K; [discriminate|].
    cut (exists d, text n v d /\ String c x = d ++ r). { intros [d [T X]]. exists w, d. rewrite <- X. auto. }
    clear E B w. destruct (Ascii.eqb_spec c "n") as [ -> |_].
    { destruct (ident "ull" x) as [y|] eqn:I; [|discriminate]. apply ident_some in I as ->. injection H as <- <-. exists "null". split; [constructor|reflexivity]. }
    destruct (Ascii.eqb_spec c "t") as [ -> |_].
    { destruct (ident "rue" x) as [y|] eqn:I; [|discriminate]. apply ident_some in I as ->. injection H as <- <-. exists "true". split; [constructor|reflexivity]. }
    destruct (Ascii.eqb_spec c "f") as [ -> |_].
    { destruct (ident "alse" x) as [y|] eqn:I; [|discriminate]. apply ident_some in I as ->. injection H as <- <-. exists "false". split; [constructor|reflexivity]. }
    destruct (Ascii.eqb_spec c "-") as [ -> |_].
    { destruct (number_text x) as [[t y]|] eqn:I; [|discriminate]. apply number_split in I as [ -> [_ L]]. unfold number_value in H. destruct (number_of (String "-" t)) as [z|] eqn:Z; [|discriminate]. injection H as <- <-.
      exists (String "-" t). split; [now constructor|reflexivity]. }
    destruct (is_digit c) eqn:Dc.
    { destruct (number_text (String c x)) as [[t y]|] eqn:I; [|discriminate]. apply number_split in I as [ -> [L _]]. unfold number_value in H. destruct (number_of t) as [z|] eqn:Z; [|discriminate]. injection H as <- <-.
      exists t. split; [now constructor|reflexivity]. }
    destruct (Ascii.eqb_spec c """") as [ -> |_].
    { destruct (parse_str x) as [[t y]|] eqn:I; [|discriminate]. injection H as <- <-. apply parse_quoted in I as [d [Q ->]]. exists d. split; [now constructor|reflexivity]. }
    destruct (Ascii.eqb_spec c "[") as [ -> |_].
    { destruct n as [|n]; [discriminate|]. destruct (skip_split x) as [w [B E]]. destruct (skip x) as [|d y] eqn:Kx; [discriminate|]. destruct (Ascii.eqb_spec d "]") as [ -> |_].
      - injection H as <- <-. exists ("[" ++ w ++ "]"). split; [now constructor|]. rewrite E. cbn [append]. now rewrite app_assoc_s.
      - destruct (parse_value fuel (S n) x) as [[v1 r1]|] eqn:P; [|discriminate]. destruct (parse_items fuel (S n) r1) as [[l r2]|] eqn:Q; [|discriminate]. injection H as <- <-.
        apply IHv in P as (w1 & d1 & B1 & T1 & ->). apply IHi in Q as (w2 & B2 & [[ -> -> ]|(e & El & -> )]).
        + exists ("[" ++ (w1 ++ d1 ++ w2) ++ "]"). split; [constructor; [discriminate|now constructor]|]. cbn [append]. now rewrite !app_assoc_s.
        + exists ("[" ++ (w1 ++ d1 ++ w2 ++ "," ++ e) ++ "]"). split; [constructor; [discriminate|now constructor]|]. cbn [append]. repeat (rewrite !app_assoc_s; cbn [append]). reflexivity. }
    destruct (Ascii.eqb_spec c "{") as [ -> |_]; [|discriminate].
    destruct n as [|n]; [discriminate|]. destruct (skip_split x) as [w [B E]]. destruct (skip x) as [|d y] eqn:Kx; [discriminate|]. destruct (Ascii.eqb_spec d "}") as [ -> |_].
    + injection H as <- <-. exists ("{" ++ w ++ "}"). split; [now constructor|]. rewrite E. cbn [append]. now rewrite app_assoc_s.
    + destruct (parse_members fuel (S n) x) as [[l r2]|] eqn:Q; [|discriminate]. injection H as <- <-. apply IHm in Q as (N & e & M & ->).
      exists ("{" ++ e ++ "}"). split; [now constructor|]. cbn [append]. now rewrite !app_assoc_s.
  - intros l r H. rewrite items_eq in H. destruct (skip_split s) as [w [B E]]. destruct (skip s) as [|c x] eqn:K; [discriminate|]. exists w. split; [exact B|]. rewrite E.
    destruct (Ascii.eqb_spec c "]") as [ -> |_]; [injection H as <- <-; now left|]. destruct (Ascii.eqb_spec c ",") as [ -> |_]; [|discriminate]. right.
    destruct (parse_value fuel (S n) x) as [[v1 r1]|] eqn:P; [|discriminate]. destruct (parse_items fuel (S n) r1) as [[l' r2]|] eqn:Q; [|discriminate]. injection H as <- <-.
    apply IHv in P as (w1 & d1 & B1 & T1 & ->). apply IHi in Q as (w2 & B2 & [[ -> -> ]|(e & El & -> )]).
    + exists (w1 ++ d1 ++ w2). split; [now constructor|]. cbn [append]. now rewrite !app_assoc_s.
    + exists (w1 ++ d1 ++ w2 ++ "," ++ e). split; [now constructor|]. cbn [append]. repeat (rewrite !app_assoc_s; cbn [append]). reflexivity.
  - intros l r H. rewrite members_eq in H. destruct (skip_split s) as [w [B E]]. destruct (skip s) as [|c x] eqn:K; [discriminate|]. rewrite E. clear E K s.
    destruct (Ascii.eqb_spec c """") as [ -> |_]; [|discriminate]. destruct (parse_str x) as [[k y]|] eqn:Q; [|discriminate]. apply parse_quoted in Q as [q [Q ->]].
    destruct (skip_split y) as [w1 [B1 E]]. destruct (skip y) as [|c y'] eqn:K; [discriminate|]. destruct (Ascii.eqb_spec c ":") as [ -> |_]; [|discriminate]. rewrite E. clear E K y.
    destruct (parse_value fuel (S n) y') as [[v z]|] eqn:P; [|discriminate]. apply IHv in P as (w2 & d & B2 & T & ->).
    destruct (skip_split z) as [w3 [B3 E]]. destruct (skip z) as [|c z'] eqn:K; [discriminate|]. rewrite E. clear E K z. destruct (Ascii.eqb_spec c "}") as [ -> |_].
    + injection H as <- <-. split; [discriminate|]. exists (w ++ q ++ w1 ++ ":" ++ w2 ++ d ++ w3). split; [now constructor|]. cbn [append]. repeat (rewrite !app_assoc_s; cbn [append]). reflexivity.
    + destruct (Ascii.eqb_spec c ",") as [ -> |_]; [|discriminate]. destruct (parse_members fuel (S n) z') as [[l' r2]|] eqn:P; [|discriminate]. injection H as <- <-. apply IHm in P as (N & e & M & ->).
      split; [discriminate|]. exists (w ++ q ++ w1 ++ ":" ++ w2 ++ d ++ w3 ++ "," ++ e). split; [now constructor|]. cbn [append]. repeat (rewrite !app_assoc_s; cbn [append]). reflexivity.
Qed.

Lemma object_head : forall n m o, text n (JObj m) o -> exists x, o = String "{" x.
Proof. intros n m o H. inversion H; subst; eexists; reflexivity. Qed.
Lemma slice_text : forall d m, from_slice number_of collect d = Some m <-> metadata_text number_of collect m d.
Proof.
  intros d m. unfold from_slice. split.
  - destruct (skip d) as [|c x]; [discriminate|]. destruct (Ascii.eqb c "{"); [|discriminate].
    destruct (parse_value (S (String.length d)) 128 d) as [[v r]|] eqn:P; [|discriminate]. destruct v as [| | | | |l]; try discriminate. destruct (skip r) eqn:K; [|discriminate]. intros [= <-].
    apply (proj1 (values_read _)) in P as (w & o & B & T & E). apply skip_nil in K. exists w, o, r. auto.
  - intros (w & o & w' & B & B' & T & ->). destruct (object_head _ _ _ T) as [x E].
    assert (K : skip (w ++ o ++ w') = String "{" (x ++ w')) by (rewrite E; cbn [append]; now apply skip_to). rewrite K. cbn [Ascii.eqb Bool.eqb].
    rewrite (proj1 value_all _ _ _ T); [|exact B|discriminate|lia]. apply skip_nil in B'. now rewrite B'.
Qed.
(** A text that is a whole object with something after it: the value ends where the object ends. *)
Lemma slice_prefix : forall d m p q m', metadata_text number_of collect m d -> d = p ++ q -> from_slice number_of collect p = Some m' -> m' = m /\ blank q.
Proof.
  intros d m p q m' (w & o & w' & B & B' & T & E) D P. apply slice_text in P as (w1 & o1 & w1' & B1 & B1' & T1 & ->).
  rewrite !app_assoc_s in D. set (f := S (String.length d)).
  assert (R1 : parse_value f 128 d = Some (JObj m, w')) by (rewrite E; apply (proj1 value_all _ _ _ T); [exact B|discriminate|rewrite <- E; unfold f; lia]).
  assert (R2 : parse_value f 128 d = Some (JObj m', w1' ++ q)) by (rewrite D; apply (proj1 value_all _ _ _ T1); [exact B1|discriminate|rewrite <- D; unfold f; lia]).
  rewrite R1 in R2. injection R2 as <- X. split; [reflexivity|]. subst w'. intros c C. apply B'. rewrite has_char_app, C. apply Bool.orb_true_r.
Qed.
End Values.
