(** Lemmas about UTF-8. *)
From Coq Require Import ZArith Lia ZifyN.
From Verif Require Import Base Str M_Utf8 S_Utf8 L_Str.
Local Open Scope string_scope.
Ltac Zify.zify_post_hook ::= Z.to_euclidean_division_equations.

Lemma byte_range : forall lo hi x, (x < 256)%N -> byte_in lo hi (ascii_of_N x) = (N.leb lo x && N.leb x hi)%bool.
Proof. intros lo hi x H. unfold byte_in. now rewrite N_ascii_embedding. Qed.
Ltac decide_bytes :=
  repeat match goal with
  | |- context [N.leb ?a ?b] => first [replace (N.leb a b) with true by (symmetry; apply N.leb_le; lia)|replace (N.leb a b) with false by (symmetry; apply N.leb_gt; lia)|let E := fresh "E" in destruct (N.leb_spec a b) as [E|E]]
  end; cbn [andb orb]; try lia; try reflexivity.
Lemma utf8_step : forall a r, utf8_valid (String a r) =
  if byte_in 0 127 a then utf8_valid r
  else match r with
       | "" => false
       | String b r2 =>
           if byte_in 194 223 a && cont_byte b then utf8_valid r2
           else match r2 with
                | "" => false
                | String c r3 =>
                    if utf8_3 a b && cont_byte c then utf8_valid r3
                    else match r3 with "" => false | String d r4 => utf8_4 a b && cont_byte c && cont_byte d && utf8_valid r4 end
                end
       end.
Proof. reflexivity. Qed.
Lemma utf8_valid_char : forall n r, scalar n -> utf8_valid (utf8 n ++ r) = utf8_valid r.
Proof.
  intros n r H. unfold scalar in H. unfold utf8. destruct (N.ltb_spec n 128) as [L|L]; [|destruct (N.ltb_spec n 2048) as [L2|L2]; [|destruct (N.ltb_spec n 65536) as [L3|L3]]].
  - cbn [append]. rewrite utf8_step; cbv beta iota. rewrite byte_range by lia. decide_bytes.
  - cbn [append]. rewrite utf8_step; cbv beta iota. unfold cont_byte. repeat rewrite byte_range by lia. decide_bytes.
  - cbn [append]. rewrite utf8_step; cbv beta iota. unfold utf8_3, cont_byte. repeat rewrite byte_range by lia. decide_bytes.
  - cbn [append]. rewrite utf8_step; cbv beta iota. unfold utf8_3, utf8_4, cont_byte. repeat rewrite byte_range by lia. decide_bytes.
Qed.
Lemma characters_valid : forall l, Forall scalar l -> utf8_valid (characters l) = true.
Proof. induction 1 as [|n l H _ IH]; [reflexivity|]. unfold characters. cbn [fold_right]. rewrite utf8_valid_char by assumption. exact IH. Qed.

Lemma byte_of : forall lo hi c, byte_in lo hi c = true -> (lo <= N_of_ascii c <= hi)%N.
Proof. intros lo hi c H. unfold byte_in in H. apply andb_prop in H as [A B]. apply N.leb_le in A, B. auto. Qed.
Lemma byte_ascii : forall c x, x = N_of_ascii c -> ascii_of_N x = c.
Proof. intros c x ->. apply ascii_N_embedding. Qed.
Ltac in_range := repeat match goal with
  | H : _ && _ = true |- _ => apply andb_prop in H; destruct H
  | H : _ || _ = true |- _ => apply Bool.orb_prop in H; destruct H
  | H : byte_in _ _ _ = true |- _ => apply byte_of in H
  end.
Ltac pick_form := repeat match goal with |- context [N.ltb ?a ?b] => first [replace (N.ltb a b) with true by (symmetry; apply N.ltb_lt; lia)|replace (N.ltb a b) with false by (symmetry; apply N.ltb_ge; lia)] end.
Lemma valid_text : forall s, utf8_valid s = true -> is_text s.
Proof.
  assert (A : forall k s, (String.length s <= k)%nat -> utf8_valid s = true -> is_text s).
  { assert (C : forall n r, scalar n -> is_text r -> is_text (utf8 n ++ r)).
    { intros n r H [l [F ->]]. exists (n :: l). split; [now constructor|reflexivity]. }
    induction k as [|k IH]; intros [|a r] L V; try (exists []; split; [constructor|reflexivity]); cbn [String.length] in L; [lia|]. cbn [utf8_valid] in V.
    destruct (byte_in 0 127 a) eqn:B1.
    - apply byte_of in B1. replace (String a r) with (utf8 (N_of_ascii a) ++ r); [apply C; [unfold scalar; lia|apply IH; [lia|exact V]]|].
      unfold utf8. pick_form. cbn [append]. now rewrite ascii_N_embedding.
    - destruct r as [|b r2]; [discriminate V|]. cbn [String.length] in L. destruct (byte_in 194 223 a && cont_byte b)%bool eqn:B2.
      + unfold cont_byte in B2. in_range. set (n := ((N_of_ascii a - 192) * 64 + (N_of_ascii b - 128))%N).
        replace (String a (String b r2)) with (utf8 n ++ r2); [apply C; [unfold scalar, n; lia|apply IH; [lia|exact V]]|].
        unfold utf8. pick_form. cbn [append]. rewrite (byte_ascii a), (byte_ascii b); [reflexivity| |]; unfold n; lia.
      + destruct r2 as [|c r3]; [discriminate V|]. cbn [String.length] in L. destruct (utf8_3 a b && cont_byte c)%bool eqn:B3.
        * clear B1 B2. apply andb_prop in B3 as [B3 B4]. unfold cont_byte in *. assert (R : (224 <= N_of_ascii a <= 239 /\ 128 <= N_of_ascii b <= 191 /\ 128 <= N_of_ascii c <= 191
            /\ (N_of_ascii a = 224 -> 160 <= N_of_ascii b) /\ (N_of_ascii a = 237 -> N_of_ascii b <= 159))%N).
          { unfold utf8_3, cont_byte in B3. in_range; lia. }
          clear B3 B4. set (n := ((N_of_ascii a - 224) * 4096 + (N_of_ascii b - 128) * 64 + (N_of_ascii c - 128))%N).
          replace (String a (String b (String c r3))) with (utf8 n ++ r3); [apply C; [unfold scalar, n; lia|apply IH; [lia|exact V]]|].
          unfold utf8. pick_form. cbn [append]. rewrite (byte_ascii a), (byte_ascii b), (byte_ascii c); [reflexivity| | |]; unfold n; lia.
        * destruct r3 as [|d r4]; [discriminate V|]. cbn [String.length] in L. clear B1 B2 B3.
          apply andb_prop in V as [V V']. apply andb_prop in V as [V Vd]. apply andb_prop in V as [V Vc]. unfold cont_byte in *.
          assert (R : (240 <= N_of_ascii a <= 244 /\ 128 <= N_of_ascii b <= 191 /\ 128 <= N_of_ascii c <= 191 /\ 128 <= N_of_ascii d <= 191
            /\ (N_of_ascii a = 240 -> 144 <= N_of_ascii b) /\ (N_of_ascii a = 244 -> N_of_ascii b <= 143))%N).
          { unfold utf8_4, cont_byte in V. in_range; lia. }
          clear V Vd Vc. set (n := ((N_of_ascii a - 240) * 262144 + (N_of_ascii b - 128) * 4096 + (N_of_ascii c - 128) * 64 + (N_of_ascii d - 128))%N).
          replace (String a (String b (String c (String d r4)))) with (utf8 n ++ r4); [apply C; [unfold scalar, n; lia|apply IH; [lia|exact V']]|].
          unfold utf8. pick_form. cbn [append]. rewrite (byte_ascii a), (byte_ascii b), (byte_ascii c), (byte_ascii d); [reflexivity| | | |]; unfold n; lia. }
  intros s. now apply (A (String.length s)).
Qed.
Lemma utf8_valid_spec : forall s, utf8_valid s = true <-> is_text s.
Proof. intros s. split; [apply valid_text|]. intros [l [F ->]]. now apply characters_valid. Qed.
(** The characters of a text are determined by it. *)
Lemma utf8_prefix : forall n m r r', scalar n -> scalar m -> utf8 n ++ r = utf8 m ++ r' -> n = m /\ r = r'.
Proof.
  assert (I : forall a b r r', (a < 256)%N -> (b < 256)%N -> String (ascii_of_N a) r = String (ascii_of_N b) r' -> a = b /\ r = r').
  { intros a b r r' A B E. injection E as E1 E2. split; [|exact E2]. rewrite <- (N_ascii_embedding a A), <- (N_ascii_embedding b B). now rewrite E1. }
  intros n m r r' Hn Hm E. unfold scalar in *. unfold utf8 in E.
  destruct (N.ltb_spec n 128) as [L|L]; [|destruct (N.ltb_spec n 2048) as [L2|L2]; [|destruct (N.ltb_spec n 65536) as [L3|L3]]];
  (destruct (N.ltb_spec m 128) as [K|K]; [|destruct (N.ltb_spec m 2048) as [K2|K2]; [|destruct (N.ltb_spec m 65536) as [K3|K3]]]); cbn [append] in E;
  repeat match type of E with String _ _ = String _ _ => let F := fresh "F" in apply I in E; [destruct E as [F E]|lia|lia] end; (split; [lia|first [exact E|exfalso; lia]]).
Qed.
Lemma utf8_some : forall n, utf8 n <> "".
Proof. intros n. unfold utf8. destruct (_ <? _)%N; [discriminate|]. destruct (_ <? _)%N; [discriminate|]. destruct (_ <? _)%N; discriminate. Qed.
Lemma characters_inj : forall l l', Forall scalar l -> Forall scalar l' -> characters l = characters l' -> l = l'.
Proof.
  induction l as [|n l IH]; intros [|m l'] H H' E; [reflexivity| | |]; unfold characters in E; cbn [fold_right] in E.
  - exfalso. apply (utf8_some m). destruct (utf8 m); [reflexivity|discriminate E].
  - exfalso. apply (utf8_some n). destruct (utf8 n); [reflexivity|discriminate E].
  - inversion H; inversion H'; subst. apply utf8_prefix in E as [ -> E]; [|assumption|assumption]. f_equal. now apply IH.
Qed.
(** A character of one byte ends what is before it. *)
Lemma utf8_cut : forall c b, byte_in 0 127 c = true -> forall a, utf8_valid (a ++ String c b) = (utf8_valid a && utf8_valid b)%bool.
Proof.
  intros c b C. assert (Z : forall lo hi, (128 <= lo)%N -> byte_in lo hi c = false).
  { intros lo hi L. apply byte_of in C. unfold byte_in. apply Bool.andb_false_iff. left. apply N.leb_gt. lia. }
  assert (Z3 : forall x, utf8_3 x c = false) by (intros x; unfold utf8_3, cont_byte; rewrite !Z by lia; now rewrite !Bool.andb_false_r).
  assert (Z4 : forall x, utf8_4 x c = false) by (intros x; unfold utf8_4, cont_byte; rewrite !Z by lia; now rewrite !Bool.andb_false_r).
  assert (ZC : cont_byte c = false) by (apply Z; lia).
  assert (A : forall k a, (String.length a <= k)%nat -> utf8_valid (a ++ String c b) = (utf8_valid a && utf8_valid b)%bool).
  { induction k as [|k IH]; intros [|x a] L; try (cbn [append]; rewrite utf8_step, C; reflexivity); cbn [String.length] in L; [lia|]. cbn [append].
    rewrite (utf8_step x (a ++ String c b)), (utf8_step x a). destruct (byte_in 0 127 x); [apply IH; lia|].
    destruct a as [|y a]; cbn [append].
    { rewrite ZC, Z3, Z4, Bool.andb_false_r. cbn [andb]. destruct b as [|d b]; [reflexivity|]. now destruct b. }
    cbn [String.length] in L. destruct (byte_in 194 223 x && cont_byte y)%bool; [apply IH; lia|]. destruct a as [|z a]; cbn [append].
    { rewrite ZC, Bool.andb_false_r. destruct b as [|d b]; [reflexivity|]. now rewrite Bool.andb_false_r. }
    cbn [String.length] in L. destruct (utf8_3 x y && cont_byte z)%bool; [apply IH; lia|]. destruct a as [|w a]; cbn [append].
    { now rewrite ZC, Bool.andb_false_r. }
    cbn [String.length] in L. rewrite IH by lia. now rewrite Bool.andb_assoc. }
  intros a. now apply (A (String.length a)).
Qed.
