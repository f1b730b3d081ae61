(** Lemmas for C77: Avro's binary form. *)
From Verif Require Import Base Str L_Str L_Base M_Utf8 M_Log M_Avro M_Datum S_Log S_Avro S_Datum L_Log L_Avro.
Local Open Scope string_scope.

(** ** Numbers *)
Lemma lor_high : forall i x k, (i < 2 ^ k)%N -> N.lor i (N.shiftl x k) = (i + x * 2 ^ k)%N.
Proof.
  intros i x k H.
  assert (D : N.land i (N.shiftl x k) = 0%N).
  { apply N.bits_inj. intros m. rewrite N.land_spec, N.bits_0. destruct (N.lt_ge_cases m k) as [L|L].
    - rewrite N.shiftl_spec_low by assumption. apply Bool.andb_false_r.
    - rewrite <- (N.mod_small i (2 ^ k)) by assumption. rewrite N.mod_pow2_bits_high by assumption. reflexivity. }
  rewrite <- N.lxor_lor, <- N.add_nocarry_lxor by assumption. now rewrite N.shiftl_mul_pow2.
Qed.
Lemma byte_back : forall n, (n < 256)%N -> N_of_ascii (ascii_of_N n) = n.
Proof. intros. now apply N_ascii_embedding. Qed.
Lemma low_bits : forall n, N.land n 127 = (n mod 128)%N.
Proof. intros n. change 127%N with (N.ones 7). now rewrite N.land_ones. Qed.
Lemma high_bit : forall n, N.shiftr n 7 = (n / 128)%N.
Proof. intros n. now rewrite N.shiftr_div_pow2. Qed.
Lemma groups_read : forall n d, groups n d -> forall more shift i rest, (0 < more)%nat -> (shift + 7 * N.of_nat more = 70)%N -> (i < 2 ^ shift)%N -> (n * 2 ^ shift < 2 ^ 64)%N ->
  decode_variable more shift i (d ++ rest) = Some (Some ((i + n * 2 ^ shift)%N, rest)).
Proof.
  intros n d G. induction G as [n L|n d L G IH]; intros more shift i rest M S I B; (destruct more as [|more]; [lia|]); cbn [append decode_variable].
  - rewrite byte_back, low_bits, high_bit by lia. rewrite (N.div_small n 128), (N.mod_small n 128) by assumption. cbn [N.eqb].
    rewrite N.mod_small by (now rewrite N.shiftl_mul_pow2). now rewrite lor_high.
  - assert (Md : (n mod 128 < 128)%N) by (apply N.mod_lt; lia). rewrite byte_back, low_bits, high_bit by lia.
    replace ((128 + n mod 128) / 128)%N with 1%N by (apply (N.div_unique _ _ _ (n mod 128)); lia). cbn [N.eqb].
    replace ((128 + n mod 128) mod 128)%N with (n mod 128)%N by (apply (N.mod_unique _ _ 1); lia).
    assert (E : n = (n mod 128 + 128 * (n / 128))%N) by (rewrite N.add_comm; apply N.div_mod; lia).
    assert (P : (0 < 2 ^ shift)%N) by (apply N.neq_0_lt_0, N.pow_nonzero; lia).
    assert (P7 : (2 ^ (shift + 7) = 128 * 2 ^ shift)%N) by (rewrite N.pow_add_r; change (2 ^ 7)%N with 128%N; lia).
    assert (E' : (n * 2 ^ shift = n mod 128 * 2 ^ shift + n / 128 * (128 * 2 ^ shift))%N) by (rewrite E at 1; ring).
    assert (M' : (n mod 128 * 2 ^ shift <= 127 * 2 ^ shift)%N) by (apply N.mul_le_mono_r; lia).
    rewrite N.shiftl_mul_pow2, N.mod_small by lia. rewrite <- N.shiftl_mul_pow2, lor_high by assumption.
    rewrite IH.
    + do 3 f_equal. rewrite P7. lia.
    + destruct more; [|lia]. assert (shift = 63%N) by lia. subst shift. change (2 ^ 64)%N with (2 * 2 ^ 63)%N in B. nia.
    + lia.
    + rewrite P7. lia.
    + rewrite P7. rewrite E' in B. revert B. generalize (n mod 128 * 2 ^ shift)%N (n / 128 * (128 * 2 ^ shift))%N. intros a b. lia.
Qed.
Lemma zigzag_range : forall z, long_range z -> (zigzag z < 2 ^ 64)%N.
Proof.
  intros z [L H]. unfold zigzag. assert (E : (2 ^ 64)%N = Z.to_N 18446744073709551616) by reflexivity. rewrite E.
  apply Z2N.inj_lt; destruct (Z.ltb_spec z 0); lia.
Qed.
Lemma number_zag : forall z d rest, number z d -> zag_i64 (d ++ rest) = ZNumber z rest.
Proof.
  intros z d rest [R G]. assert (B := zigzag_range z R). unfold zag_i64. rewrite (groups_read _ _ G) by (lia || (change (2 ^ 0)%N with 1%N; lia)).
  change (2 ^ 0)%N with 1%N. rewrite N.add_0_l, N.mul_1_r. f_equal. unfold zigzag in *. clear G B.
  assert (O1 : forall x, N.land x 1 = (x mod 2)%N) by (intros x; change 1%N with (N.ones 1); now rewrite N.land_ones).
  rewrite O1, N.shiftr_div_pow2. change (2 ^ 1)%N with 2%N.
  destruct (Z.ltb_spec z 0) as [L|L].
  - assert (X : Z.to_N (-2 * z - 1) = (2 * Z.to_N (- z - 1) + 1)%N).
    { apply N2Z.inj. rewrite N2Z.inj_add, N2Z.inj_mul, !Z2N.id by lia. cbn [Z.of_N]. lia. }
    rewrite X. set (y := Z.to_N (- z - 1)) in *.
    replace ((2 * y + 1) mod 2)%N with 1%N by (apply (N.mod_unique _ _ y); lia).
    replace ((2 * y + 1) / 2)%N with y by (apply (N.div_unique _ _ _ 1); lia). cbn [N.eqb]. unfold y. rewrite Z2N.id; lia.
  - rewrite Z2N.inj_mul by lia. change (Z.to_N 2) with 2%N. rewrite N.mul_comm, N.mod_mul, N.div_mul by lia. cbn [N.eqb]. rewrite Z2N.id; lia.
Qed.
Lemma number_long : forall z d rest, number z d -> long (d ++ rest) = Some (z, rest).
Proof. intros z d rest H. unfold long. now rewrite (number_zag z). Qed.
Lemma number_int : forall z d rest, int_range z -> number z d -> int (d ++ rest) = Some (z, rest).
Proof.
  intros z d rest [L H] N. unfold int. rewrite (number_long z) by assumption.
  now rewrite (proj2 (Z.leb_le _ _) L), (proj2 (Z.leb_le _ _) H).
Qed.
Lemma safe_of : forall n, (Z.of_nat n <= 536870912)%Z -> safe_len (Z.of_nat n) = Some (N.of_nat n).
Proof.
  intros n H. unfold safe_len. change (Z.of_N MAX_ALLOCATION) with 536870912%Z. rewrite (proj2 (Z.leb_le _ _) (Nat2Z.is_nonneg n)), (proj2 (Z.leb_le _ _) H).
  cbn [andb]. now rewrite <- nat_N_Z, N2Z.id.
Qed.
Lemma size_read : forall n d rest, size n d -> decode_len (d ++ rest) = Some (N.of_nat n, rest).
Proof. intros n d rest [L H]. unfold decode_len. now rewrite (number_long _ _ _ H), safe_of. Qed.
Lemma exactly_app : forall x rest, exactly (N.of_nat (String.length x)) (x ++ rest) = Some (x, rest).
Proof. intros. unfold exactly. now rewrite read_exact_app. Qed.
Lemma exactly_n : forall x rest n, N.of_nat (String.length x) = n -> exactly n (x ++ rest) = Some (x, rest).
Proof. intros x rest n <-. apply exactly_app. Qed.
Lemma length_little : forall k n, String.length (little_endian k n) = k.
Proof. induction k as [|k IH]; intros n; [reflexivity|]. cbn. now rewrite IH. Qed.
Lemma le_little : forall k n, (n < 256 ^ N.of_nat k)%N -> le (little_endian k n) = n.
Proof.
  induction k as [|k IH]; intros n H; [cbn in *; lia|]. cbn [little_endian le]. rewrite Nat2N.inj_succ, N.pow_succ_r' in H.
  rewrite byte_back by (apply N.mod_lt; lia). rewrite IH by (apply N.div_lt_upper_bound; lia).
  rewrite N.add_comm. symmetry. apply N.div_mod. lia.
Qed.

(** ** What is written is read *)
Fixpoint decode_fields (l : list (string * list string * avro)) (b : string) {struct l} : option (list (string * value) * string) :=
  match l with
  | [] => Some ([], b)
  | (n, _, s) :: l =>
      match decode s b with
      | Some (v, r) => match decode_fields l r with Some (vs, r) => Some ((n, v) :: vs, r) | None => None end
      | None => None
      end
  end.
Lemma decode_record : forall fs b, decode (ScRecord fs) b = match decode_fields fs b with Some (l, r) => Some (AvRecord l, r) | None => None end.
Proof. reflexivity. Qed.
Lemma decode_union : forall vs b, decode (ScUnion vs) b =
  match zag_i64 b with
  | ZEnd => Some (AvUnion 0 AvNull, "")
  | ZOverflow => None
  | ZNumber z r =>
      if (0 <=? z)%Z then
        match nth_error vs (Z.to_nat z) with
        | Some s => match decode s r with Some (v, r) => Some (AvUnion (Z.to_nat z) v, r) | None => None end
        | None => None
        end
      else None
  end.
Proof.
  intros vs b. cbn [decode]. destruct (zag_i64 b) as [z r| |]; [|reflexivity|reflexivity]. destruct (Z.leb_spec 0 z) as [Z0|Z0]; [|reflexivity]. cbn [andb].
  assert (P : forall l i, (fix pick (l : list avro) (i : nat) {struct l} : option (value * string) :=
     match l, i with [], _ => None | s :: _, O => decode s r | _ :: l, S i => pick l i end) l i = match nth_error l i with Some s => decode s r | None => None end).
  { induction l as [|s l IH]; intros [|i]; try reflexivity. apply IH. }
  destruct (Z.ltb_spec z (Z.of_nat (List.length vs))) as [H|H].
  - rewrite P. destruct (nth_error vs (Z.to_nat z)); reflexivity.
  - assert (N : nth_error vs (Z.to_nat z) = None) by (apply nth_error_None; lia). now rewrite N.
Qed.
Lemma number_some : forall z d, number z d -> (1 <= String.length d)%nat.
Proof. intros z d [_ G]. inversion G; cbn; lia. Qed.
Lemma put_key_new : forall k v m, ~ In k (map fst m) -> put_key k v m = (m ++ [(k, v)])%list.
Proof.
  intros k v m. induction m as [|[k' v'] m IH]; intros H; [reflexivity|]. cbn in *. destruct (String.eqb_spec k k') as [ -> |N]; [now elim H; left|].
  rewrite IH; [reflexivity|]. intros X. apply H. now right.
Qed.
Lemma text_read : forall x d rest, utf8_valid x = true -> size (String.length x) d -> text ((d ++ x) ++ rest) = Some (Some x, rest).
Proof. intros x d rest U S. unfold text. rewrite app_assoc_s, (size_read _ _ _ S), exactly_app. now rewrite U. Qed.
Lemma bytes_read : forall x d rest, size (String.length x) d -> bytes ((d ++ x) ++ rest) = Some (x, rest).
Proof. intros x d rest S. unfold bytes. now rewrite app_assoc_s, (size_read _ _ _ S), exactly_app. Qed.
Lemma seq_read : forall n d rest, size n d -> decode_seq_len (d ++ rest) = Some (N.of_nat n, rest).
Proof.
  intros n d rest [L H]. unfold decode_seq_len. rewrite (number_long _ _ _ H). destruct (Z.ltb_spec (Z.of_nat n) 0); [lia|]. now rewrite safe_of.
Qed.
Lemma seq_sized : forall n d m k rest, (0 < n)%nat -> (Z.of_nat n <= 536870912)%Z -> number (- Z.of_nat n) d -> number k m ->
  decode_seq_len (d ++ m ++ rest) = Some (N.of_nat n, rest).
Proof.
  intros n d m k rest P L H M. unfold decode_seq_len. rewrite (number_long _ _ _ H). destruct (Z.ltb_spec (- Z.of_nat n) 0); [|lia].
  rewrite (number_long _ _ _ M), Z.opp_involutive. now rewrite safe_of.
Qed.
Lemma end_read : forall rest, decode_seq_len (byte 0 ++ rest) = Some (0%N, rest).
Proof. intros. apply (seq_read 0). split; [lia|]. split; [unfold long_range; lia|]. now constructor. Qed.

Scheme encodes_m := Minimality for encodes Sort Prop
  with fields_m := Minimality for fields Sort Prop
  with items_m := Minimality for items Sort Prop
  with blocks_m := Minimality for blocks Sort Prop
  with entries_m := Minimality for entries Sort Prop
  with entry_blocks_m := Minimality for entry_blocks Sort Prop.
Combined Scheme encodes_all from encodes_m, fields_m, items_m, blocks_m, entries_m, entry_blocks_m.

Lemma nodup_left : forall {A} (a b : list A), NoDup (a ++ b) -> NoDup a.
Proof.
  intros A a b. induction a as [|x a IH]; intros H; [constructor|]. inversion H as [|? ? N H']; subst. constructor; [|now apply IH].
  intros I. apply N. apply in_or_app. now left.
Qed.
Lemma all_read :
  (forall s v d, encodes s v d -> forall rest, decode s (d ++ rest) = Some (v, rest))
  /\ (forall fs r d, fields fs r d -> forall rest, decode_fields fs (d ++ rest) = Some (r, rest))
  /\ (forall s l d, items s l d -> forall done rest, decode_items (push_item (decode s)) (List.length l) done (d ++ rest) = Some ((done ++ l)%list, rest))
  /\ (forall s l d, blocks s l d -> forall fuel done rest, (String.length d <= fuel)%nat -> decode_blocks (push_item (decode s)) fuel done (d ++ rest) = Some ((done ++ l)%list, rest))
  /\ (forall s l d, entries s l d -> forall done rest, NoDup (map fst done ++ map fst l)%list ->
        decode_items (push_entry (decode s)) (List.length l) done (d ++ rest) = Some ((done ++ l)%list, rest))
  /\ (forall s l d, entry_blocks s l d -> forall fuel done rest, (String.length d <= fuel)%nat -> NoDup (map fst done ++ map fst l)%list ->
        decode_blocks (push_entry (decode s)) fuel done (d ++ rest) = Some ((done ++ l)%list, rest)).
Proof.
  apply encodes_all.
  - reflexivity.
  - intros [] rest; reflexivity.
  - intros z d R N rest. cbn [decode]. now rewrite (number_int z).
  - intros z d N rest. cbn [decode]. now rewrite (number_long z).
  - intros f L rest. cbn [decode]. rewrite exactly_n by (now rewrite length_little). now rewrite le_little.
  - intros f L rest. cbn [decode]. rewrite exactly_n by (now rewrite length_little). now rewrite le_little.
  - intros x d S rest. cbn [decode]. now rewrite bytes_read.
  - intros x d U S rest. cbn [decode]. now rewrite text_read.
  - intros s l d _ IH rest. cbn [decode]. rewrite (IH _ [] rest); [reflexivity|]. rewrite length_app_s. lia.
  - intros s l d D _ IH rest. cbn [decode]. rewrite (IH _ [] rest); [reflexivity| |exact D]. rewrite length_app_s. lia.
  - intros vs i s v n d E N _ IH rest. rewrite decode_union, app_assoc_s, (number_zag _ _ _ N). destruct (Z.leb_spec 0 (Z.of_nat i)); [|lia].
    now rewrite Nat2Z.id, E, IH.
  - intros fs r d _ IH rest. now rewrite decode_record, IH.
  - intros symbols i x d E R N rest. cbn [decode]. rewrite (number_int _ _ _ R N). assert (L : (i < List.length symbols)%nat) by (apply nth_error_Some; now rewrite E).
    destruct (Z.leb_spec 0 (Z.of_nat i)); [|lia]. destruct (Z.ltb_spec (Z.of_nat i) (Z.of_nat (List.length symbols))); [|lia]. cbn [andb]. now rewrite Nat2Z.id, E.
  - intros x rest. cbn [decode]. now rewrite exactly_app.
  - intros p q x d S rest. cbn [decode]. now rewrite bytes_read.
  - intros p q x rest. cbn [decode]. now rewrite exactly_app.
  - intros z d R N rest. cbn [decode]. now rewrite (number_int z).
  - intros z d R N rest. cbn [decode]. now rewrite (number_int z).
  - intros z d N rest. cbn [decode]. now rewrite (number_long z).
  - intros z d N rest. cbn [decode]. now rewrite (number_long z).
  - intros z d N rest. cbn [decode]. now rewrite (number_long z).
  - intros z d N rest. cbn [decode]. now rewrite (number_long z).
  - intros z d N rest. cbn [decode]. now rewrite (number_long z).
  - intros x L rest. cbn [decode]. rewrite exactly_n; [reflexivity|]. now rewrite L.
  - reflexivity.
  - intros n al s v d fs r e _ IH _ IHf rest. cbn [decode_fields]. now rewrite app_assoc_s, IH, IHf.
  - intros s done rest. cbn. now rewrite app_nil_r.
  - intros s v d l e _ IH _ IHi done rest. cbn [List.length decode_items push_item]. unfold push_item at 1. rewrite app_assoc_s, IH, IHi. now rewrite <- app_assoc.
  - intros s fuel done rest F. destruct fuel as [|fuel]; [cbn in F; lia|]. cbn [decode_blocks]. rewrite end_read. cbn [N.eqb]. now rewrite app_nil_r.
  - intros s l n d l' d' Nl Sz _ IHi _ IHb fuel done rest F. assert (Ln := number_some _ _ (proj2 Sz)). rewrite !length_app_s in F. destruct fuel as [|fuel]; [lia|].
    cbn [decode_blocks]. rewrite !app_assoc_s, (seq_read _ _ _ Sz). destruct (N.eqb_spec (N.of_nat (List.length l)) 0) as [Z0|_]; [destruct l; [now elim Nl|cbn in Z0; lia]|].
    rewrite Nat2N.id, IHi, IHb by lia. now rewrite <- app_assoc.
  - intros s l n m d l' d' Nl Sz Hn Hm _ IHi _ IHb fuel done rest F. assert (Ln := number_some _ _ Hn). rewrite !length_app_s in F. destruct fuel as [|fuel]; [lia|].
    assert (Pl : (0 < List.length l)%nat) by (destruct l; [now elim Nl|cbn; lia]).
    cbn [decode_blocks]. rewrite !app_assoc_s, (seq_sized _ _ _ _ _ Pl Sz Hn Hm). destruct (N.eqb_spec (N.of_nat (List.length l)) 0) as [Z0|_]; [lia|].
    rewrite Nat2N.id, IHi, IHb by lia. now rewrite <- app_assoc.
  - intros s done rest D. cbn. now rewrite app_nil_r.
  - intros s k v c d l e Hk _ _ IH _ IHe done rest D. cbn [List.length decode_items]. unfold push_entry at 1. inversion Hk as [| | | | | | |x dk U Sk Ex Edk| | | | | | | | | | | | | | | |]; subst x.
    match goal with |- context [text ?b] => replace b with (c ++ d ++ e ++ rest) by (subst c; now rewrite !app_assoc_s) end. subst c.
    rewrite text_read by assumption. rewrite IH. rewrite put_key_new.
    + rewrite IHe; [now rewrite <- app_assoc|]. rewrite map_app, <- app_assoc. exact D.
    + cbn in D. apply NoDup_remove_2 in D. intros I. apply D. apply in_or_app. now left.
  - intros s fuel done rest F _. destruct fuel as [|fuel]; [cbn in F; lia|]. cbn [decode_blocks]. rewrite end_read. cbn [N.eqb]. now rewrite app_nil_r.
  - intros s l n d l' d' Nl Sz _ IHi _ IHb fuel done rest F D. assert (Ln := number_some _ _ (proj2 Sz)). rewrite !length_app_s in F. destruct fuel as [|fuel]; [lia|].
    rewrite map_app in D. assert (D1 : NoDup (map fst done ++ map fst l)%list) by (rewrite app_assoc in D; now apply nodup_left in D).
    cbn [decode_blocks]. rewrite !app_assoc_s, (seq_read _ _ _ Sz). destruct (N.eqb_spec (N.of_nat (List.length l)) 0) as [Z0|_]; [destruct l; [now elim Nl|cbn in Z0; lia]|].
    rewrite Nat2N.id, IHi, IHb by (lia || assumption || (rewrite map_app, <- app_assoc; assumption)). now rewrite <- app_assoc.
  - intros s l n m d l' d' Nl Sz Hn Hm _ IHi _ IHb fuel done rest F D. assert (Ln := number_some _ _ Hn). rewrite !length_app_s in F. destruct fuel as [|fuel]; [lia|].
    rewrite map_app in D. assert (D1 : NoDup (map fst done ++ map fst l)%list) by (rewrite app_assoc in D; now apply nodup_left in D).
    assert (Pl : (0 < List.length l)%nat) by (destruct l; [now elim Nl|cbn; lia]).
    cbn [decode_blocks]. rewrite !app_assoc_s, (seq_sized _ _ _ _ _ Pl Sz Hn Hm). destruct (N.eqb_spec (N.of_nat (List.length l)) 0) as [Z0|_]; [lia|].
    rewrite Nat2N.id, IHi, IHb by (lia || assumption || (rewrite map_app, <- app_assoc; assumption)). now rewrite <- app_assoc.
Qed.
Lemma encodes_read : forall s v d rest, encodes s v d -> decode s (d ++ rest) = Some (v, rest).
Proof. intros s v d rest H. now apply (proj1 all_read). Qed.
Lemma encodes_whole : forall s v d, encodes s v d -> decode s d = Some (v, "").
Proof. intros s v d H. rewrite <- (app_nil_r_s d) at 1. now apply encodes_read. Qed.

(** ** Maps with repeated keys: the last value of a key counts *)
Definition put_all (l m : list (string * value)) : list (string * value) := fold_left (fun m e => put_key (fst e) (snd e) m) l m.
Lemma put_key_keys : forall k v m x, In x (map fst (put_key k v m)) <-> x = k \/ In x (map fst m).
Proof.
  intros k v m x. induction m as [|[k' v'] m IH]; cbn [put_key map fst In]; [intuition congruence|]. destruct (String.eqb_spec k k') as [ -> |N]; cbn [map fst In]; [intuition congruence|rewrite IH; intuition congruence].
Qed.
Lemma put_key_nodup : forall k v m, NoDup (map fst m) -> NoDup (map fst (put_key k v m)).
Proof.
  intros k v m. induction m as [|[k' v'] m IH]; cbn [put_key map fst]; intros D; [repeat constructor; intros []|]. inversion D as [|? ? N1 N2]; subst.
  destruct (String.eqb_spec k k') as [ -> |N]; cbn [map fst]; [exact D|]. constructor; [|now apply IH]. rewrite put_key_keys. intros [E|I]; [now elim N|contradiction].
Qed.
Lemma put_key_holds : forall k v m k' v', NoDup (map fst m) -> (In (k', v') (put_key k v m) <-> (k' = k /\ v' = v) \/ (k' <> k /\ In (k', v') m)).
Proof.
  intros k v m k' v'. induction m as [|[k0 v0] m IH]; cbn [put_key map fst]; intros D; [cbn; intuition congruence|]. inversion D as [|? ? N1 N2]; subst.
  destruct (String.eqb_spec k k0) as [ -> |N]; cbn [In].
  - split; [intros [[= <- <-]|I]; [now left|right; split; [|now right]]; intros ->; apply N1; change k0 with (fst (k0, v')); now apply in_map|].
    intros [[ -> -> ]|[K [[= <- <-]|I]]]; [now left|now elim K|now right].
  - rewrite (IH N2). split; [intros [[= <- <-]|[I|[K I]]]|intros [I|[K [[= <- <-]|I]]]]; auto; right; split; auto.
Qed.
Lemma put_all_nodup : forall l m, NoDup (map fst m) -> NoDup (map fst (put_all l m)).
Proof. induction l as [|[k v] l IH]; intros m D; [exact D|]. apply IH. now apply put_key_nodup. Qed.
Lemma put_all_holds : forall l m k v, NoDup (map fst m) ->
  (In (k, v) (put_all l m) <-> (exists l1 l2, l = (l1 ++ (k, v) :: l2)%list /\ ~ In k (map fst l2)) \/ (~ In k (map fst l) /\ In (k, v) m)).
Proof.
  induction l as [|[k0 v0] l IH]; intros m k v D; cbn [put_all fold_left map fst In].
  - split; [intros I; right; split; [intros []|exact I]|]. intros [[l1 [l2 [E _]]]|[_ I]]; [destruct l1; discriminate|exact I].
  - fold (put_all l (put_key k0 v0 m)). cbn [fst snd]. fold (put_all l (put_key k0 v0 m)). rewrite (IH _ k v (put_key_nodup k0 v0 m D)). rewrite (put_key_holds k0 v0 m k v D). split.
    + intros [[l1 [l2 [ -> N]]]|[N [[ -> -> ]|[K I]]]].
      * left. exists ((k0, v0) :: l1), l2. split; [reflexivity|exact N].
      * left. exists [], l. split; [reflexivity|exact N].
      * right. split; [intros [E|J]; [now elim K|now apply N]|exact I].
    + intros [[[|e l1] [l2 [E N]]]|[N I]].
      * injection E as -> -> ->. right. split; [exact N|]. left. now split.
      * injection E as <- ->. left. now exists l1, l2.
      * right. split; [intros J; apply N; now right|]. right. split; [intros ->; apply N; now left|exact I].
Qed.
Lemma entries_put : forall s l d, entries s l d -> forall done rest,
  decode_items (push_entry (decode s)) (List.length l) done (d ++ rest) = Some (put_all l done, rest).
Proof.
  intros s l d H. induction H as [s|s k v c d l e Hk Hv He IH]; intros done rest; [reflexivity|]. cbn [List.length decode_items]. unfold push_entry at 1.
  inversion Hk as [| | | | | | |x dk U Sk Ex Edk| | | | | | | | | | | | | | | |]; subst x.
  match goal with |- context [text ?b] => replace b with (c ++ d ++ e ++ rest) by (subst c; now rewrite !app_assoc_s) end. subst c.
  rewrite text_read by assumption. rewrite (encodes_read _ _ _ _ Hv), IH. reflexivity.
Qed.
Lemma entry_blocks_put : forall s l d, entry_blocks s l d -> forall fuel done rest, (String.length d < fuel)%nat ->
  decode_blocks (push_entry (decode s)) fuel done (d ++ rest) = Some (put_all l done, rest).
Proof.
  intros s l d H. induction H as [s|s l n d l' d' Nl Sz Hi Hb IHb|s l n m d l' d' Nl Sz Hn Hm Hi Hb IHb]; intros fuel done rest F.
  - destruct fuel as [|fuel]; [cbn in F; lia|]. cbn [decode_blocks]. rewrite end_read. reflexivity.
  - assert (Ln := number_some _ _ (proj2 Sz)). rewrite !length_app_s in F. destruct fuel as [|fuel]; [lia|].
    cbn [decode_blocks]. rewrite !app_assoc_s, (seq_read _ _ _ Sz). destruct (N.eqb_spec (N.of_nat (List.length l)) 0) as [Z0|_]; [destruct l; [now elim Nl|cbn in Z0; lia]|].
    rewrite Nat2N.id, (entries_put _ _ _ Hi), IHb by lia. unfold put_all. now rewrite fold_left_app.
  - assert (Ln := number_some _ _ Hn). rewrite !length_app_s in F. destruct fuel as [|fuel]; [lia|].
    assert (Pl : (0 < List.length l)%nat) by (destruct l; [now elim Nl|cbn; lia]).
    cbn [decode_blocks]. rewrite !app_assoc_s, (seq_sized _ _ _ _ _ Pl Sz Hn Hm). destruct (N.eqb_spec (N.of_nat (List.length l)) 0) as [Z0|_]; [lia|].
    rewrite Nat2N.id, (entries_put _ _ _ Hi), IHb by lia. unfold put_all. now rewrite fold_left_app.
Qed.

(** ** The values written are values of the schema, and all of them can be written *)
Lemma all_conform :
  (forall s v d, encodes s v d -> conforms s v)
  /\ (forall fs r d, fields fs r d -> Forall2 (fun f e => fst e = fst (fst f) /\ conforms (snd f) (snd e)) fs r)
  /\ (forall s l d, items s l d -> Forall (conforms s) l)
  /\ (forall s l d, blocks s l d -> Forall (conforms s) l)
  /\ (forall s l d, entries s l d -> Forall (fun e : string * value => conforms s (snd e)) l)
  /\ (forall s l d, entry_blocks s l d -> Forall (fun e : string * value => conforms s (snd e)) l).
Proof.
  apply encodes_all; try (intros; constructor; auto; fail); try (intros; constructor; match goal with H : number _ _ |- _ => apply (proj1 H) end; fail).
  - intros. econstructor; eassumption.
  - intros. apply Forall_app. now split.
  - intros. apply Forall_app. now split.
  - intros. apply Forall_app. now split.
  - intros. apply Forall_app. now split.
Qed.
Lemma encodes_conforms : forall s v d, encodes s v d -> conforms s v.
Proof. exact (proj1 all_conform). Qed.

Lemma groups_exist : forall n, exists d, groups n d.
Proof.
  intros n. induction n as [n IH] using (well_founded_induction N.lt_wf_0). destruct (N.lt_ge_cases n 128) as [L|L].
  - eexists. now constructor.
  - destruct (IH (n / 128)%N) as [d G]; [apply N.div_lt; lia|]. eexists. econstructor 2; eassumption.
Qed.
Lemma number_exists : forall z, long_range z -> exists d, number z d.
Proof. intros z R. destruct (groups_exist (zigzag z)) as [d G]. exists d. now split. Qed.
Lemma int_long : forall z, int_range z -> long_range z.
Proof. intros z [L H]. unfold long_range. lia. Qed.
Lemma size_exists : forall n, (Z.of_nat n <= 536870912)%Z -> exists d, size n d.
Proof. intros n L. destruct (number_exists (Z.of_nat n)) as [d N]; [unfold long_range; lia|]. exists d. now split. Qed.
Lemma items_exist : forall s l, (forall v, In v l -> exists d, encodes s v d) -> exists d, items s l d.
Proof.
  intros s l. induction l as [|v l IH]; intros H; [eexists; constructor|]. destruct (H v (or_introl eq_refl)) as [d D].
  destruct IH as [e E]; [intros; apply H; now right|]. eexists. econstructor; eassumption.
Qed.
Lemma array_exists : forall s l, (Z.of_nat (List.length l) <= 536870912)%Z -> (forall v, In v l -> exists d, encodes s v d) -> exists d, encodes (ScArray s) (AvArray l) d.
Proof.
  intros s l L H. destruct l as [|v l]; [eexists; constructor; constructor|]. destruct (items_exist s (v :: l) H) as [d D]. destruct (size_exists _ L) as [n N].
  exists (n ++ d ++ byte 0). constructor. rewrite <- (app_nil_r (v :: l)) at 1. apply bl_block; auto; [discriminate|constructor].
Qed.
Lemma entries_exist : forall s l, (forall k v, In (k, v) l -> (exists d, encodes ScString (AvString k) d) /\ exists d, encodes s v d) -> exists d, entries s l d.
Proof.
  intros s l. induction l as [|[k v] l IH]; intros H; [eexists; constructor|]. destruct (H k v (or_introl eq_refl)) as [[c C] [d D]].
  destruct IH as [e E]; [intros; apply H; now right|]. eexists. econstructor; eassumption.
Qed.
Lemma map_exists : forall s l, (Z.of_nat (List.length l) <= 536870912)%Z -> NoDup (map fst l) ->
  (forall k v, In (k, v) l -> (exists d, encodes ScString (AvString k) d) /\ exists d, encodes s v d) -> exists d, encodes (ScMap s) (AvMap l) d.
Proof.
  intros s l L N H. destruct l as [|e l]; [eexists; constructor; [constructor|constructor]|]. destruct (entries_exist s (e :: l) H) as [d D]. destruct (size_exists _ L) as [n Sn].
  exists (n ++ d ++ byte 0). constructor; [assumption|]. rewrite <- (app_nil_r (e :: l)) at 1. apply eb_block; auto; [discriminate|constructor].
Qed.
Lemma text_exists : forall k, storable ScString (AvString k) -> exists d, encodes ScString (AvString k) d.
Proof.
  intros k H. inversion H as [| | |x U L| | | | | | | | |s v _ _ M]; subst; [|destruct M]. destruct (size_exists _ L) as [d D]. eexists. now constructor; eassumption.
Qed.
Lemma encodes_exists : forall s v, conforms s v -> storable s v -> exists d, encodes s v d.
Proof.
  intros s. pattern s. apply avro_ind'; clear s.
  - intros i IH v C S. inversion C as [| | | | | | | |? l Cl| | | | | | | | | | | | | | | |]; subst.
    inversion S as [| | | |? l' L Sl| | | | | | | |? ? _ _ M]; subst; [|destruct M]. apply array_exists; [assumption|]. rewrite Forall_forall in *. auto.
  - intros i IH v C S. inversion C as [| | | | | | | | |? l Cl| | | | | | | | | | | | | | |]; subst.
    inversion S as [| | | | |? l' L N Sl| | | | | | |? ? _ _ M]; subst; [|destruct M]. apply map_exists; [assumption|assumption|]. rewrite Forall_forall in *.
    intros k v I. destruct (Sl _ I) as [Sk Sv]. split; [now apply text_exists|]. apply IH; [apply (Cl _ I)|exact Sv].
  - intros vs IH v C S. inversion C as [| | | | | | | | | |? i s x E Cx| | | | | | | | | | | | | |]; subst.
    inversion S as [| | | | | |? i' s' x' L E' Sx| | | | | |? ? _ _ M]; subst; [|destruct M]. rewrite E in E'. injection E' as <-.
    rewrite Forall_forall in IH. destruct (IH s (nth_error_In _ _ E) x Cx Sx) as [d D]. assert (Li : (i < List.length vs)%nat) by (apply nth_error_Some; now rewrite E).
    destruct (number_exists (Z.of_nat i)) as [n N]; [unfold long_range; lia|]. eexists. econstructor; eassumption.
  - intros fs IH v C S. inversion C as [| | | | | | | | | | |? r F| | | | | | | | | | | | |]; subst.
    inversion S as [| | | | | | |? r' G| | | | |? ? _ _ M]; subst; [|destruct M]. clear C S.
    assert (X : exists d, fields fs r d); [|destruct X as [d D]; exists d; now constructor].
    revert IH G. induction F as [|[[n al] s] [n' v] fs r [E Cv] F IHf]; intros IH G; [eexists; constructor|]. cbn in E, Cv. subst n'. inversion IH as [|? ? I IH']; inversion G as [|? ? ? ? Sv G']; subst. cbn in *.
    destruct (I v Cv Sv) as [d D]. destruct (IHf IH' G') as [e E]. eexists. econstructor; eassumption.
  - intros s Na Nm Nu Nr v C S.
    destruct C; try (now elim (Na _ eq_refl)); try (now elim (Nm _ eq_refl)); try (now elim (Nu _ eq_refl)); try (now elim (Nr _ eq_refl)); try (match goal with R : int_range ?z |- _ => destruct (number_exists z (int_long z R)) as [d D] | R : long_range ?z |- _ => destruct (number_exists z R) as [d D] end; eexists; constructor; eassumption).
    all: inversion S; subst; try match goal with M : False |- _ => destruct M | N : ?x <> ?x |- _ => now elim N end; try (eexists; constructor; eassumption).
    all: try (match goal with L : (Z.of_nat (String.length ?x) <= _)%Z |- _ => destruct (size_exists _ L) as [dx Dx] end; eexists; constructor; eassumption).
    all: try (eexists; constructor; fail).
    match goal with E : nth_error ?l ?k = Some _, L : (Z.of_nat (List.length ?l) <= _)%Z |- _ =>
      assert (Li : (k < List.length l)%nat) by (apply nth_error_Some; now rewrite E); destruct (number_exists (Z.of_nat k)) as [d D]; [unfold long_range; lia|] end.
    exists d. constructor; auto. unfold int_range. lia.
Qed.

(** ** Input that ends early *)
(** A step of the decoder takes bytes from the front, and unless it came to the end of the input it does not depend on what follows. *)
Definition steady {A} (f : string -> option (A * string)) : Prop :=
  forall b x r, f b = Some (x, r) -> (exists c, b = c ++ r) /\ (r <> "" -> forall q, f (b ++ q) = Some (x, r ++ q)).
Lemma steady_ret : forall {A} (x : A), steady (fun b => Some (x, b)).
Proof. intros A x b y r [= <- <-]. split; [now exists ""|reflexivity]. Qed.
Lemma steady_fail : forall A, steady (fun _ => @None (A * string)).
Proof. intros A b x r [=]. Qed.
Lemma steady_bind : forall {A B} (f : string -> option (A * string)) (g : A -> string -> option (B * string)), steady f -> (forall x, steady (g x)) ->
  steady (fun b => match f b with Some (x, r) => g x r | None => None end).
Proof.
  intros A B f g F G b y r H. destruct (f b) as [[x r1]|] eqn:E; [|discriminate]. destruct (F b x r1 E) as [[c1 C1] X1]. destruct (G x r1 y r H) as [[c2 C2] X2]. split.
  - exists (c1 ++ c2). now rewrite app_assoc_s, <- C2.
  - intros N q. rewrite X1; [now apply X2|]. intros Z. rewrite Z in C2. destruct c2; [|discriminate]. cbn in C2. now subst r.
Qed.
Lemma steady_map : forall {A B} (f : string -> option (A * string)) (h : A -> B), steady f ->
  steady (fun b => match f b with Some (x, r) => Some (h x, r) | None => None end).
Proof. intros A B f h F. apply (steady_bind f (fun x r => Some (h x, r))); [assumption|]. intros x. apply steady_ret. Qed.
Lemma steady_ext : forall {A} (f g : string -> option (A * string)), (forall b, f b = g b) -> steady f -> steady g.
Proof. intros A f g E F b x r H. rewrite <- E in H. destruct (F b x r H) as [S X]. split; [assumption|]. intros N q. rewrite <- E. now apply X. Qed.

Lemma variable_steady : forall more shift i b z r, decode_variable more shift i b = Some (Some (z, r)) ->
  (exists c, b = c ++ r) /\ forall q, decode_variable more shift i (b ++ q) = Some (Some (z, r ++ q)).
Proof.
  induction more as [|more IH]; intros shift i b z r H; [discriminate|]. destruct b as [|c b]; [discriminate|]. cbn [decode_variable append] in *.
  destruct (N.shiftr (N_of_ascii c) 7 =? 0)%N.
  - injection H as <- <-. split; [now exists (String c "")|reflexivity].
  - apply IH in H as [[d ->] H]. split; [now exists (String c d)|exact H].
Qed.
Lemma zag_steady : forall b z r, zag_i64 b = ZNumber z r -> (exists c, b = c ++ r) /\ forall q, zag_i64 (b ++ q) = ZNumber z (r ++ q).
Proof.
  intros b z r. unfold zag_i64. destruct (decode_variable 10 0 0 b) as [[[n r']|]|] eqn:E; try discriminate. intros [= <- <-].
  apply variable_steady in E as [S E]. split; [assumption|]. intros q. now rewrite E.
Qed.
Lemma long_steady : steady long.
Proof.
  intros b x r. unfold long. destruct (zag_i64 b) as [z r'| |] eqn:E; try discriminate. intros [= <- <-]. apply zag_steady in E as [S E].
  split; [assumption|]. intros _ q. now rewrite E.
Qed.
Lemma int_steady : steady int.
Proof.
  apply (steady_bind long (fun z r => if ((-2147483648 <=? z) && (z <=? 2147483647))%Z then Some (z, r) else None)); [exact long_steady|].
  intros z. destruct ((-2147483648 <=? z) && (z <=? 2147483647))%Z; [apply steady_ret|apply steady_fail].
Qed.
Lemma len_steady : steady decode_len.
Proof.
  apply (steady_bind long (fun z r => match safe_len z with Some n => Some (n, r) | None => None end)); [exact long_steady|].
  intros z. destruct (safe_len z); [apply steady_ret|apply steady_fail].
Qed.
Lemma seq_steady : steady decode_seq_len.
Proof.
  apply (steady_bind long (fun z r => if (z <? 0)%Z then match long r with Some (_, r) => match safe_len (- z) with Some n => Some (n, r) | None => None end | None => None end
    else match safe_len z with Some n => Some (n, r) | None => None end)); [exact long_steady|].
  intros z. destruct (z <? 0)%Z.
  - apply (steady_bind long (fun _ r => match safe_len (- z) with Some n => Some (n, r) | None => None end)); [exact long_steady|].
    intros _. destruct (safe_len (- z)); [apply steady_ret|apply steady_fail].
  - destruct (safe_len z); [apply steady_ret|apply steady_fail].
Qed.
Lemma exactly_some : forall n b x r, exactly n b = Some (x, r) -> b = x ++ r /\ N.of_nat (String.length x) = n.
Proof.
  intros n b x r. unfold exactly, read_exact. destruct (N.ltb_spec (N.of_nat (String.length b)) n) as [L|L]; [discriminate|]. intros [= H].
  unfold split_at in H. destruct (N.leb_spec (N.of_nat (String.length b)) n) as [L'|L']; injection H as <- <-.
  - split; [now rewrite app_nil_r_s|lia].
  - split; [symmetry; apply take_drop|]. rewrite length_take by lia. now rewrite N2Nat.id.
Qed.
Lemma exactly_steady : forall n, steady (exactly n).
Proof.
  intros n b x r H. apply exactly_some in H as [-> L]. split; [now exists x|]. intros _ q. rewrite app_assoc_s. now apply exactly_n.
Qed.
Lemma bytes_steady : steady bytes.
Proof. apply (steady_bind decode_len (fun n r => exactly n r)); [exact len_steady|]. exact exactly_steady. Qed.
Lemma text_steady : steady text.
Proof.
  apply (steady_bind decode_len (fun n r => match exactly n r with Some (t, r) => if utf8_valid t then Some (Some t, r) else None | None => Some (None, "") end)); [exact len_steady|].
  intros n b x r H. destruct (exactly n b) as [[t r']|] eqn:E.
  - destruct (exactly_steady n b t r' E) as [S X]. destruct (utf8_valid t) eqn:U; [|discriminate]. injection H as <- <-. split; [assumption|]. intros N q. now rewrite X, U.
  - injection H as <- <-. split; [exists b; now rewrite app_nil_r_s|]. intros N. now elim N.
Qed.
Lemma items_steady : forall {A} (item : list A -> string -> option (list A * string)), (forall done, steady (item done)) -> forall n done, steady (decode_items item n done).
Proof.
  intros A item I. induction n as [|n IH]; intros done; [apply steady_ret|]. apply (steady_bind (item done) (fun done r => decode_items item n done r)); auto.
Qed.
Lemma blocks_steady : forall {A} (item : list A -> string -> option (list A * string)), (forall done, steady (item done)) -> forall fuel done b x r,
  decode_blocks item fuel done b = Some (x, r) ->
  (exists c, b = c ++ r) /\ (r <> "" -> forall q fuel', (fuel <= fuel')%nat -> decode_blocks item fuel' done (b ++ q) = Some (x, r ++ q)).
Proof.
  intros A item I. induction fuel as [|fuel IH]; intros done b x r H; [discriminate|]. cbn [decode_blocks] in H.
  destruct (decode_seq_len b) as [[n r1]|] eqn:E; [|discriminate]. destruct (seq_steady b n r1 E) as [[c1 C1] X1]. destruct (n =? 0)%N eqn:En.
  - injection H as <- <-. split; [now exists c1|]. intros N q [|fuel'] L; [lia|]. cbn [decode_blocks]. now rewrite X1, En.
  - destruct (decode_items item (N.to_nat n) done r1) as [[done' r2]|] eqn:E2; [|discriminate]. destruct (items_steady item I (N.to_nat n) done r1 done' r2 E2) as [[c2 C2] X2].
    destruct (IH done' r2 x r H) as [[c3 C3] X3]. split.
    + exists (c1 ++ c2 ++ c3). now rewrite !app_assoc_s, <- C3, <- C2.
    + intros N q [|fuel'] L; [lia|]. assert (N2 : r2 <> "") by (intros Z; rewrite Z in C3; destruct c3; [|discriminate]; cbn in C3; now subst r).
      assert (N1 : r1 <> "") by (intros Z; rewrite Z in C2; destruct c2; [|discriminate]; cbn in C2; now subst r2).
      cbn [decode_blocks]. rewrite X1, En, X2 by assumption. apply X3; [assumption|lia].
Qed.
Lemma whole_blocks : forall {A} (item : list A -> string -> option (list A * string)), (forall done, steady (item done)) ->
  steady (fun b => decode_blocks item (S (String.length b)) [] b).
Proof.
  intros A item I b x r H. destruct (blocks_steady item I _ _ _ _ _ H) as [S X]. split; [assumption|]. intros N q. apply X; [assumption|]. rewrite length_app_s. lia.
Qed.
Lemma fields_steady : forall fs, Forall (fun f : string * list string * avro => steady (decode (snd f))) fs -> steady (decode_fields fs).
Proof.
  intros fs H. induction H as [|[[n al] s] fs F H IH]; [apply steady_ret|]. cbn [snd] in F.
  apply (steady_bind (decode s) (fun v r => match decode_fields fs r with Some (vs, r) => Some ((n, v) :: vs, r) | None => None end)); [assumption|].
  intros v. now apply steady_map.
Qed.
Lemma decode_steady : forall s, steady (decode s).
Proof.
  intros s. pattern s. apply avro_ind'; clear s.
  - intros i I. apply (steady_map (fun b => decode_blocks (push_item (decode i)) (S (String.length b)) [] b) AvArray). apply whole_blocks.
    intros done. now apply (steady_map (decode i) (fun v => (done ++ [v])%list)).
  - intros i I. apply (steady_map (fun b => decode_blocks (push_entry (decode i)) (S (String.length b)) [] b) AvMap). apply whole_blocks.
    intros done. apply steady_ext with (f := fun b => match text b with Some (k, r) => match k with Some k => match decode i r with Some (v, r) => Some (put_key k v done, r) | None => None end | None => None end | None => None end).
    + intros b. unfold push_entry. now destruct (text b) as [[[k|] r]|].
    + apply (steady_bind text (fun k r => match k with Some k => match decode i r with Some (v, r) => Some (put_key k v done, r) | None => None end | None => None end)); [exact text_steady|].
      intros [k|]; [now apply (steady_map (decode i) (fun v => put_key k v done))|apply steady_fail].
  - intros vs I b x r H. rewrite decode_union in H. destruct (zag_i64 b) as [z r1| |] eqn:E; [| |discriminate].
    + destruct (zag_steady _ _ _ E) as [[c1 C1] X1]. destruct (0 <=? z)%Z eqn:Z0; [|discriminate]. destruct (nth_error vs (Z.to_nat z)) as [s|] eqn:En; [|discriminate].
      destruct (decode s r1) as [[v r2]|] eqn:D; [|discriminate]. injection H as <- <-. rewrite Forall_forall in I. destruct (I s (nth_error_In _ _ En) r1 v r2 D) as [[c2 C2] X2]. split.
      * exists (c1 ++ c2). now rewrite app_assoc_s, <- C2.
      * intros N q. rewrite decode_union, X1, Z0, En, X2 by assumption. reflexivity.
    + injection H as <- <-. split; [exists b; now rewrite app_nil_r_s|]. intros N. now elim N.
  - intros fs I. apply (steady_map (decode_fields fs) AvRecord). now apply fields_steady.
  - intros s Na Nm Nu Nr. destruct s; try (now elim (Na _ eq_refl)); try (now elim (Nm _ eq_refl)); try (now elim (Nu _ eq_refl)); try (now elim (Nr _ eq_refl)).
    all: try (apply steady_ret); try (apply steady_fail).
    all: try (apply (steady_map int _ int_steady)); try (apply (steady_map long _ long_steady)); try (apply (steady_map bytes _ bytes_steady)).
    + intros b x r. cbn [decode]. destruct b as [|c b]; [intros [= <- <-]; split; [now exists ""|intros N; now elim N]|]. cbn [append].
      destruct (N_of_ascii c =? 0)%N; [|destruct (N_of_ascii c =? 1)%N]; [| |discriminate]; (intros [= <- <-]; split; [now exists (String c "")|reflexivity]).
    + apply (steady_map (exactly 4) (fun f => AvFloat (le f)) (exactly_steady 4)).
    + apply (steady_map (exactly 8) (fun f => AvDouble (le f)) (exactly_steady 8)).
    + apply steady_ext with (f := fun b => match text b with Some (t, r) => Some (match t with Some t => AvString t | None => AvNull end, r) | None => None end).
      * intros b. cbn [decode]. now destruct (text b) as [[[t|] r]|].
      * apply (steady_map text (fun t => match t with Some t => AvString t | None => AvNull end) text_steady).
    + apply (steady_bind int (fun z r => if ((0 <=? z) && (z <? Z.of_nat (List.length symbols)))%Z then
            match nth_error symbols (Z.to_nat z) with Some t => Some (AvEnum (Z.to_nat z) t, r) | None => None end else None)); [exact int_steady|].
      intros z. destruct ((0 <=? z) && (z <? Z.of_nat (List.length symbols)))%Z; [|apply steady_fail]. destruct (nth_error symbols (Z.to_nat z)); [apply steady_ret|apply steady_fail].
    + apply (steady_map (exactly (N.of_nat size)) (fun x => AvFixed size x) (exactly_steady _)).
    + apply (steady_map (fun b => match fixed with None => bytes b | Some n => exactly (N.of_nat n) b end) AvDecimal). destruct fixed; [apply exactly_steady|apply bytes_steady].
    + apply (steady_map (exactly 12) AvDuration (exactly_steady 12)).
Qed.
(** A datum that is cut is an error, or is taken to the end. *)
Lemma cut_datum : forall s v d p, decode s d = Some (v, "") -> strict_prefix p d -> decode s p = None \/ exists v', decode s p = Some (v', "").
Proof.
  intros s v d p D [q [Nq ->]]. destruct (decode s p) as [[v' r]|] eqn:E; [|now left]. right. exists v'. destruct r as [|c r]; [reflexivity|]. exfalso.
  destruct (decode_steady s p v' _ E) as [_ X]. rewrite X in D by discriminate. discriminate.
Qed.
Lemma decode_shorter : forall s b v r, decode s b = Some (v, r) -> (String.length r <= String.length b)%nat.
Proof. intros s b v r H. destruct (decode_steady s b v r H) as [[c ->] _]. rewrite length_app_s. lia. Qed.
