(** Lemmas for C77: what the decoder returns has the shape of the schema. *)
From Verif Require Import Base Str M_Utf8 M_Log M_Avro M_Datum S_Avro S_Datum L_Base L_Str L_Avro L_Datum.
Local Open Scope string_scope.

Lemma below_land : forall k x, (x < 2 ^ k)%N <-> N.land x (N.ones k) = x.
Proof.
  intros k x. rewrite N.land_ones. split; [apply N.mod_small|]. intros <-. apply N.mod_lt. apply N.pow_nonzero. discriminate.
Qed.
Lemma lor_below : forall k x y, (x < 2 ^ k -> y < 2 ^ k -> N.lor x y < 2 ^ k)%N.
Proof. intros k x y X Y. apply below_land in X, Y. apply below_land. now rewrite N.land_lor_distr_l, X, Y. Qed.
Lemma variable_below : forall more shift i b z r, (i < 2 ^ 64)%N -> decode_variable more shift i b = Some (Some (z, r)) -> (z < 2 ^ 64)%N.
Proof.
  induction more as [|more IH]; intros shift i b z r I H; [discriminate|]. cbn [decode_variable] in H. destruct b as [|c b]; [discriminate|]. cbv zeta in H.
  set (j := N.lor i (N.shiftl (N.land (N_of_ascii c) 127) shift mod 2 ^ 64)) in *.
  assert (J : (j < 2 ^ 64)%N) by (apply lor_below; [exact I|apply N.mod_lt; discriminate]). clearbody j.
  destruct (N.shiftr (N_of_ascii c) 7 =? 0)%N; [injection H as <- <-; exact J|]. now apply (IH _ _ _ _ _ J H).
Qed.
Lemma zag_range : forall b z r, zag_i64 b = ZNumber z r -> long_range z.
Proof.
  intros b z r. unfold zag_i64. destruct (decode_variable 10 0 0 b) as [[[n r']|]|] eqn:E; [|discriminate|discriminate].
  apply variable_below in E; [|reflexivity]. cbv zeta. intros H. assert (K : forall x y p q, ZNumber x p = ZNumber y q -> x = y) by congruence. apply K in H. subst z. rewrite N.shiftr_div_pow2. change (2 ^ 1)%N with 2%N.
  assert (H : (n / 2 < 9223372036854775808)%N) by (apply N.div_lt_upper_bound; [discriminate|exact E]). revert H. generalize (n / 2)%N. intros h H. unfold long_range. destruct (N.land n 1 =? 0)%N; lia.
Qed.
Lemma long_value : forall b z r, long b = Some (z, r) -> long_range z.
Proof. intros b z r. unfold long. destruct (zag_i64 b) eqn:E; [|discriminate|discriminate]. intros [= <- <-]. now apply zag_range in E. Qed.
Lemma int_value : forall b z r, int b = Some (z, r) -> int_range z.
Proof.
  intros b z r. unfold int. destruct (long b) as [[y q]|]; [|discriminate]. destruct ((-2147483648 <=? y) && (y <=? 2147483647))%Z eqn:E; [|discriminate].
  intros [= <- <-]. unfold int_range. lia.
Qed.

Definition typed (s : avro) : Prop := forall b v r, decode s b = Some (v, r) -> r <> "" -> conforms s v.
Lemma front : forall {A} (f : string -> option (A * string)), steady f -> forall b x r, f b = Some (x, r) -> r <> "" -> b <> "".
Proof. intros A f S b x r H N ->. destruct (S _ _ _ H) as [[c C] _]. destruct c; [now elim N|discriminate]. Qed.
Lemma items_typed : forall {A} (good : list A -> Prop) (item : list A -> string -> option (list A * string)), (forall done, steady (item done)) ->
  (forall done b done' r, good done -> item done b = Some (done', r) -> r <> "" -> good done') ->
  forall n done b done' r, good done -> decode_items item n done b = Some (done', r) -> r <> "" -> good done'.
Proof.
  intros A good item S I. induction n as [|n IH]; intros done b done' r G H N; cbn [decode_items] in H; [injection H as <- <-; exact G|].
  destruct (item done b) as [[d1 r1]|] eqn:E; [|discriminate].
  assert (N1 : r1 <> "") by (eapply front; [|exact H|exact N]; now apply items_steady). eapply IH; [|exact H|exact N]. now apply (I done b d1 r1).
Qed.
Lemma blocks_typed : forall {A} (good : list A -> Prop) (item : list A -> string -> option (list A * string)), (forall done, steady (item done)) ->
  (forall done b done' r, good done -> item done b = Some (done', r) -> r <> "" -> good done') ->
  forall fuel done b done' r, good done -> decode_blocks item fuel done b = Some (done', r) -> r <> "" -> good done'.
Proof.
  intros A good item S I. induction fuel as [|fuel IH]; intros done b done' r G H N; cbn [decode_blocks] in H; [discriminate|].
  destruct (decode_seq_len b) as [[n r0]|] eqn:E; [|discriminate]. destruct (n =? 0)%N; [injection H as <- <-; exact G|].
  destruct (decode_items item (N.to_nat n) done r0) as [[d1 r1]|] eqn:Ei; [|discriminate].
  assert (N1 : r1 <> "") by (intros ->; destruct fuel; discriminate H).
  eapply IH; [|exact H|exact N]. now apply (items_typed good item S I _ _ _ _ _ G Ei).
Qed.
Lemma put_forall : forall (P : value -> Prop) k v m, P v -> Forall (fun e => P (snd e)) m -> Forall (fun e : string * value => P (snd e)) (put_key k v m).
Proof.
  intros P k v m V. induction m as [|[k' v'] m IH]; cbn [put_key]; intros F; [now repeat constructor|]. apply Forall_cons_iff in F as [F G].
  destruct (String.eqb k k'); constructor; auto.
Qed.
Lemma decode_typed : forall s, typed s.
Proof.
  intros s. pattern s. apply avro_ind'; clear s.
  - intros i I b v r H N. cbn [decode] in H. destruct (decode_blocks _ _ [] b) as [[l q]|] eqn:E; [|discriminate]. injection H as <- <-. constructor.
    refine (blocks_typed (Forall (conforms i)) _ _ _ _ _ _ _ _ _ E N); [| |constructor].
    + intros done. now apply (steady_map (decode i) (fun v => (done ++ [v])%list) (decode_steady i)).
    + intros done c done' q' G X Q. unfold push_item in X. destruct (decode i c) as [[v q2]|] eqn:D; [|discriminate]. injection X as <- <-.
      apply Forall_app. split; [exact G|]. constructor; [|constructor]. now apply (I c v q2).
  - intros i I b v r H N. cbn [decode] in H. destruct (decode_blocks _ _ [] b) as [[l q]|] eqn:E; [|discriminate]. injection H as <- <-. constructor.
    refine (blocks_typed (Forall (fun e => conforms i (snd e))) _ _ _ _ _ _ _ _ _ E N); [| |constructor].
    + intros done. apply steady_ext with (f := fun b => match text b with Some (k, r) => match k with Some k => match decode i r with Some (v, r) => Some (put_key k v done, r) | None => None end | None => None end | None => None end).
      * intros c. unfold push_entry. now destruct (text c) as [[[k|] q']|].
      * apply (steady_bind text (fun k r => match k with Some k => match decode i r with Some (v, r) => Some (put_key k v done, r) | None => None end | None => None end)); [exact text_steady|].
        intros [k|]; [apply (steady_map (decode i) (fun v => put_key k v done) (decode_steady i))|apply steady_fail].
    + intros done c done' q' G X Q. unfold push_entry in X. destruct (text c) as [[[k|] q1]|]; [|discriminate|discriminate].
      destruct (decode i q1) as [[v q2]|] eqn:D; [|discriminate]. injection X as <- <-. apply put_forall; [|exact G]. now apply (I q1 v q2).
  - intros vs I b x r H N. rewrite decode_union in H. destruct (zag_i64 b) as [z r1| |] eqn:E; [| |discriminate].
    + destruct (0 <=? z)%Z eqn:Z0; [|discriminate]. destruct (nth_error vs (Z.to_nat z)) as [s|] eqn:En; [|discriminate].
      destruct (decode s r1) as [[v r2]|] eqn:D; [|discriminate]. injection H as <- <-. rewrite Forall_forall in I. econstructor; [exact En|]. now apply (I s (nth_error_In _ _ En) r1 v r2).
    + injection H as <- <-. now elim N.
  - intros fs I b x r H N. rewrite decode_record in H. destruct (decode_fields fs b) as [[l q]|] eqn:E; [|discriminate]. injection H as <- <-. constructor.
    revert b l E. induction I as [|[[n al] s] fs F I IH]; intros b l E; cbn [decode_fields] in E; [injection E as <- <-; constructor|].
    destruct (decode s b) as [[v r1]|] eqn:D; [|discriminate]. destruct (decode_fields fs r1) as [[l1 r2]|] eqn:D1; [|discriminate]. injection E as <- <-.
    assert (N1 : r1 <> "") by (eapply front; [|exact D1|exact N]; apply fields_steady; rewrite Forall_forall; intros f _; apply decode_steady).
    constructor; [|now apply (IH r1)]. split; [reflexivity|]. now apply (F b v r1).
  - intros s Na Nm Nu Nr b v r H N.
    destruct s; try (now elim (Na _ eq_refl)); try (now elim (Nm _ eq_refl)); try (now elim (Nu _ eq_refl)); try (now elim (Nr _ eq_refl)); cbn [decode] in H; try discriminate.
    all: try (match type of H with match int ?x with _ => _ end = _ => destruct (int x) as [[z q]|] eqn:E; [|discriminate] end).
    all: try (match type of H with match long ?x with _ => _ end = _ => destruct (long x) as [[z q]|] eqn:E; [|discriminate] end).
    all: try (injection H as <- <-; constructor; first [now apply int_value in E|now apply long_value in E]).
    + destruct b as [|c b]; [injection H as <- <-; now elim N|]. destruct (N_of_ascii c =? 0)%N; [|destruct (N_of_ascii c =? 1)%N; [|discriminate]]; injection H as <- <-; constructor.
    + destruct (exactly 4 b) as [[f q]|]; [|discriminate]. injection H as <- <-. constructor.
    + destruct (exactly 8 b) as [[f q]|]; [|discriminate]. injection H as <- <-. constructor.
    + destruct (bytes b) as [[f q]|]; [|discriminate]. injection H as <- <-. constructor.
    + unfold text in H. destruct (decode_len b) as [[n q]|]; [|discriminate]. destruct (exactly n q) as [[t q']|].
      * destruct (utf8_valid t); [|discriminate]. injection H as <- <-. constructor.
      * injection H as <- <-. now elim N.
    + destruct ((0 <=? z) && (z <? Z.of_nat (List.length symbols)))%Z; [|discriminate]. destruct (nth_error symbols (Z.to_nat z)) as [t|] eqn:En; [|discriminate].
      injection H as <- <-. now constructor.
    + destruct (exactly (N.of_nat size) b) as [[f q]|] eqn:E; [|discriminate]. injection H as <- <-. constructor. apply exactly_some in E. lia.
    + destruct (match fixed with None => bytes b | Some n => exactly (N.of_nat n) b end) as [[f q]|]; [|discriminate]. injection H as <- <-. constructor.
    + destruct (exactly 12 b) as [[f q]|]; [|discriminate]. injection H as <- <-. constructor.
Qed.
