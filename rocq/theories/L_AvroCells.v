(** * Lemmas on columns of bytes and on the names of union variants *)
From Verif Require Import Base Str M_Avro S_Avro S_AvroCells L_Base L_Avro L_Batch L_ArrowSchema.
Local Open Scope string_scope.
Lemma byte_code : forall n c, (0 <= n <= 255)%Z -> ascii_of_N (Z.to_N n) = c <-> n = Z.of_N (N_of_ascii c).
Proof.
  intros n c H. split.
  - intros <-. rewrite N_ascii_embedding by lia. lia.
  - intros ->. rewrite N2Z.id. apply ascii_N_embedding.
Qed.
Lemma byte_range : forall c, (0 <= Z.of_N (N_of_ascii c) <= 255)%Z.
Proof. intros c. pose proof (N_ascii_bounded c). lia. Qed.
Lemma resolve_u8_spec : forall v c, resolve_u8 v = Some c <-> byte_item v c.
Proof.
  assert (B : forall n c, (if (0 <=? n)%Z && (n <=? 255)%Z then Some (ascii_of_N (Z.to_N n)) else None) = Some c <-> n = Z.of_N (N_of_ascii c)).
  { intros n c. pose proof (byte_range c). destruct (Z.leb_spec 0 n), (Z.leb_spec n 255); cbn [andb]; try (split; [discriminate|lia]). split; [intros [= E]; now apply byte_code|intros E; f_equal; now apply byte_code]. }
  intros v c. unfold byte_item. pose proof (byte_range c) as R. destruct v; cbn [resolve_u8]; try (split; [discriminate|intros [E|[k E]]; discriminate]).
  - rewrite B. split; [intros ->; now left|intros [[= ->]|[k E]]; [reflexivity|discriminate]].
  - rewrite B. unfold low32. split.
    + intros E. right. exists ((z + 2147483648) / 4294967296)%Z. f_equal. rewrite <- E. pose proof (Z.div_mod (z + 2147483648) 4294967296). lia.
    + intros [E|[k [= ->]]]; [discriminate|]. replace (Z.of_N (N_of_ascii c) + k * 4294967296 + 2147483648)%Z with ((Z.of_N (N_of_ascii c) + 2147483648) + k * 4294967296)%Z by ring. rewrite Z_mod_plus_full, Z.mod_small; lia.
Qed.
Lemma bytes_of_spec : forall l s, bytes_of l = Some s <-> Forall2 byte_item l (list_ascii_of_string s).
Proof.
  induction l as [|v l IH]; intros s; cbn [bytes_of].
  - split; [intros [= <-]; constructor|]. destruct s; [reflexivity|]. intros F. inversion F.
  - split.
    + destruct (resolve_u8 v) as [c|] eqn:E; [|discriminate]. destruct (bytes_of l) as [s'|] eqn:E'; [|discriminate]. intros [= <-]. cbn. constructor; [now apply resolve_u8_spec|now apply IH].
    + intros F. destruct s as [|c s]; cbn in F; inversion F as [|? ? ? ? H1 H2]; subst. apply resolve_u8_spec in H1. apply IH in H2. now rewrite H1, H2.
Qed.
Lemma resolve_bytes_spec : forall v, (forall s, bytes_value v s <-> resolve_bytes v = Some (SlBytes s)) /\ ((forall s, ~ bytes_value v s) -> resolve_bytes v = None).
Proof.
  assert (U : forall v s, bytes_value v s <-> unwrap v = AvBytes s \/ unwrap v = AvString s \/ exists items, unwrap v = AvArray items /\ Forall2 byte_item items (list_ascii_of_string s)).
  { intros v s. unfold bytes_value. split.
    - intros [w [[[-> N]|[i ->]] H]]; [|exact H]. replace (unwrap w) with w; [exact H|]. destruct w; try reflexivity. exfalso; eapply N; reflexivity.
    - intros H. exists (unwrap v). split; [|exact H]. destruct v; try (left; split; [reflexivity|discriminate]). right. eexists; reflexivity. }
  assert (A : forall v s, bytes_value v s <-> resolve_bytes v = Some (SlBytes s)).
  { intros v s. rewrite U. unfold resolve_bytes. destruct (unwrap v) eqn:E; try (split; [intros [X|[X|[it [X _]]]]; discriminate|discriminate]).
    - split; [intros [[= ->]|[X|[it [X _]]]]; [reflexivity|discriminate|discriminate]|intros [= ->]; now left].
    - split; [intros [X|[[= ->]|[it [X _]]]]; [discriminate|reflexivity|discriminate]|intros [= ->]; right; now left].
    - split.
      + intros [X|[X|[it [[= <-] F]]]]; [discriminate|discriminate|]. apply bytes_of_spec in F. now rewrite F.
      + destruct (bytes_of vs) as [s0|] eqn:Eb; [|discriminate]. intros [= <-]. right. right. exists vs. split; [reflexivity|now apply bytes_of_spec]. }
  intros v. split; [apply A|]. intros N. destruct (resolve_bytes v) as [sl|] eqn:E; [|reflexivity]. exfalso.
  assert (exists s, sl = SlBytes s) as [s ->].
  { unfold resolve_bytes in E. destruct (unwrap v); try discriminate; try (injection E as <-; eauto). destruct (bytes_of vs); [|discriminate]. injection E as <-. eauto. }
  apply (N s). now apply A.
Qed.
Lemma rows_read : forall vs, to_rows (rows_of "a" vs) = Ok (map (fun v => [("a", v)]) vs).
Proof. unfold to_rows, rows_of. induction vs as [|v vs IH]; [reflexivity|]. cbn [map mapM bind] in *. now rewrite IH. Qed.
Lemma variant_types : forall n vs, Forall simple_type vs -> exists l, mapM (fun s => let* (d, u) := to_type s n in Ok (default_field_name d, d, u)) vs = Ok l
  /\ Forall2 (fun s f => exists d, to_type s n = Ok (d, n) /\ f = (default_field_name d, d, n)) vs l.
Proof.
  induction vs as [|s vs IH]; intros F; [exists []; now split|]. inversion F as [|? ? H1 H2]; subst. destruct (IH H2) as [l [E G]].
  assert (exists d, to_type s n = Ok (d, n)) as [d D]. { unfold simple_type in H1. cbn in H1. decompose [or] H1; try contradiction; subst s; cbn; eauto. }
  exists ((default_field_name d, d, n) :: l). cbn [mapM bind]. rewrite D. cbn [bind]. rewrite E. split; [reflexivity|]. constructor; eauto.
Qed.
Lemma simple_names : forall n s s' d d', simple_type s -> simple_type s' -> to_type s n = Ok (d, n) -> to_type s' n = Ok (d', n) -> default_field_name d = default_field_name d' -> s = s'.
Proof.
  intros n s s' d d' H H' E E' N. unfold simple_type in H, H'. cbn in H, H'.
  decompose [or] H; try contradiction; subst s; cbn in E; injection E as <-; decompose [or] H'; try contradiction; subst s'; cbn in E'; injection E' as <-; try reflexivity; discriminate N.
Qed.
Lemma names_differ : forall n vs l, Forall simple_type vs -> NoDup vs -> Forall2 (fun s f => exists d, to_type s n = Ok (d, n) /\ f = (default_field_name d, d, n)) vs l -> NoDup (map fname l).
Proof.
  intros n vs l F N G. induction G as [|s f vs' l' [d [T ->]] G IH]; [constructor|]. inversion F as [|? ? F1 F2]; inversion N as [|? ? N1 N2]; subst. cbn [map fname fst].
  constructor; [|now apply IH]. intros I. apply in_map_iff in I as [g [Eg I]]. apply (In_nth _ _ g) in I as [k [K I]].
  assert (exists s', In s' vs' /\ exists d', to_type s' n = Ok (d', n) /\ g = (default_field_name d', d', n)) as [s' [Is [d' [T' ->]]]].
  { clear -G I K. revert k I K. induction G as [|a b x y H G IH]; intros k I K; [cbn in K; lia|]. destruct k as [|k]; cbn in I, K.
    - subst b. exists a. split; [now left|exact H].
    - destruct (IH k I) as [s' [A B]]; [lia|]. exists s'. split; [now right|exact B]. }
  apply N1. rewrite (simple_names n s s' d d'); auto. now apply (proj1 (Forall_forall _ _) F2).
Qed.
