(** Lemmas for C95: where bytes are taken as text. *)
From Verif Require Import Base Str M_Utf8 M_Time M_Instant M_Builder M_Expr M_Log M_Config M_Avro M_Datum M_Json S_Config S_Avro S_Datum S_Json S_Utf8 S_Text L_Base L_Str L_Avro L_Datum L_Utf8 L_Robust.
Local Open Scope string_scope.

(** Properties files. *)
Lemma split_valid : forall c s, byte_in 0 127 c = true -> utf8_valid s = forallb utf8_valid (split c s).
Proof.
  intros c s C.
  assert (A : forall k s, (String.length s <= k)%nat -> utf8_valid s = forallb utf8_valid (split c s)).
  { induction k as [|k IH]; intros x L.
    - destruct x; [reflexivity|cbn in L; lia].
    - destruct (split_once c x) as [[a b]|] eqn:E.
      + pose proof (split_once_some _ _ _ _ E) as [-> N]. rewrite split_cons by exact N. cbn [forallb]. rewrite utf8_cut by exact C. f_equal. apply IH. rewrite length_app_s in L. cbn [String.length] in L. lia.
      + apply split_once_none in E. rewrite split_single by exact E. cbn [forallb]. now rewrite Bool.andb_true_r. }
  now apply (A (String.length s)).
Qed.
Lemma strip_cr_valid : forall l, utf8_valid (strip_cr l) = utf8_valid l.
Proof.
  intros l. unfold strip_cr. destruct (rsplit_once "013" l) as [[a [|? ?]]|] eqn:E; try reflexivity. apply rsplit_once_some in E as [-> _].
  rewrite utf8_cut by reflexivity. cbn [utf8_valid]. now rewrite Bool.andb_true_r.
Qed.
Lemma lines_valid : forall data, forallb utf8_valid (lines data) = utf8_valid data.
Proof.
  intros data. unfold lines. rewrite (split_valid "010" data eq_refl). generalize (split "010" data). intros l. induction l as [|p [|q r] IH]; [reflexivity| |].
  - cbn [lines_of forallb]. destruct (String.eqb_spec p "") as [ -> |N]; [reflexivity|reflexivity].
  - change (lines_of (p :: q :: r)) with (strip_cr p :: lines_of (q :: r)). cbn [forallb] in *. rewrite strip_cr_valid. f_equal. exact IH.
Qed.
Lemma parse_lines_valid : forall chars ls m, if forallb utf8_valid ls then exists m', parse_lines chars ls m = Ok m' else parse_lines chars ls m = Err EConfigParse.
Proof.
  intros chars ls. induction ls as [|l r IH]; intros m; cbn [forallb parse_lines]; [eauto|]. destruct (utf8_valid l); [|reflexivity]. cbn [andb].
  destruct (parse_line chars l) as [[k v]|]; apply IH.
Qed.

(** Avro values. *)
Definition fine_value (v : value) : Prop := forall x, avro_string x v -> is_text x.
Lemma text_fine : forall b t r, M_Datum.text b = Some (Some t, r) -> is_text t.
Proof.
  intros b t r H. unfold M_Datum.text in H. destruct (decode_len b) as [[n r1]|]; [|discriminate]. destruct (exactly n r1) as [[u r2]|]; [|discriminate].
  destruct (utf8_valid u) eqn:U; [|discriminate]. injection H as <- <-. now apply utf8_valid_spec.
Qed.
Lemma blocks_fine : forall {A} (P : list A -> Prop) (item : list A -> string -> option (list A * string)), (forall done b done' r, P done -> item done b = Some (done', r) -> P done') ->
  forall fuel done b l r, P done -> decode_blocks item fuel done b = Some (l, r) -> P l.
Proof.
  intros A P item I.
  assert (J : forall n done b l r, P done -> decode_items item n done b = Some (l, r) -> P l).
  { induction n as [|n IH]; intros done b l r D H; cbn [decode_items] in H; [injection H as <- _; exact D|]. destruct (item done b) as [[d r1]|] eqn:E; [|discriminate]. eapply IH; [|exact H]. eapply I; eassumption. }
  induction fuel as [|fuel IH]; intros done b l r D H; [discriminate|]. cbn [decode_blocks] in H. destruct (decode_seq_len b) as [[n r1]|]; [|discriminate].
  destruct (n =? 0)%N; [injection H as <- _; exact D|]. destruct (decode_items item (N.to_nat n) done r1) as [[d r2]|] eqn:E; [|discriminate]. eapply IH; [|exact H]. eapply J; eassumption.
Qed.
Lemma put_key_in : forall k v m k' v', In (k', v') (put_key k v m) -> k' = k /\ v' = v \/ In (k', v') m.
Proof.
  intros k v m k' v'. induction m as [|[k0 v0] m IH]; cbn [put_key]; [intros [[= <- <-]|[]]; auto|]. destruct (String.eqb_spec k k0) as [ -> |N].
  - intros [[= <- <-]|H]; [now left|right; now right].
  - intros [[= <- <-]|H]; [right; now left|]. destruct (IH H) as [E|H']; [now left|right; now right].
Qed.
Lemma decode_fine : forall s b v r, decode s b = Some (v, r) -> fine_value v.
Proof.
  assert (Other : forall v, (forall x, ~ avro_string x v) -> fine_value v) by (intros v H x Hx; now elim (H x)).
  intros s. pattern s. apply avro_ind'; clear s.
  - intros i I b v r H. cbn [decode] in H. destruct (decode_blocks _ _ _ _) as [[l r1]|] eqn:E; [|discriminate]. injection H as <- _.
    assert (F : forall v, In v l -> fine_value v); [|clear E; rename F into E].
    2: { intros x Hx. inversion Hx as [| |? w Iw Hw| | |]; subst. now apply (E w Iw). }
    refine (blocks_fine (fun l => forall v, In v l -> fine_value v) _ _ _ _ _ _ _ _ E); [|intros ? []].
    intros done b0 done' r0 D H w Iw. unfold push_item in H. destruct (decode i b0) as [[u r2]|] eqn:Eu; [|discriminate]. injection H as <- _. apply in_app_or in Iw as [Iw|[ <- |[]]]; [now apply D|now apply (I b0 u r2)].
  - intros i I b v r H. cbn [decode] in H. destruct (decode_blocks _ _ _ _) as [[l r1]|] eqn:E; [|discriminate]. injection H as <- _.
    assert (F : forall k v, In (k, v) l -> is_text k /\ fine_value v); [|clear E; rename F into E].
    2: { intros x Hx. inversion Hx as [| | |? w Iw|? k w Iw Hw|]; subst; [exact (proj1 (E x w Iw))|exact (proj2 (E k w Iw) x Hw)]. }
    refine (blocks_fine (fun l => forall k v, In (k, v) l -> is_text k /\ fine_value v) _ _ _ _ _ _ _ _ E); [|intros ? ? []].
    intros done b0 done' r0 D H k w Iw. unfold push_entry in H. destruct (M_Datum.text b0) as [[[k0|] r2]|] eqn:Ek; try discriminate. destruct (decode i r2) as [[u r3]|] eqn:Eu; [|discriminate].
      injection H as <- _. apply put_key_in in Iw as [[-> ->]|Iw]; [|now apply D]. split; [now apply (text_fine b0 k0 r2)|now apply (I r2 u r3)].
  - intros vs I b v r H. rewrite decode_union in H. destruct (zag_i64 b) as [z r1| |]; [| |discriminate].
    + destruct (0 <=? z)%Z; [|discriminate]. destruct (nth_error vs (Z.to_nat z)) as [s|] eqn:En; [|discriminate]. destruct (decode s r1) as [[u r2]|] eqn:D; [|discriminate]. injection H as <- _.
      rewrite Forall_forall in I. intros x Hx. inversion Hx; subst. now apply (I s (nth_error_In _ _ En) r1 u r2).
    + injection H as <- _. intros x Hx. inversion Hx as [|? ? Hy| | | |]; subst. inversion Hy.
  - intros fs I b v r H. rewrite decode_record in H. destruct (decode_fields fs b) as [[l r1]|] eqn:E; [|discriminate]. injection H as <- _.
    assert (J : forall n u, In (n, u) l -> fine_value u).
    { revert b l r1 E. induction I as [|[[n al] s] fs F I IH]; intros b l r1 E; cbn [decode_fields] in E; [injection E as <- _; intros ? ? []|]. cbn [snd] in F.
      destruct (decode s b) as [[u r2]|] eqn:D; [|discriminate]. destruct (decode_fields fs r2) as [[us r3]|] eqn:D2; [|discriminate]. injection E as <- _.
      intros n' u' [[= <- <-]|J]; [now apply (F b u r2)|now apply (IH r2 us r3 D2 n')]. }
    intros x Hx. inversion Hx as [| | | | |? n u Iu Hu]; subst. now apply (J n u Iu).
  - intros s Na Nm Nu Nr b v r H. destruct s; try (now elim (Na _ eq_refl)); try (now elim (Nm _ eq_refl)); try (now elim (Nu _ eq_refl)); try (now elim (Nr _ eq_refl)); cbn [decode] in H; try discriminate H;
    try (repeat match type of H with
                | match ?e with _ => _ end = _ => let E := fresh "E" in destruct e eqn:E; try discriminate H
                | (if ?e then _ else _) = _ => destruct e; try discriminate H
                end; injection H as <- _; intros x Hx; inversion Hx; subst; fail).
    destruct (M_Datum.text b) as [[[t|] r1]|] eqn:E; [| |discriminate]; injection H as <- _; intros x Hx; inversion Hx; subst. eapply text_fine; exact E.
Qed.

(** JSON values. *)
Definition fine_json (v : json) : Prop := forall x, json_string x v -> is_text x.
Scheme text_mind := Induction for S_Json.text Sort Prop with elements_mind := Induction for elements Sort Prop with members_mind := Induction for members Sort Prop.
Lemma quoted_fine : forall t d, quoted t d -> is_text t.
Proof. intros t d [U _]. now apply utf8_valid_spec. Qed.
Lemma json_fine : forall number_of collect, is_map collect -> forall n v d, S_Json.text number_of collect n v d -> fine_json v.
Proof.
  intros nu co MP.
  assert (CO : forall l, (forall k v, In (k, v) l -> is_text k /\ fine_json v) -> fine_json (JObj (co l))).
  { intros l H. assert (K : forall k v, In (k, v) (co l) -> is_text k /\ fine_json v).
    { intros k v I. destruct (MP l) as [ND LM]. apply H.
      assert (G : jget k (co l) = Some v).
      { clear - ND I. induction (co l) as [|[k0 v0] m IH]; [destruct I|]. cbn [map fst] in ND. inversion ND as [|? ? N1 N2]; subst. cbn [jget]. destruct I as [[= <- <-]|I].
        - now rewrite String.eqb_refl.
        - destruct (String.eqb_spec k k0) as [ <- |N]; [elim N1; apply in_map_iff; exists (k, v); auto|]. exact (IH I N2). }
      rewrite LM in G. clear - G. induction l as [|[k0 v0] l IH]; cbn [last_member] in G; [discriminate|]. destruct (last_member k l) as [w|]; [injection G as ->; right; now apply IH|].
      destruct (String.eqb_spec k k0) as [ <- |N]; [|discriminate]. injection G as ->. now left. }
    intros x Hx. inversion Hx as [| |? w Iw|? k w Iw Hw]; subst; [exact (proj1 (K x w Iw))|exact (proj2 (K k w Iw) x Hw)]. }
  intros n v d H.
  apply (text_mind nu co (fun n v d _ => fine_json v) (fun n l d _ => forall v, In v l -> fine_json v) (fun n l d _ => forall k v, In (k, v) l -> is_text k /\ fine_json v)) with (n := n) (s := d); try exact H; clear n v d H.
  - intros n x Hx; inversion Hx.
  - intros n x Hx; inversion Hx.
  - intros n x Hx; inversion Hx.
  - intros n d z L E x Hx; inversion Hx.
  - intros n t d Q x Hx; inversion Hx; subst. eapply quoted_fine; eassumption.
  - intros n w B x Hx; inversion Hx as [|? v I| |]; subst. destruct I.
  - intros n l d N E I x Hx. inversion Hx as [|? v Iv Hv| |]; subst. now apply (I v Iv).
  - intros n w B. apply CO. intros ? ? [].
  - intros n l d N E I. now apply CO.
  - intros n w v d w' B T I B' u [ <- |[]]. exact I.
  - intros n w v d w' l e B T I B' E I' u [ <- |J]; [exact I|now apply I'].
  - intros n w k q w1 w2 v d w3 B Q B1 B2 T I B3 k' v' [[= <- <-]|[]]. split; [now apply (quoted_fine k q)|exact I].
  - intros n w k q w1 w2 v d w3 l e B Q B1 B2 T I B3 M I' k' v' [[= <- <-]|J]; [split; [now apply (quoted_fine k q)|exact I]|now apply I'].
Qed.
Lemma json_bytes : forall n, (n < 1114112)%N -> encode_utf8 n = utf8 n.
Proof.
  intros n H. unfold encode_utf8, utf8. change byte_of with one. unfold one. destruct (n <? 128)%N; [reflexivity|]. destruct (n <? 2048)%N; [reflexivity|]. destruct (n <? 65536)%N; reflexivity.
Qed.

(** Headers and footers of log blocks. *)
Definition fine_meta (m : metadata) : Prop := forall k v, In (k, v) m -> is_text v.
Lemma meta_insert_fine : forall k v m, is_text v -> fine_meta m -> fine_meta (meta_insert k v m).
Proof.
  intros k v m V. induction m as [|[k0 v0] m IH]; intros F k' v'; cbn [meta_insert]; [intros [[= <- <-]|[]]; exact V|]. destruct (meta_key_eqb k0 k).
  - intros [[= <- <-]|I]; [exact V|]. apply (F k'). now right.
  - intros [[= <- <-]|I]; [apply (F k0); now left|]. apply (IH (fun a b J => F a b (or_intror J)) k' v' I).
Qed.
Lemma metadata_fine : forall present s m r, read_metadata present s = Ok (m, r) -> fine_meta m.
Proof.
  assert (E : forall n m s m' r, fine_meta m -> read_entries n m s = Ok (m', r) -> fine_meta m').
  { induction n as [|n IH]; intros m s m' r F H; cbn [read_entries] in H; [now injection H as <- _|]. apply bind_ok in H as [[[k v] s1] [H1 H]]. eapply IH; [|exact H]. apply meta_insert_fine; [|exact F].
    apply utf8_valid_spec. now apply L_Robust.entry_wf in H1 as [H1 _]. }
  intros [] s m r H; cbn [read_metadata] in H; [|injection H as <- _; intros ? ? []]. apply bind_ok in H as [[n s1] [_ H]]. eapply E; [|exact H]. intros ? ? [].
Qed.
Section Blocks.
Variable avro_schema avro_value batch : Type.
Variable parse_schema : string -> option avro_schema.
Variable datum : avro_schema -> string -> option (avro_value * string).
Variable check_schema : avro_schema -> outcome unit.
Variable to_batch : avro_schema -> list avro_value -> outcome batch.
Variable parquet : string -> option (list batch).
Variable local_to_utc : ndt -> option ndt.
Lemma blocks_text : forall range tz s bs b, read_all_blocks avro_schema avro_value batch parse_schema datum check_schema to_batch parquet local_to_utc range tz s = Ok bs -> In b bs ->
  fine_meta (lb_header b) /\ fine_meta (lb_footer b).
Proof.
  intros range tz s bs b H I. unfold read_all_blocks in H.
  destruct (read_loop _ _ _ _ _ _ _ _ _ range tz (S (String.length s)) s) as [o|] eqn:L; [|discriminate]. subst o. revert bs I L. generalize (S (String.length s)). intros n. revert s.
  induction n as [|n IH]; intros s bs I L; [discriminate|]. cbn [read_loop] in L.
  destruct (read_next_block _ _ _ _ _ _ _ _ _ range tz s) as [[[b' s']|]|e|] eqn:N; try discriminate; [|injection L as <-; destruct I].
  destruct (read_loop _ _ _ _ _ _ _ _ _ range tz n s') as [[bs'|e|]|] eqn:R; try discriminate. injection L as <-.
  assert (J : b = b' \/ In b bs'). { destruct (lb_skipped b'); [now right|]. destruct I as [ <- |I]; [now left|now right]. }
  destruct J as [ -> |J]; [|now apply (IH s' bs')].
  unfold read_next_block in N. apply bind_ok in N as [[more s1] [_ N]]. destruct more; [|discriminate]. apply bind_ok in N as [r [B N]]. injection N as ->.
  unfold read_block_body in B. apply bind_ok in B as [[len s2] [_ B]]. apply bind_ok in B as [[vn s3] [_ B]]. apply bind_ok in B as [v [_ B]]. apply bind_ok in B as [[ty s4] [_ B]].
  apply bind_ok in B as [[header s5] [B1 B]]. apply bind_ok in B as [sk [_ B]]. apply bind_ok in B as [[bt s6] [_ B]]. apply bind_ok in B as [[footer s7] [B2 B]]. apply bind_ok in B as [[x s8] [_ B]].
  injection B as <- _. cbn [lb_header lb_footer]. split; eapply metadata_fine; eassumption.
Qed.
End Blocks.
