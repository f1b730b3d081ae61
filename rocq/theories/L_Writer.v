(** Lemmas for C94: what writers leave. *)
From Verif Require Import Base Str M_Utf8 M_Time M_FileGroup M_Listing M_Log M_Reader M_Storage M_Avro M_Values M_Objects
  S_Time S_FileGroup S_Listing S_Log S_Reader S_Avro S_Storage S_Objects S_History S_Values S_Datum S_Whole S_Writer
  L_Base L_Str L_Time L_Expr L_FileGroup L_Storage L_Objects L_Scan L_Log L_Reader L_History.
Local Open Scope string_scope.

(** ** Texts *)
Lemma digits_app : forall a b, all_digits a -> all_digits b -> all_digits (a ++ b).
Proof. induction a as [|c a IH]; intros b A B; [exact B|]. destruct A as [A1 A2]. split; [exact A1|]. now apply IH. Qed.
Lemma digits_pad : forall n z, all_digits (pad n z).
Proof.
  induction n as [|n IH]; intros z; [exact I|]. cbn [pad]. apply digits_app; [apply IH|]. split; [|exact I].
  assert (0 <= z mod 10 < 10)%Z by (apply Z.mod_pos_bound; lia). unfold digit. rewrite N_ascii_embedding; lia.
Qed.
Lemma digits_render : forall c, all_digits (render c).
Proof. intros c. unfold render. repeat (apply digits_app; [apply digits_pad|]). destruct (c_ms c); [apply digits_pad|exact I]. Qed.
Lemma digits_char : forall s c, all_digits s -> ~ (48 <= N_of_ascii c <= 57)%N -> has_char c s = false.
Proof.
  induction s as [|d s IH]; intros c A N; [reflexivity|]. destruct A as [A1 A2]. cbn [has_char]. rewrite (IH c A2 N), Bool.orb_false_r.
  apply Bool.not_true_is_false. intros X. apply Ascii.eqb_eq in X. subst d. contradiction.
Qed.
Lemma digits_safe : forall s, all_digits s -> has_control s = false /\ utf8_valid s = true.
Proof.
  induction s as [|d s IH]; intros A; [auto|]. destruct A as [A1 A2]. destruct (IH A2) as [I1 I2].
  split.
  - cbn [has_control]. rewrite I1, Bool.orb_false_r. unfold is_control. apply Bool.orb_false_iff. split; [apply N.ltb_ge; lia|apply N.eqb_neq; lia].
  - cbn [utf8_valid]. replace (byte_in 0 127 d) with true; [exact I2|]. symmetry. unfold byte_in. apply andb_true_iff. split; apply N.leb_le; lia.
Qed.
Lemma control_app : forall a b, has_control (a ++ b) = (has_control a || has_control b)%bool.
Proof. induction a as [|c a IH]; intros b; [reflexivity|]. cbn [append has_control]. now rewrite IH, Bool.orb_assoc. Qed.
Lemma timestamp_word : forall x, timestamp x -> word x /\ exists d r, x = String d r /\ (48 <= N_of_ascii d <= 57)%N.
Proof.
  intros x [c [V [M ->]]]. pose proof (digits_render c) as D. pose proof (timestamp_width c M V) as W. destruct (digits_safe _ D) as [A B]. split.
  - split; [intros E; rewrite E in W; discriminate|]. repeat (split; [apply digits_char; [exact D|cbn; lia]|]). auto.
  - destruct (render c) as [|d r]; [discriminate|]. destruct D as [D _]. eauto.
Qed.
Lemma last_part : forall c a b a' b', has_char c b = false -> has_char c b' = false -> a ++ String c b = a' ++ String c b' -> a = a' /\ b = b'.
Proof. intros c a b a' b' B B' E. pose proof (rsplit_once_app c a b B) as H. rewrite E, (rsplit_once_app c a' b' B') in H. injection H as -> ->. auto. Qed.
Lemma first_part : forall c a b a' b', has_char c a = false -> has_char c a' = false -> a ++ String c b = a' ++ String c b' -> a = a' /\ b = b'.
Proof. intros c a b a' b' B B' E. pose proof (split_once_app c a b B) as H. rewrite E, (split_once_app c a' b' B') in H. injection H as -> ->. auto. Qed.

Lemma legal_parts : forall l, Forall legal l -> Forall (fun e => e <> "" /\ has_char "/" e = false) l.
Proof. intros l F. eapply Forall_impl; [|exact F]. intros a [A [B _]]. auto. Qed.
Lemma keys_inj : forall a b, Forall legal a -> Forall legal b -> key_of a = key_of b -> a = b.
Proof. intros a b A B E. apply L_Scan.join_inj; auto using legal_parts. Qed.

(** ** Names of files *)
Section Names.
Variable format : string.
Hypothesis FW : word format.
Hypothesis FC : format <> "crc".
Definition base_text (id token x : string) : string := id ++ "_" ++ token ++ "_" ++ x ++ "." ++ format.
Definition log_text (id b version token : string) : string := "." ++ id ++ "_" ++ b ++ "." ++ "log" ++ "." ++ version ++ "_" ++ token.
Lemma base_text_split : forall id token x, base_text id token x = (id ++ "_" ++ token ++ "_" ++ x) ++ String "." format.
Proof. intros. unfold base_text. now rewrite !app_assoc_s. Qed.
Lemma log_text_split : forall id b version token, log_text id b version token = ("." ++ id ++ "_" ++ b ++ "." ++ "log") ++ String "." (version ++ "_" ++ token).
Proof. intros. unfold log_text. cbn [append]. f_equal. rewrite !app_assoc_s. cbn [append]. rewrite ?app_assoc_s. reflexivity. Qed.
Lemma base_text_file : forall id token x m, word id -> word token -> word x ->
  base_file_of (base_text id token x) m = Ok {| bf_file_id := id; bf_write_token := token; bf_commit := x; bf_ext := format; bf_meta := m |}.
Proof. intros id token x m I T X. unfold base_text. apply base_name_round_trip; [apply I|apply T|apply X|apply FW]. Qed.
Lemma log_text_file : forall id b version token m, word id -> word b -> word version -> word token ->
  log_file_of (log_text id b version token) m = Ok {| lf_file_id := id; lf_base_commit := b; lf_ext := "log"; lf_version := version; lf_write_token := token; lf_meta := m |}.
Proof. intros id b v t m I B V T. unfold log_text. apply log_name_round_trip; try (apply I); try (apply B); try (apply V); try (apply T); try reflexivity; discriminate. Qed.
Lemma log_last : forall v t, word v -> word t -> has_char "." (v ++ "_" ++ t) = false.
Proof. intros v t V T. rewrite !L_Str.has_char_app. destruct V as [_ [_ [_ [-> _]]]]. destruct T as [_ [_ [_ [-> _]]]]. reflexivity. Qed.
Lemma under_in : forall a b, has_char "_" (a ++ "_" ++ b) = true.
Proof. intros a b. rewrite !L_Str.has_char_app. cbn. now rewrite Bool.orb_true_r. Qed.
Lemma base_text_named : forall id token x, base_named format (base_text id token x).
Proof. intros. exists (id ++ "_" ++ token ++ "_" ++ x). rewrite base_text_split. reflexivity. Qed.
Lemma log_text_not_base : forall id b v t, word v -> word t -> ~ base_named format (log_text id b v t).
Proof.
  intros id b v t V T [r E]. rewrite log_text_split in E. apply last_part in E as [_ E]; [|now apply log_last|apply FW].
  pose proof (under_in v t) as U. rewrite E in U. destruct FW as [_ [F _]]. congruence.
Qed.
Lemma word_crc : word "crc".
Proof. repeat split; discriminate. Qed.
Lemma base_text_unmarked : forall id token x, word id -> ~ marker_name (base_text id token x).
Proof.
  intros id token x I [[r E]|[r E]].
  - destruct I as [N [_ [_ [D _]]]]. destruct id as [|c id]; [now elim N|]. unfold base_text in E. cbn in E. injection E as -> _. cbn in D. discriminate.
  - rewrite base_text_split in E. apply last_part in E as [_ E]; [contradiction|apply FW|apply word_crc].
Qed.
Lemma log_text_unmarked : forall id b v t, word id -> word v -> word t -> timestamp b -> ~ marker_name (log_text id b v t).
Proof.
  intros id b v t I V T B [[r E]|[r E]].
  - unfold log_text in E. cbn [append] in E. injection E as E.
    change (String "h" _) with ("hoodie" ++ String "_" ("partition_metadata" ++ r)) in E.
    apply (first_part "_") in E as [_ E]; [|apply I|reflexivity]. destruct (timestamp_word b B) as [_ [d [s [-> D]]]]. cbn in E. injection E as -> _. cbn in D. lia.
  - rewrite log_text_split in E. apply last_part in E as [_ E]; [|now apply log_last|apply word_crc]. pose proof (under_in v t) as U. rewrite E in U. discriminate.
Qed.
Definition fine (s : string) : Prop := has_char "/" s = false /\ has_control s = false /\ utf8_valid s = true.
Lemma fine_word : forall w, word w -> fine w.
Proof. intros w [_ [_ [W1 [_ [W2 W3]]]]]. split; [exact W1|]. auto. Qed.
Lemma fine_app : forall a b, fine a -> fine b -> fine (a ++ b).
Proof.
  intros a b [A1 [A2 A3]] [B1 [B2 B3]]. split; [now rewrite L_Str.has_char_app, A1, B1|]. split; [now rewrite control_app, A2, B2|]. now apply utf8_app_true.
Qed.
Lemma fine_legal : forall s, fine s -> (2 < String.length s)%nat -> legal s.
Proof.
  intros s [A [B C]] L. split; [intros ->; cbn in L; lia|]. split; [exact A|]. split; [intros ->; cbn in L; lia|]. split; [intros ->; cbn in L; lia|]. auto.
Qed.
Lemma fine_lit : forall s, has_char "/" s = false -> has_control s = false -> utf8_valid s = true -> fine s.
Proof. intros s A B C. split; auto. Qed.
Lemma word_length : forall w, word w -> (1 <= String.length w)%nat.
Proof. intros [|c w] [N _]; [now elim N|cbn; lia]. Qed.
Lemma base_text_legal : forall id token x, word id -> word token -> word x -> legal (base_text id token x).
Proof.
  intros id token x I T X. apply fine_legal.
  - unfold base_text. repeat (apply fine_app; [first [now apply fine_word|now apply fine_lit]|]). now apply fine_word.
  - unfold base_text. pose proof (word_length _ I). pose proof (word_length _ T). rewrite !length_app_s. cbn [String.length]. lia.
Qed.
Lemma log_text_legal : forall id b v t, word id -> word b -> word v -> word t -> legal (log_text id b v t).
Proof.
  intros id b v t I B V T. apply fine_legal.
  - unfold log_text. repeat (apply fine_app; [first [now apply fine_word|now apply fine_lit]|]). now apply fine_word.
  - unfold log_text. rewrite !length_app_s. cbn [String.length]. lia.
Qed.
Lemma base_text_inj : forall id token x id' token' x', word id -> word token -> word x -> word id' -> word token' -> word x' ->
  base_text id token x = base_text id' token' x' -> id = id' /\ token = token' /\ x = x'.
Proof.
  intros id token x id' token' x' I T X I' T' X' E. pose proof (base_text_file id token x None I T X) as H. rewrite E, base_text_file in H by assumption. injection H as -> -> ->. auto.
Qed.
Lemma log_text_inj : forall id b v t id' b' v' t', word id -> word b -> word v -> word t -> word id' -> word b' -> word v' -> word t' ->
  log_text id b v t = log_text id' b' v' t' -> id = id' /\ b = b' /\ v = v' /\ t = t'.
Proof.
  intros id b v t id' b' v' t' I B V T I' B' V' T' E. pose proof (log_text_file id b v t None I B V T) as H. rewrite E, log_text_file in H by assumption. injection H as -> -> -> ->. auto.
Qed.
Lemma base_not_log : forall id token x id' b v t, word v -> word t -> base_text id token x <> log_text id' b v t.
Proof. intros id token x id' b v t V T E. apply (log_text_not_base id' b v t V T). rewrite <- E. apply base_text_named. Qed.
End Names.

(** ** What is kept by every step *)
Lemma set_same : forall A (f : string * string -> A) g a, set_group f g a g = a.
Proof. intros. unfold set_group. now rewrite !String.eqb_refl. Qed.
Lemma set_other : forall A (f : string * string -> A) g a g', g' <> g -> set_group f g a g' = f g'.
Proof.
  intros A f g a g' N. unfold set_group. destruct (String.eqb_spec (fst g') (fst g)) as [E1|]; [|reflexivity]. destruct (String.eqb_spec (snd g') (snd g)) as [E2|]; [|reflexivity].
  elim N. destruct g, g'. cbn in *. congruence.
Qed.
Lemma set_cases : forall (g g' : string * string), g' = g \/ g' <> g.
Proof. intros [a b] [c d]. destruct (string_dec c a), (string_dec d b); subst; auto; right; congruence. Qed.

Section Inv.
Variable table : list string.
Variable format : string.
Variable depth : nat.
Variable parse_schema : string -> option avro.
Variable code : dtype -> nat.
Variable rank : dtype -> slot -> Z.
Variable parse_rows : string -> outcome record_batch.
Variable footer : string -> outcome (Z * Z).
Variable dfs : list M_Avro.field.
Variable k p s : nat.
(** What is known of the history of each file group, and of the time of its last write. *)
Definition about := string * string -> string -> group -> Prop.
Notation step := (step table format depth parse_schema code rank parse_rows footer dfs k p s).
Notation left := (left table format depth parse_schema code rank parse_rows footer dfs k p s).
Notation block_fine := (block_fine parse_schema dfs).
Notation block_of := (block_of code rank dfs).
Definition base_id (e : base_entry) := (be_group e, be_commit e).
Definition log_id (e : log_entry) := (le_group e, le_base e, le_version e, le_token e).
Record kept (H : about) (w : storage) : Prop := {
  k_base : forall e, In e (w_bases w) -> data_dir depth (be_dir e) /\ word (be_id e) /\ word (be_token e) /\ timestamp (be_commit e)
    /\ (exists stats, footer (be_data e) = Ok stats)
    /\ exists rows, In (be_commit e, rows) (g_bases (w_hist w (be_group e))) /\ parse_rows (be_data e) = Ok {| rb_fields := map (as_field code) dfs; rb_rows := rows |};
  k_bases : forall g c rows, In (c, rows) (g_bases (w_hist w g)) -> exists e, In e (w_bases w) /\ be_group e = g /\ be_commit e = c
    /\ parse_rows (be_data e) = Ok {| rb_fields := map (as_field code) dfs; rb_rows := rows |};
  k_base_once : NoDup (map base_id (w_bases w));
  k_log : forall e, In e (w_logs w) -> data_dir depth (le_dir e) /\ word (le_id e) /\ word (le_version e) /\ word (le_token e)
    /\ In (le_base e) (map fst (g_bases (w_hist w (le_group e))))
    /\ forall bl vs, In (bl, vs) (le_blocks e) -> exists x, block_fine x bl vs /\ timestamp x;
  k_log_once : NoDup (map log_id (w_logs w));
  k_blocks : forall g c x r, (exists rows, In (c, x, rows) (g_blocks (w_hist w g)) /\ In r rows)
    <-> exists e bl vs v, In e (w_logs w) /\ le_group e = g /\ le_base e = c /\ In (bl, vs) (le_blocks e) /\ at_instant bl x /\ In v vs /\ r = row_of code rank dfs v;
  k_rollbacks : forall g c y x, In (c, y, x) (g_rollbacks (w_hist w g))
    <-> exists e bl vs, In e (w_logs w) /\ le_group e = g /\ le_base e = c /\ In (bl, vs) (le_blocks e) /\ at_instant bl y /\ rolls_back bl x;
  k_hist : forall g, H g (w_last w g) (w_hist w g);
  k_typed : forall g, typed_versions code dfs (w_hist w g);
  k_others : Forall (other_object table depth) (w_others w) /\ NoDup (map o_key (w_others w))
}.
Lemma bases_last : forall now g, history k p s now g -> forall c, In c (map fst (g_bases g)) -> sle c now.
Proof.
  intros now g H. induction H as [|x moved rows T M L|now g x g' H IH T S W]; intros c I; [destruct I|destruct I as [ <- |[]]; apply sle_refl|].
  assert (J : In c (map fst (g_bases g)) \/ c = x).
  { inversion W; subst; cbn [g_bases] in I; try (left; exact I); rewrite map_app in I; apply in_app_or in I as [I|[I|[]]]; auto. }
  destruct J as [J|J]; [|subst; apply sle_refl]. apply sle_lt_or_eq. left. eapply sle_slt_trans; [apply (IH c J)|exact S].
Qed.
Lemma instant_once : forall x y bl vs, block_fine x bl vs -> at_instant bl y -> y = x.
Proof. intros x y bl vs [L [_ A]] B. exact (nodup_fst_inj _ _ _ _ (proj1 (lg_header _ _ _ _ _ L)) B A). Qed.

(** A block is added to a log file: what it adds to the group. *)
Lemma block_adds : forall g b x bl vs g', block_of g b x bl vs g' -> block_fine x bl vs ->
  g_bases g' = g_bases g
  /\ (forall c y r, (exists rows, In (c, y, rows) (g_blocks g') /\ In r rows) <-> (exists rows, In (c, y, rows) (g_blocks g) /\ In r rows) \/ (c = b /\ at_instant bl y /\ exists v, In v vs /\ r = row_of code rank dfs v))
  /\ (forall c y z, In (c, y, z) (g_rollbacks g') <-> In (c, y, z) (g_rollbacks g) \/ (c = b /\ at_instant bl y /\ rolls_back bl z)).
Proof.
  intros g b x bl vs g' B F. pose proof (proj2 (proj2 F)) as A. destruct B as [g' N E1 E2 E3|g' y R -> E1 E2 E3]; (split; [assumption|]); split; intros c i r.
  - rewrite E3. split.
    + intros [rows [I J]]. apply in_app_or in I as [I|[I|[]]]; [left; eauto|]. injection I as <- <- <-. right. apply in_map_iff in J as [v [J1 J2]]. eauto 6.
    + intros [[rows [I J]]|[ -> [Ai [v [I ->]]]]]; [exists rows; split; [apply in_or_app; now left|exact J]|]. rewrite (instant_once _ _ _ _ F Ai).
      exists (map (row_of code rank dfs) vs). split; [apply in_or_app; right; now left|]. apply in_map_iff. eauto.
  - rewrite E2. split; [auto|]. intros [I|[_ [_ I]]]; [exact I|]. now elim (N r).
  - rewrite E2. split; [auto|]. intros [I|[_ [_ [v [[] _]]]]]; exact I.
  - rewrite E3. split.
    + intros I. apply in_app_or in I as [I|[I|[]]]; [auto|]. injection I as <- <- <-. right. split; [reflexivity|]. split; [exact A|]. now apply R.
    + intros [I|[ -> [Ai Ri]]]; apply in_or_app; [now left|]. right. left. rewrite (instant_once _ _ _ _ F Ai). apply R in Ri. now subst r.
Qed.
Definition written_so : about := fun _ => history k p s.
Lemma kept_empty : forall H : about, (forall g, H g "" new_group_history) -> kept H empty_storage.
Proof.
  intros H HE. split; cbn [w_bases w_logs w_others w_hist w_last empty_storage map new_group_history g_bases g_blocks g_rollbacks].
  - intros e [].
  - intros g c rows [].
  - constructor.
  - intros e [].
  - constructor.
  - intros g c x r. split; [intros [rows [[] _]]|intros [e [bl [vs [v [[] _]]]]]].
  - intros g c y x. split; [intros []|intros [e [bl [vs [[] _]]]]].
  - intros g. apply HE.
  - intros g x r [].
  - split; constructor.
Qed.
Lemma wrote_base : forall g x g' rows, wrote k p s g x g' -> g_bases g' = (g_bases g ++ [(x, rows)])%list -> g_blocks g' = g_blocks g /\ g_rollbacks g' = g_rollbacks g.
Proof.
  intros g x g' rows W E. assert (N : forall A (l : list A) a, l <> (l ++ [a])%list).
  { intros A l a H. apply (f_equal (@List.length A)) in H. rewrite app_length in H. cbn in H. lia. }
  destruct W as [g' W|moved r -> M L]; [|auto]. destruct W; cbn [g_bases g_blocks g_rollbacks] in *; auto; now apply N in E.
Qed.
Lemma wrote_history : forall now g x g', history k p s now g -> timestamp x -> slt now x -> wrote k p s g x g' -> history k p s x g'.
Proof. intros now g x g' H T S [g0 W|moved r -> M L]; [eapply h_write; eauto|now constructor]. Qed.

Lemma kept_base : forall (H H' : about) w dir id token x data g' rows, let g := (join "/" dir, id) in kept H w ->
  data_dir depth dir -> word id -> word token -> timestamp x -> slt (w_last w g) x ->
  (forall c, In c (map fst (g_bases (w_hist w g))) -> sle c (w_last w g)) -> g_blocks g' = g_blocks (w_hist w g) -> g_rollbacks g' = g_rollbacks (w_hist w g) ->
  H' g x g' -> (forall h, h <> g -> H h (w_last w h) (w_hist w h) -> H' h (w_last w h) (w_hist w h)) -> g_bases g' = (g_bases (w_hist w g) ++ [(x, rows)])%list -> typed_versions code dfs g' ->
  parse_rows data = Ok {| rb_fields := map (as_field code) dfs; rb_rows := rows |} -> (exists stats, footer data = Ok stats) ->
  kept H' {| w_bases := {| be_dir := dir; be_id := id; be_token := token; be_commit := x; be_data := data |} :: w_bases w; w_logs := w_logs w; w_others := w_others w;
          w_hist := set_group (w_hist w) g g'; w_last := set_group (w_last w) g x |}.
Proof.
  intros H H' w dir id token x data g' rows g K D WI WT T S BL Ebl Erb HG HO EB TV PR FT.
  assert (HB : forall h c r, In (c, r) (g_bases (set_group (w_hist w) g g' h)) <-> In (c, r) (g_bases (w_hist w h)) \/ (h = g /\ c = x /\ r = rows)).
  { intros h c r. destruct (set_cases g h) as [ -> |N].
    - rewrite set_same, EB, in_app_iff. cbn [In]. split; [intros [I|[I|[]]]; [auto|injection I as <- <-; auto]|intros [I|[_ [ -> -> ]]]; auto].
    - rewrite set_other by exact N. split; [auto|]. intros [I|[I _]]; [exact I|contradiction]. }
  assert (HL : forall h, g_blocks (set_group (w_hist w) g g' h) = g_blocks (w_hist w h) /\ g_rollbacks (set_group (w_hist w) g g' h) = g_rollbacks (w_hist w h)).
  { intros h. destruct (set_cases g h) as [ -> |N]; [rewrite set_same; auto|rewrite set_other by exact N; auto]. }
  split; cbn [w_bases w_logs w_others w_hist w_last].
  - intros e [ <- |I]; cbn [be_dir be_id be_token be_commit be_data].
    + repeat (split; [assumption|]). exists rows. split; [|exact PR]. apply HB. right. auto.
    + destruct (k_base H w K e I) as [A1 [A2 [A3 [A4 [A5 [r [A6 A7]]]]]]]. repeat (split; [assumption|]). exists r. split; [|exact A7]. apply HB. now left.
  - intros h c r I. apply HB in I as [I|[ -> [ -> -> ]]].
    + destruct (k_bases H w K h c r I) as [e [A1 A2]]. exists e. split; [now right|exact A2].
    + eexists. split; [left; reflexivity|]. repeat (split; [reflexivity|]). exact PR.
  - cbn [map]. constructor; [|exact (k_base_once H w K)]. intros I. apply in_map_iff in I as [e [E I]]. assert (Eg : be_group e = g) by exact (f_equal fst E). assert (E3 : be_commit e = x) by exact (f_equal snd E).
    destruct (k_base H w K e I) as [_ [_ [_ [_ [_ [r [A _]]]]]]]. rewrite Eg, E3 in A.
    assert (In x (map fst (g_bases (w_hist w g)))) as J by (apply in_map_iff; now exists (x, r)). apply BL in J. apply (slt_irrefl x). eapply sle_slt_trans; eassumption.
  - intros e I. destruct (k_log H w K e I) as [A1 [A2 [A3 [A4 [A5 A6]]]]]. repeat (split; [assumption|]). split; [|exact A6]. apply in_map_iff in A5 as [[c r] [E A5]]. apply in_map_iff. exists (c, r). split; [exact E|]. apply HB. now left.
  - exact (k_log_once H w K).
  - intros h c y r. destruct (HL h) as [ -> _]. apply (k_blocks H w K).
  - intros h c y r. destruct (HL h) as [_ -> ]. apply (k_rollbacks H w K).
  - intros h. destruct (set_cases g h) as [ -> |N]; [rewrite !set_same; exact HG|rewrite !set_other by exact N; apply (HO h N), (k_hist H w K)].
  - intros h. destruct (set_cases g h) as [ -> |N]; [rewrite set_same; exact TV|rewrite set_other by exact N; apply (k_typed H w K)].
  - exact (k_others H w K).
Qed.

Definition has_block (l : list log_entry) (g : string * string) (c : string) (bl : wblock) (vs : list value) : Prop :=
  exists e, In e l /\ le_group e = g /\ le_base e = c /\ In (bl, vs) (le_blocks e).
Lemma kept_block : forall (H H' : about) w logs g b x bl vs g', kept H w -> timestamp x -> H' g x g' -> (forall h, h <> g -> H h (w_last w h) (w_hist w h) -> H' h (w_last w h) (w_hist w h)) -> block_of (w_hist w g) b x bl vs g' ->
  typed_versions code dfs g' -> block_fine x bl vs ->
  (forall h c bl' vs', has_block logs h c bl' vs' <-> has_block (w_logs w) h c bl' vs' \/ (h = g /\ c = b /\ bl' = bl /\ vs' = vs)) ->
  (forall e, In e logs -> data_dir depth (le_dir e) /\ word (le_id e) /\ word (le_version e) /\ word (le_token e) /\ In (le_base e) (map fst (g_bases (w_hist w (le_group e))))) ->
  NoDup (map log_id logs) ->
  kept H' {| w_bases := w_bases w; w_logs := logs; w_others := w_others w; w_hist := set_group (w_hist w) g g'; w_last := set_group (w_last w) g x |}.
Proof.
  intros H H' w logs g b x bl vs g' K T HG HO B TV F HB HE ND. destruct (block_adds _ _ _ _ _ _ B F) as [E1 [E2 E3]].
  assert (HS : forall h, g_bases (set_group (w_hist w) g g' h) = g_bases (w_hist w h)). { intros h. destruct (set_cases g h) as [ -> |N]; [now rewrite set_same|now rewrite set_other by exact N]. }
  split; cbn [w_bases w_logs w_others w_hist w_last].
  - intros e I. rewrite HS. now apply (k_base H w K).
  - intros h c rows I. rewrite HS in I. now apply (k_bases H w K).
  - exact (k_base_once H w K).
  - intros e I. destruct (HE e I) as [A1 [A2 [A3 [A4 A5]]]]. rewrite HS. repeat (split; [assumption|]). intros bl' vs' J.
    assert (X : has_block logs (le_group e) (le_base e) bl' vs') by (exists e; auto). apply HB in X as [[e' [I' [_ [_ J']]]]|[_ [_ [ -> -> ]]]]; [|eauto].
    destruct (k_log H w K e' I') as [_ [_ [_ [_ [_ A]]]]]. now apply A.
  - exact ND.
  - intros h c y r. transitivity ((exists rows, In (c, y, rows) (g_blocks (w_hist w h)) /\ In r rows) \/ (h = g /\ c = b /\ at_instant bl y /\ exists v, In v vs /\ r = row_of code rank dfs v)).
    + destruct (set_cases g h) as [ -> |N]; [rewrite set_same, E2; tauto|rewrite set_other by exact N; tauto].
    + rewrite (k_blocks H w K). split.
      * intros [[e [bl' [vs' [v [A1 [A2 [A3 [A4 [A5 A6]]]]]]]]]|[ -> [ -> [A [v A']]]]].
        -- destruct (proj2 (HB h c bl' vs')) as [e' [C1 [C2 [C3 C4]]]]; [left; now exists e|]. exists e', bl', vs', v. tauto.
        -- destruct (proj2 (HB g b bl vs)) as [e' [C1 [C2 [C3 C4]]]]; [right; auto|]. exists e', bl, vs, v. tauto.
      * intros [e [bl' [vs' [v [A1 [A2 [A3 [A4 [A5 A6]]]]]]]]]. destruct (proj1 (HB h c bl' vs')) as [[e' [C1 [C2 [C3 C4]]]]|[ -> [ -> [ -> -> ]]]]; [now exists e| |].
        -- left. exists e', bl', vs', v. tauto.
        -- right. eauto 6.
  - intros h c y z. transitivity (In (c, y, z) (g_rollbacks (w_hist w h)) \/ (h = g /\ c = b /\ at_instant bl y /\ rolls_back bl z)).
    + destruct (set_cases g h) as [ -> |N]; [rewrite set_same, E3; tauto|rewrite set_other by exact N; tauto].
    + rewrite (k_rollbacks H w K). split.
      * intros [[e [bl' [vs' [A1 [A2 [A3 [A4 A5]]]]]]]|[ -> [ -> A]]].
        -- destruct (proj2 (HB h c bl' vs')) as [e' [C1 [C2 [C3 C4]]]]; [left; now exists e|]. exists e', bl', vs'. tauto.
        -- destruct (proj2 (HB g b bl vs)) as [e' [C1 [C2 [C3 C4]]]]; [right; auto|]. exists e', bl, vs. tauto.
      * intros [e [bl' [vs' [A1 [A2 [A3 [A4 A5]]]]]]]. destruct (proj1 (HB h c bl' vs')) as [[e' [C1 [C2 [C3 C4]]]]|[ -> [ -> [ -> -> ]]]]; [now exists e| |].
        -- left. exists e', bl', vs'. tauto.
        -- right. auto.
  - intros h. destruct (set_cases g h) as [ -> |N]; [rewrite !set_same; exact HG|rewrite !set_other by exact N; apply (HO h N), (k_hist H w K)].
  - intros h. destruct (set_cases g h) as [ -> |N]; [rewrite set_same; exact TV|rewrite set_other by exact N; apply (k_typed H w K)].
  - exact (k_others H w K).
Qed.
Lemma kept_log : forall (H H' : about) w dir id version token x b bl vs g', let g := (join "/" dir, id) in kept H w ->
  data_dir depth dir -> word id -> word version -> word token -> H' g x g' -> (forall h, h <> g -> H h (w_last w h) (w_hist w h) -> H' h (w_last w h) (w_hist w h)) ->
  block_of (w_hist w g) b x bl vs g' -> In b (map fst (g_bases (w_hist w g))) -> typed_versions code dfs g' -> block_fine x bl vs -> timestamp x ->
  (forall e, In e (w_logs w) -> le_group e = g -> le_base e = b -> le_version e = version -> le_token e <> token) ->
  kept H' {| w_bases := w_bases w; w_logs := {| le_dir := dir; le_id := id; le_base := b; le_version := version; le_token := token; le_blocks := [(bl, vs)] |} :: w_logs w; w_others := w_others w;
             w_hist := set_group (w_hist w) g g'; w_last := set_group (w_last w) g x |}.
Proof.
  intros H H' w dir id version token x b bl vs g' g K D WI WV WT HG HO B IB TV F T ND. apply (kept_block H H' w _ g b x bl vs g'); try assumption.
  - intros h c bl' vs'. unfold has_block. split.
    + intros [e [[ <- |I] [A1 [A2 A3]]]]; [|left; eauto]. cbn [le_base le_blocks] in *. destruct A3 as [A3|[]]. injection A3 as <- <-. right. auto.
    + intros [[e [I A]]|[ -> [ -> [ -> -> ]]]]; [exists e; split; [now right|exact A]|]. eexists. split; [left; reflexivity|]. split; [reflexivity|]. split; [reflexivity|]. now left.
  - intros e [ <- |I]; [|destruct (k_log H w K e I) as [A1 [A2 [A3 [A4 [A5 _]]]]]; auto]. cbn [le_dir le_id le_version le_token le_base]. repeat (split; [assumption|]). exact IB.
  - cbn [map]. constructor; [|exact (k_log_once H w K)]. intros I. apply in_map_iff in I as [e [E I]].
    apply (ND e I); [exact (f_equal (fun q => fst (fst (fst q))) E)|exact (f_equal (fun q => snd (fst (fst q))) E)|exact (f_equal (fun q => snd (fst q)) E)|exact (f_equal snd E)].
Qed.
Lemma kept_append : forall (H H' : about) w before e after x bl vs g', let g := le_group e in kept H w -> w_logs w = (before ++ e :: after)%list ->
  H' g x g' -> (forall h, h <> g -> H h (w_last w h) (w_hist w h) -> H' h (w_last w h) (w_hist w h)) ->
  block_of (w_hist w g) (le_base e) x bl vs g' -> typed_versions code dfs g' -> block_fine x bl vs -> timestamp x ->
  kept H' {| w_bases := w_bases w;
             w_logs := (before ++ {| le_dir := le_dir e; le_id := le_id e; le_base := le_base e; le_version := le_version e; le_token := le_token e; le_blocks := le_blocks e ++ [(bl, vs)] |} :: after)%list;
             w_others := w_others w; w_hist := set_group (w_hist w) g g'; w_last := set_group (w_last w) g x |}.
Proof.
  intros H H' w before e after x bl vs g' g K E HG HO B TV F T. assert (Ie : In e (w_logs w)) by (rewrite E; apply in_elt).
  apply (kept_block H H' w _ g (le_base e) x bl vs g'); try assumption.
  - intros h c bl' vs'. unfold has_block. split.
    + intros [e0 [I [A1 [A2 A3]]]]. apply in_app_or in I as [I|[ <- |I]].
      * left. exists e0. rewrite E. split; [apply in_or_app; now left|auto].
      * cbn [le_base le_blocks] in *. apply in_app_or in A3 as [A3|[A3|[]]].
        -- left. exists e. auto.
        -- injection A3 as <- <-. right. auto.
      * left. exists e0. rewrite E. split; [apply in_or_app; right; now right|auto].
    + intros [[e0 [I [A1 [A2 A3]]]]|[ -> [ -> [ -> -> ]]]].
      * rewrite E in I. apply in_app_or in I as [I|[ <- |I]].
        -- exists e0. split; [apply in_or_app; now left|auto].
        -- eexists. split; [apply in_elt|]. cbn [le_base le_blocks]. split; [exact A1|]. split; [exact A2|]. apply in_or_app. now left.
        -- exists e0. split; [apply in_or_app; right; now right|auto].
      * eexists. split; [apply in_elt|]. split; [reflexivity|]. split; [reflexivity|]. cbn [le_blocks]. apply in_or_app. right. now left.
  - intros e0 I. apply in_app_or in I as [I|[ <- |I]].
    + destruct (k_log H w K e0) as [A1 [A2 [A3 [A4 [A5 _]]]]]; [rewrite E; apply in_or_app; now left|auto].
    + destruct (k_log H w K e Ie) as [A1 [A2 [A3 [A4 [A5 _]]]]]. cbn [le_dir le_id le_version le_token le_base]. auto.
    + destruct (k_log H w K e0) as [A1 [A2 [A3 [A4 [A5 _]]]]]; [rewrite E; apply in_or_app; right; now right|auto].
  - pose proof (k_log_once H w K) as ND. rewrite E, map_app in ND. rewrite map_app. exact ND.
Qed.
Lemma kept_other : forall (H : about) w o, kept H w -> other_object table depth o -> ~ In (o_key o) (map o_key (w_others w)) ->
  kept H {| w_bases := w_bases w; w_logs := w_logs w; w_others := o :: w_others w; w_hist := w_hist w; w_last := w_last w |}.
Proof.
  intros H w o [K1 K2 K3 K4 K5 K6 K7 K8 K9 [K10 K11]] O N. split; cbn [w_bases w_logs w_others w_hist w_last]; auto. split; [now constructor|]. cbn [map]. now constructor.
Qed.
Lemma kept_remove : forall (H : about) w before o after, kept H w -> w_others w = (before ++ o :: after)%list ->
  kept H {| w_bases := w_bases w; w_logs := w_logs w; w_others := (before ++ after)%list; w_hist := w_hist w; w_last := w_last w |}.
Proof.
  intros H w before o after [K1 K2 K3 K4 K5 K6 K7 K8 K9 [K10 K11]] E. split; cbn [w_bases w_logs w_others w_hist w_last]; auto. rewrite E in K10, K11. split.
  - apply Forall_app in K10 as [A B]. inversion B; subst. apply Forall_app. auto.
  - rewrite map_app in *. cbn [map] in K11. now apply NoDup_remove_1 in K11.
Qed.
Lemma kept_step : forall w w', kept written_so w -> step w w' -> kept written_so w'.
Proof.
  intros w w' K S. destruct S as [dir id token x data g' rows g D WI WT T S W EB TV PR FT|dir id version token x b bl vs g' g D WI WV WT T S W B IB TV F ND|before e after x bl vs g' g E T S W B TV F|o O N|before o after E].
  - destruct (wrote_base _ _ _ _ W EB) as [Ebl Erb]. apply kept_base with (H := written_so) (rows := rows); try assumption.
    + exact (bases_last _ _ (k_hist _ w K g)).
    + eapply wrote_history; [apply (k_hist _ w K g)|exact T|exact S|exact W].
    + auto.
  - apply kept_log with (H := written_so); try assumption; [eapply h_write; [apply (k_hist _ w K)|exact T|exact S|exact W]|auto].
  - apply kept_append with (H := written_so); try assumption; [eapply h_write; [apply (k_hist _ w K)|exact T|exact S|exact W]|auto].
  - apply kept_other; try assumption. intros I. apply N. unfold objects_of. rewrite !map_app. apply in_or_app. right. apply in_or_app. now right.
  - now apply kept_remove with (o := o).
Qed.
Lemma left_kept : forall w, left w -> kept written_so w.
Proof. intros w L. induction L as [|w w' L IH S]; [apply kept_empty; intros g; constructor|eapply kept_step; eauto]. Qed.
(** ** Later writes *)
Lemma step_group : forall w w', step w w' -> forall g, w_last w' g = w_last w g /\ w_hist w' g = w_hist w g
  \/ slt (w_last w g) (w_last w' g) /\ wrote k p s (w_hist w g) (w_last w' g) (w_hist w' g).
Proof.
  intros w w' S g. destruct S as [dir id token x data g' rows h D WI WT T S W EB TV PR FT|dir id version token x b bl vs g' h D WI WV WT T S W B IB TV F ND|before e after x bl vs g' h E T S W B TV F|o O N|before o after E]; cbn [w_last w_hist]; auto;
    (destruct (set_cases h g) as [ -> |N]; [rewrite !set_same; right; split; [exact S|first [exact W|now constructor]]|rewrite !set_other by exact N; auto]).
Qed.
Lemma wrote_later : forall t g x g', wrote k p s g x g' -> slt t x ->
  (forall c, sle c t -> In c (map fst (g_bases g')) <-> In c (map fst (g_bases g)))
  /\ ((exists c, In c (map fst (g_bases g)) /\ sle c t) -> same_versions t g g') /\ (clean_at g t -> clean_at g' t).
Proof.
  intros t g x g' W L. assert (N : ~ sle x t) by (intros Q; apply (slt_irrefl t); eapply slt_sle_trans; eassumption).
  destruct W as [g' W|moved rows -> M LR].
  - split; [|split].
    + intros c Lc. destruct W; cbn [g_bases]; try reflexivity; rewrite map_app, in_app_iff; cbn; (split; [intros [I|[ <- |[]]]; [exact I|contradiction]|auto]).
    + intros _ y r Ly. destruct W; cbn [g_versions]; try reflexivity; rewrite in_app_iff, in_map_iff; (split; [auto|intros [I|[q [[= <- _] _]]]; [exact I|contradiction]]).
    + intros C b y r I J Ly.
      assert (I' : In (b, y, r) (g_blocks g)). { destruct W; cbn [g_blocks] in I; try exact I; apply in_app_or in I as [I|[[= _ <- _]|[]]]; [exact I|contradiction|exact I|contradiction]. }
      assert (J' : In y (g_failed g)). { destruct W; cbn [g_failed] in J; try exact J; apply in_app_or in J as [J|[ <- |[]]]; [exact J|contradiction]. }
      destruct (C b y r I' J' Ly) as [z [Z1 Z2]]. exists z. split; [|exact Z2]. destruct W; cbn [g_rollbacks]; try exact Z1. apply in_or_app. now left.
  - cbn [g_bases g_blocks new_group_history map fst]. split; [|split].
    + intros c Lc. cbn. split; [intros [ <- |[]]; contradiction|intros []].
    + intros [c [[] _]].
    + intros _ b y r [].
Qed.
Lemma after_left : forall t w w', left w -> after table format depth parse_schema code rank parse_rows footer dfs k p s t w w' -> left w'.
Proof. intros t w w' L A. induction A as [|w' w'' A IH S N]; [exact L|]. eapply left_step; eauto. Qed.
Lemma after_groups : forall t w w', after table format depth parse_schema code rank parse_rows footer dfs k p s t w w' -> forall g,
  (forall c, sle c t -> In c (map fst (g_bases (w_hist w' g))) <-> In c (map fst (g_bases (w_hist w g))))
  /\ ((exists c, In c (map fst (g_bases (w_hist w g))) /\ sle c t) -> same_versions t (w_hist w g) (w_hist w' g)) /\ (clean_at (w_hist w g) t -> clean_at (w_hist w' g) t).
Proof.
  intros t w w' A. induction A as [|w' w'' A IH S N]; intros g.
  - split; [reflexivity|]. split; [intros _ x r _; reflexivity|auto].
  - destruct (IH g) as [I1 [I2 I3]]. destruct (step_group _ _ S g) as [[_ E]|[L W]]; [rewrite E; auto|].
    assert (X : slt t (w_last w'' g)) by (apply N; intros E; rewrite E in L; now apply slt_irrefl in L). destruct (wrote_later t _ _ _ W X) as [J1 [J2 J3]].
    split; [intros c Lc; rewrite (J1 c Lc); now apply I1|]. split; [|auto]. intros B y r Ly. rewrite (I2 B y r Ly). apply J2; [|exact Ly]. destruct B as [c [B Lc]]. exists c. split; [now apply I1|exact Lc].
Qed.
End Inv.

(** An object in the timeline directory is no data. *)
Lemma metadata_other : forall table depth n rest o, Forall legal table -> Forall legal (".hoodie" :: n :: rest) -> o_key o = key_of (table ++ ".hoodie" :: n :: rest) -> other_object table depth o.
Proof.
  intros table depth n rest o T F E. split.
  - exists (table ++ ".hoodie" :: n :: rest)%list. split; [destruct table; discriminate|]. split; [apply Forall_app; auto|exact E].
  - intros names N F' E'. rewrite E in E'. apply keys_inj in E'; [|apply Forall_app; auto|apply Forall_app; auto]. apply app_inv_head in E'. subst names. left. unfold beside. destruct depth; [cbn; lia|].
    right. exists ".hoodie", (n :: rest). split; [reflexivity|now left].
Qed.

(** ** The objects *)
Section Objects.
Variable table : list string.
Variable format : string.
Variable depth : nat.
Variable parse_schema : string -> option avro.
Variable code : dtype -> nat.
Variable rank : dtype -> slot -> Z.
Variable parse_rows : string -> outcome record_batch.
Variable footer : string -> outcome (Z * Z).
Variable dfs : list M_Avro.field.
Variable k p s : nat.
Hypothesis TL : Forall legal table.
Hypothesis FW : word format.
Hypothesis FC : format <> "crc".
Variable known : about.
Variable w : storage.
Hypothesis K : kept table depth parse_schema code rank parse_rows footer dfs known w.
Variable objs : list object.
Hypothesis PE : Permutation objs (objects_of table format w).
Notation base_name e := (base_text format (be_id e) (be_token e) (be_commit e)).
Notation log_name e := (log_text (le_id e) (le_base e) (le_version e) (le_token e)).

Lemma log_base_time : forall e, In e (w_logs w) -> timestamp (le_base e).
Proof.
  intros e I. destruct (k_log _ _ _ _ _ _ _ _ _ _ K e I) as [_ [_ [_ [_ [J _]]]]]. apply in_map_iff in J as [[c rows] [E J]]. cbn [fst] in E. subst c.
  destruct (k_bases _ _ _ _ _ _ _ _ _ _ K _ _ _ J) as [e' [I' [_ [E' _]]]]. rewrite <- E'. now apply (k_base _ _ _ _ _ _ _ _ _ _ K).
Qed.
Lemma base_facts : forall e, In e (w_bases w) -> data_dir depth (be_dir e) /\ word (be_id e) /\ word (be_token e) /\ word (be_commit e) /\ legal (base_name e) /\ ~ marker_name (base_name e) /\ base_named format (base_name e).
Proof.
  intros e I. destruct (k_base _ _ _ _ _ _ _ _ _ _ K e I) as [A1 [A2 [A3 [A4 _]]]]. apply timestamp_word in A4 as [A4 _]. repeat (split; [assumption|]).
  split; [now apply base_text_legal|]. split; [now apply base_text_unmarked|]. apply base_text_named.
Qed.
Lemma log_facts : forall e, In e (w_logs w) -> data_dir depth (le_dir e) /\ word (le_id e) /\ word (le_base e) /\ word (le_version e) /\ word (le_token e) /\ legal (log_name e) /\ ~ marker_name (log_name e) /\ ~ base_named format (log_name e).
Proof.
  intros e I. pose proof (log_base_time e I) as T. pose proof (proj1 (timestamp_word _ T)) as A5. destruct (k_log _ _ _ _ _ _ _ _ _ _ K e I) as [A1 [A2 [A3 [A4 _]]]]. repeat (split; [assumption|]).
  split; [now apply log_text_legal|]. split; [now apply log_text_unmarked|]. now apply log_text_not_base.
Qed.
Lemma legal_names : forall dir name, Forall legal dir -> legal name -> Forall legal (table ++ dir ++ [name]).
Proof. intros dir name D N. apply Forall_app. split; [exact TL|]. apply Forall_app. auto. Qed.
Lemma same_place : forall dir name names, Forall legal dir -> legal name -> Forall legal names -> key_of (table ++ dir ++ [name]) = key_of (table ++ names) -> names = (dir ++ [name])%list.
Proof.
  intros dir name names D N F E. apply keys_inj in E; [|now apply legal_names|apply Forall_app; auto]. now apply app_inv_head in E.
Qed.
Lemma in_objects : forall o, In o objs <-> (exists e, In e (w_bases w) /\ o = base_object table format e) \/ (exists e, In e (w_logs w) /\ o = log_object table e) \/ In o (w_others w).
Proof.
  intros o. assert (X : In o objs <-> In o (objects_of table format w)) by (split; apply Permutation_in; [exact PE|now apply Permutation_sym]).
  rewrite X. unfold objects_of. rewrite !in_app_iff, !in_map_iff. split.
  - intros [[e [E I]]|[[e [E I]]|I]]; [left; eauto|right; left; eauto|auto].
  - intros [[e [I E]]|[[e [I E]]|I]]; [left; eauto|right; left; eauto|auto].
Qed.
Lemma classify : forall names o, names <> [] -> Forall legal names -> In o objs -> o_key o = key_of (table ++ names) ->
  (exists e, In e (w_bases w) /\ o = base_object table format e /\ names = (be_dir e ++ [base_name e])%list)
  \/ (exists e, In e (w_logs w) /\ o = log_object table e /\ names = (le_dir e ++ [log_name e])%list)
  \/ beside depth names \/ exists dir name, names = (dir ++ [name])%list /\ data_dir depth dir /\ marker_name name.
Proof.
  intros names o N F I E. apply in_objects in I as [[e [I ->]]|[[e [I ->]]|I]].
  - left. exists e. split; [exact I|]. split; [reflexivity|]. destruct (base_facts e I) as [[A _] [_ [_ [_ [B _]]]]]. now apply same_place.
  - right. left. exists e. split; [exact I|]. split; [reflexivity|]. destruct (log_facts e I) as [[A _] [_ [_ [_ [_ [B _]]]]]]. now apply same_place.
  - right. right. destruct (k_others _ _ _ _ _ _ _ _ _ _ K) as [O _]. rewrite Forall_forall in O. now apply (O o I).
Qed.
Lemma beside_data : forall dir name, data_dir depth dir -> beside depth (dir ++ [name]) -> False.
Proof.
  intros dir name [_ [L T]] B. unfold beside in B. destruct depth as [|d].
  - destruct dir; [|discriminate]. cbn in B. lia.
  - destruct dir as [|top rest]; [discriminate|]. destruct B as [B|[t [r [B J]]]].
    + cbn in B. rewrite app_length in B. cbn in B. lia.
    + injection B as <- _. now apply (T top rest).
Qed.
Lemma file_classes : forall dir name o, data_dir depth dir -> file_in objs table dir name o ->
  (exists e, In e (w_bases w) /\ o = base_object table format e /\ be_dir e = dir /\ name = base_name e)
  \/ (exists e, In e (w_logs w) /\ o = log_object table e /\ le_dir e = dir /\ name = log_name e)
  \/ marker_name name.
Proof.
  intros dir name o D [I [N E]]. destruct (classify (dir ++ [name]) o) as [[e [A [B C]]]|[[e [A [B C]]]|[B|[d [n [C [_ M]]]]]]].
  - destruct dir; discriminate.
  - apply Forall_app. split; [apply D|auto].
  - exact I.
  - exact E.
  - apply app_inj_tail in C as [ -> -> ]. left. exists e. auto.
  - apply app_inj_tail in C as [ -> -> ]. right. left. exists e. auto.
  - elim (beside_data _ _ D B).
  - apply app_inj_tail in C as [ -> -> ]. auto.
Qed.
Lemma base_in : forall e, In e (w_bases w) -> file_in objs table (be_dir e) (base_name e) (base_object table format e).
Proof. intros e I. split; [apply in_objects; left; eauto|]. destruct (base_facts e I) as [_ [_ [_ [_ [L _]]]]]. split; [exact L|reflexivity]. Qed.
Lemma log_in : forall e, In e (w_logs w) -> file_in objs table (le_dir e) (log_name e) (log_object table e).
Proof. intros e I. split; [apply in_objects; right; left; eauto|]. destruct (log_facts e I) as [_ [_ [_ [_ [_ [L _]]]]]]. split; [exact L|reflexivity]. Qed.

Lemma nodup_map_inj : forall A B (f : A -> B) l, NoDup l -> (forall x y, In x l -> In y l -> f x = f y -> x = y) -> NoDup (map f l).
Proof.
  intros A B f l N H. induction N as [|x l NI N IH]; [constructor|]. cbn [map]. constructor.
  - intros I. apply in_map_iff in I as [y [E I]]. apply NI. rewrite <- (H y x); [exact I|now right|now left|exact E].
  - apply IH. intros a b Ia Ib. apply H; now right.
Qed.
Lemma nodup_app : forall A (a b : list A), NoDup a -> NoDup b -> (forall x, In x a -> ~ In x b) -> NoDup (a ++ b).
Proof.
  intros A a b Na Nb D. induction Na as [|x a NI Na IH]; [exact Nb|]. cbn. constructor.
  - intros I. apply in_app_or in I as [I|I]; [contradiction|]. now apply (D x (or_introl eq_refl)).
  - apply IH. intros y I. apply D. now right.
Qed.
Lemma nodup_of_map : forall A B (f : A -> B) l, NoDup (map f l) -> NoDup l.
Proof. intros A B f l. apply NoDup_map_inv. Qed.
Lemma map_once : forall A B (f : A -> B) l x y, NoDup (map f l) -> In x l -> In y l -> f x = f y -> x = y.
Proof.
  intros A B f l x y N Ix Iy E. induction l as [|a l IH]; [destruct Ix|]. cbn [map] in N. inversion N as [|? ? NI N']; subst. destruct Ix as [ <- |Ix], Iy as [ <- |Iy]; auto.
  - elim NI. rewrite E. now apply in_map.
  - elim NI. rewrite <- E. now apply in_map.
Qed.
Lemma base_same : forall e e', In e (w_bases w) -> In e' (w_bases w) -> be_dir e = be_dir e' -> be_id e = be_id e' -> be_commit e = be_commit e' -> e = e'.
Proof.
  intros e e' I I' D E C. apply (map_once _ _ base_id _ e e' (k_base_once _ _ _ _ _ _ _ _ _ _ K) I I'). unfold base_id, be_group. now rewrite D, E, C.
Qed.
Lemma log_same : forall e e', In e (w_logs w) -> In e' (w_logs w) -> le_dir e = le_dir e' -> le_id e = le_id e' -> le_base e = le_base e' -> le_version e = le_version e' -> le_token e = le_token e' -> e = e'.
Proof.
  intros e e' I I' D E B V T. apply (map_once _ _ log_id _ e e' (k_log_once _ _ _ _ _ _ _ _ _ _ K) I I'). unfold log_id, le_group. now rewrite D, E, B, V, T.
Qed.
Lemma base_entry_same : forall e e', In e (w_bases w) -> In e' (w_bases w) -> be_dir e = be_dir e' -> base_name e = base_name e' -> e = e'.
Proof.
  intros e e' I I' D E. destruct (base_facts e I) as [_ [A1 [A2 [A3 _]]]]. destruct (base_facts e' I') as [_ [B1 [B2 [B3 _]]]].
  apply base_text_inj in E as [E1 [E2 E3]]; try assumption. now apply base_same.
Qed.
Lemma log_entry_same : forall e e', In e (w_logs w) -> In e' (w_logs w) -> le_dir e = le_dir e' -> log_name e = log_name e' -> e = e'.
Proof.
  intros e e' I I' D E. destruct (log_facts e I) as [_ [A1 [A2 [A3 [A4 _]]]]]. destruct (log_facts e' I') as [_ [B1 [B2 [B3 [B4 _]]]]].
  apply log_text_inj in E as [E1 [E2 [E3 E4]]]; try assumption. now apply log_same.
Qed.
Lemma left_proper : proper_objects objs.
Proof.
  assert (BK : forall e, In e (w_bases w) -> Forall legal (be_dir e ++ [base_name e])). { intros e I. destruct (base_facts e I) as [[A _] [_ [_ [_ [B _]]]]]. apply Forall_app. auto. }
  assert (LK : forall e, In e (w_logs w) -> Forall legal (le_dir e ++ [log_name e])). { intros e I. destruct (log_facts e I) as [[A _] [_ [_ [_ [_ [B _]]]]]]. apply Forall_app. auto. }
  assert (NE : forall (d : list string) n, (d ++ [n])%list <> []) by (intros [|? ?] ?; discriminate).
  destruct (k_others _ _ _ _ _ _ _ _ _ _ K) as [O ON]. rewrite Forall_forall in O. split.
  - unfold proper_keys. apply Forall_forall. intros key I. apply in_map_iff in I as [o [ <- I]]. apply in_objects in I as [[e [I ->]]|[[e [I ->]]|I]].
    + exists (table ++ be_dir e ++ [base_name e])%list. split; [destruct table; [apply NE|discriminate]|]. split; [apply Forall_app; auto|reflexivity].
    + exists (table ++ le_dir e ++ [log_name e])%list. split; [destruct table; [apply NE|discriminate]|]. split; [apply Forall_app; auto|reflexivity].
    + apply (O o I).
  - apply (Permutation_NoDup (Permutation_map o_key (Permutation_sym PE))). unfold objects_of. rewrite !map_app, !map_map. apply nodup_app; [|apply nodup_app|].
    + apply nodup_map_inj; [exact (nodup_of_map _ _ _ _ (k_base_once _ _ _ _ _ _ _ _ _ _ K))|]. intros e e' I I' E.
      apply keys_inj in E; [|apply Forall_app; split; [exact TL|now apply BK]|apply Forall_app; split; [exact TL|now apply BK]]. apply app_inv_head, app_inj_tail in E as [E1 E2]. now apply base_entry_same.
    + apply nodup_map_inj; [exact (nodup_of_map _ _ _ _ (k_log_once _ _ _ _ _ _ _ _ _ _ K))|]. intros e e' I I' E.
      apply keys_inj in E; [|apply Forall_app; split; [exact TL|now apply LK]|apply Forall_app; split; [exact TL|now apply LK]]. apply app_inv_head, app_inj_tail in E as [E1 E2]. now apply log_entry_same.
    + exact ON.
    + intros key I J. apply in_map_iff in I as [e [ <- I]]. apply in_map_iff in J as [o [E J]]. destruct (log_facts e I) as [D [_ [_ [_ [_ [_ [M _]]]]]]].
      destruct (proj2 (O o J) (le_dir e ++ [log_name e])%list (NE _ _) (LK e I) E) as [B|[d [n [C [_ C2]]]]]; [elim (beside_data _ _ D B)|]. apply app_inj_tail in C as [_ C]. rewrite <- C in C2. contradiction.
    + intros key I J. apply in_map_iff in I as [e [ <- I]]. destruct (base_facts e I) as [D [_ [_ [_ [_ [M BN]]]]]]. apply in_app_or in J as [J|J].
      * apply in_map_iff in J as [e' [E J]]. apply keys_inj in E; [|apply Forall_app; split; [exact TL|now apply LK]|apply Forall_app; split; [exact TL|now apply BK]]. apply app_inv_head, app_inj_tail in E as [_ E].
        destruct (log_facts e' J) as [_ [_ [_ [_ [_ [_ [_ X]]]]]]]. apply X. change (log_entry_name e') with (log_name e') in E. rewrite E. exact BN.
      * apply in_map_iff in J as [o [E J]]. destruct (proj2 (O o J) (be_dir e ++ [base_name e])%list (NE _ _) (BK e I) E) as [B|[d [n [C [_ C2]]]]]; [elim (beside_data _ _ D B)|]. apply app_inj_tail in C as [_ C]. rewrite <- C in C2. contradiction.
Qed.

Notation partitioned := (has_partitions depth).
Lemma paths_inj : forall a b, Forall legal a -> Forall legal b -> join "/" a = join "/" b -> a = b.
Proof. intros a b A B E. apply L_Scan.join_inj; auto using legal_parts. Qed.
Lemma partition_data : forall path dir, object_partition objs table partitioned path dir -> data_dir depth dir.
Proof.
  intros path dir [F [E P]]. destruct (has_partitions depth) eqn:HP.
  - destruct P as [top [rest [E' [F' [N1 [N2 [N3 [[name [o [I [N EK]]]] _]]]]]]]]. assert (dir = top :: rest) as -> by (apply paths_inj; congruence).
    destruct (classify ((top :: rest) ++ [name]) o) as [[e [A [B C]]]|[[e [A [B C]]]|[B|[d [n [C [D M]]]]]]].
    + discriminate.
    + apply Forall_app. auto.
    + exact I.
    + exact EK.
    + apply app_inj_tail in C as [ -> _ ]. apply (base_facts e A).
    + apply app_inj_tail in C as [ -> _ ]. apply (log_facts e A).
    + exfalso. unfold beside in B. destruct depth as [|d]; [discriminate HP|]. destruct B as [B|[t [r [B J]]]]; [cbn in B; rewrite app_length in B; cbn in B; lia|].
      injection B as <- _. destruct J as [J|[J|[J|[]]]]; congruence.
    + apply app_inj_tail in C as [ -> _ ]. exact D.
  - subst dir. destruct depth; [|discriminate HP]. split; [constructor|]. split; [reflexivity|]. discriminate.
Qed.
Lemma data_partition : forall dir name o, data_dir depth dir -> file_in objs table dir name o -> object_partition objs table partitioned (join "/" dir) dir.
Proof.
  intros dir name o [F [LN TP]] FI. split; [exact F|]. split; [reflexivity|]. assert (ED : depth = 0%nat \/ exists d, depth = S d) by (clear; destruct depth; eauto). unfold has_partitions. destruct ED as [ED|[d ED]]; rewrite ED in LN |- *; cbn [Nat.eqb negb].
  - now destruct dir.
  - destruct dir as [|top rest]; [discriminate|]. exists top, rest. split; [reflexivity|]. split; [exact F|]. pose proof (TP top rest eq_refl) as T. cbn in T.
    split; [intros ->; apply T; auto|]. split; [intros ->; apply T; auto|]. split; [intros ->; apply T; auto|]. split; [eauto|]. intros below o' FB I' E'. destruct below as [|b below]; [cbn; lia|].
    destruct (classify ((top :: rest) ++ b :: below) o') as [[e [A [B C]]]|[[e [A [B C]]]|[B|[d' [n [C [D M]]]]]]].
    + discriminate.
    + apply Forall_app. auto.
    + exact I'.
    + exact E'.
    + destruct (base_facts e A) as [[_ [L _]] _]. apply (f_equal (@List.length string)) in C. rewrite !app_length in C. cbn [List.length] in *. lia.
    + destruct (log_facts e A) as [[_ [L _]] _]. apply (f_equal (@List.length string)) in C. rewrite !app_length in C. cbn [List.length] in *. lia.
    + exfalso. unfold beside in B. rewrite ED in B. destruct B as [B|[t [r [B J]]]]; [rewrite app_length in B; cbn in B; lia|].
      injection B as <- _. cbn in J. tauto.
    + destruct D as [_ [L _]]. apply (f_equal (@List.length string)) in C. rewrite !app_length in C. cbn [List.length] in *. lia.
Qed.
Lemma left_bases : forall g c, S_Whole.has_base objs table format partitioned g c <-> In c (map fst (g_bases (w_hist w g))).
Proof.
  intros g c. split.
  - intros [dir [name [o [b [OP [FI [NM [BN [BF [E1 E2]]]]]]]]]]. pose proof (partition_data _ _ OP) as D. destruct OP as [F [EP _]].
    destruct (file_classes dir name o D FI) as [[e [I [_ [ED ->]]]]|[[e [I [_ [_ ->]]]]|M]].
    + destruct (base_facts e I) as [_ [W1 [W2 [W3 _]]]]. rewrite base_text_file in BF by assumption. injection BF as <-. cbn [bf_file_id bf_commit] in *.
      destruct (k_base _ _ _ _ _ _ _ _ _ _ K e I) as [_ [_ [_ [_ [_ [rows [J _]]]]]]]. apply in_map_iff. exists (be_commit e, rows). split; [exact E2|].
      replace g with (be_group e); [exact J|]. unfold be_group. rewrite ED, <- EP, E1. now destruct g.
    + now elim (proj2 (proj2 (proj2 (proj2 (proj2 (proj2 (proj2 (log_facts e I)))))))).
    + contradiction.
  - intros J. apply in_map_iff in J as [[c' rows] [E J]]. cbn [fst] in E. subst c'. destruct (k_bases _ _ _ _ _ _ _ _ _ _ K _ _ _ J) as [e [I [ <- [ <- _]]]].
    destruct (base_facts e I) as [D [W1 [W2 [W3 [L [NM BN]]]]]]. pose proof (base_in e I) as FI. exists (be_dir e), (base_name e), (base_object table format e). eexists.
    split; [exact (data_partition _ _ _ D FI)|]. split; [exact FI|]. split; [exact NM|]. split; [exact BN|]. split; [apply base_text_file; assumption|]. auto.
Qed.
Lemma listed_base : forall path dir l m b, object_partition objs table partitioned path dir -> directory_listing objs table dir l -> base_listed format l m b ->
  exists e, In e (w_bases w) /\ be_dir e = dir /\ m = new_meta (base_name e) (o_size (base_object table format e))
    /\ bf_file_id b = be_id e /\ bf_commit b = be_commit e /\ base_file_name b = base_name e.
Proof.
  intros path dir l m b OP DL [Im [NM [BN BF]]]. pose proof (partition_data _ _ OP) as D. apply DL in Im as [n [o [FI ->]]]. cbn [fm_name new_meta] in *.
  destruct (file_classes dir n o D FI) as [[e [I [ -> [ED ->]]]]|[[e [I [_ [_ ->]]]]|M]].
  - destruct (base_facts e I) as [_ [W1 [W2 [W3 _]]]]. rewrite base_text_file in BF by assumption. injection BF as <-. exists e. auto 6.
  - now elim (proj2 (proj2 (proj2 (proj2 (proj2 (proj2 (proj2 (log_facts e I)))))))).
  - contradiction.
Qed.
Lemma listed_log : forall path dir l m f, object_partition objs table partitioned path dir -> directory_listing objs table dir l -> log_listed format l m f ->
  exists e, In e (w_logs w) /\ le_dir e = dir /\ m = new_meta (log_name e) (o_size (log_object table e))
    /\ lf_file_id f = le_id e /\ lf_base_commit f = le_base e /\ lf_version f = le_version e /\ lf_write_token f = le_token e.
Proof.
  intros path dir l m b OP DL [Im [NM [BN BF]]]. pose proof (partition_data _ _ OP) as D. apply DL in Im as [n [o [FI ->]]]. cbn [fm_name new_meta] in *.
  destruct (file_classes dir n o D FI) as [[e [I [_ [_ ->]]]]|[[e [I [ -> [ED ->]]]]|M]].
  - elim BN. apply base_text_named.
  - destruct (log_facts e I) as [_ [W1 [W2 [W3 [W4 _]]]]]. rewrite log_text_file in BF by assumption. injection BF as <-. exists e. auto 8.
  - contradiction.
Qed.
Lemma base_is_listed : forall e l, In e (w_bases w) -> directory_listing objs table (be_dir e) l ->
  let m := new_meta (base_name e) (o_size (base_object table format e)) in
  base_listed format l m {| bf_file_id := be_id e; bf_write_token := be_token e; bf_commit := be_commit e; bf_ext := format; bf_meta := Some m |}.
Proof.
  intros e l I DL m. destruct (base_facts e I) as [D [W1 [W2 [W3 [L [NM BN]]]]]]. split; [apply DL; exists (base_name e), (base_object table format e); split; [now apply base_in|reflexivity]|].
  split; [exact NM|]. split; [exact BN|]. now apply base_text_file.
Qed.
Lemma log_is_listed : forall e l, In e (w_logs w) -> directory_listing objs table (le_dir e) l ->
  let m := new_meta (log_name e) (o_size (log_object table e)) in
  log_listed format l m {| lf_file_id := le_id e; lf_base_commit := le_base e; lf_ext := "log"; lf_version := le_version e; lf_write_token := le_token e; lf_meta := Some m |}.
Proof.
  intros e l I DL m. destruct (log_facts e I) as [D [W1 [W2 [W3 [W4 [L [NM BN]]]]]]]. split; [apply DL; exists (log_name e), (log_object table e); split; [now apply log_in|reflexivity]|].
  split; [exact NM|]. split; [exact BN|]. now apply log_text_file.
Qed.
Lemma left_files : files_in_order objs table format partitioned footer.
Proof.
  intros path dir OP. split.
  - intros l DL. split; [|split].
    + intros m Im NM BN. pose proof (partition_data _ _ OP) as D. apply DL in Im as [n [o [FI ->]]]. cbn [fm_name new_meta] in *.
      destruct (file_classes dir n o D FI) as [[e [I [_ [_ ->]]]]|[[e [I [_ [_ ->]]]]|M]].
      * destruct (base_facts e I) as [_ [W1 [W2 [W3 _]]]]. eexists. now apply base_text_file.
      * now elim (proj2 (proj2 (proj2 (proj2 (proj2 (proj2 (proj2 (log_facts e I)))))))).
      * contradiction.
    + intros m1 m2 b1 b2 L1 L2 E1 E2. destruct (listed_base _ _ _ _ _ OP DL L1) as [e1 [I1 [D1 [ -> [A1 [B1 _]]]]]]. destruct (listed_base _ _ _ _ _ OP DL L2) as [e2 [I2 [D2 [ -> [A2 [B2 _]]]]]].
      assert (e1 = e2) as -> by (apply base_same; congruence). reflexivity.
    + intros m f m1 b1 L _ _. destruct (listed_log _ _ _ _ _ OP DL L) as [e [I [D [ -> [A1 [A2 _]]]]]]. destruct (k_log _ _ _ _ _ _ _ _ _ _ K e I) as [_ [_ [_ [_ [J _]]]]].
      apply in_map_iff in J as [[c rows] [E J]]. cbn [fst] in E. subst c. destruct (k_bases _ _ _ _ _ _ _ _ _ _ K _ _ _ J) as [e' [I' [EG [EC _]]]].
      assert (DD : be_dir e' = dir). { rewrite <- D. apply paths_inj; [apply (base_facts e' I')|apply (log_facts e I)|exact (f_equal fst EG)]. }
      rewrite <- DD in DL. eexists. eexists. split; [exact (base_is_listed e' l I' DL)|]. cbn [bf_file_id bf_commit]. split; [rewrite A1; exact (f_equal snd EG)|congruence].
  - intros n o FI NM BN. destruct (file_classes dir n o (partition_data _ _ OP) FI) as [[e [I [ -> [_ ->]]]]|[[e [I [_ [_ ->]]]]|M]].
    + apply (k_base _ _ _ _ _ _ _ _ _ _ K e I).
    + now elim (proj2 (proj2 (proj2 (proj2 (proj2 (proj2 (proj2 (log_facts e I)))))))).
    + contradiction.
Qed.
(** The blocks of the log file of this name in the directory of the group. *)
Definition blocks_at (path name : string) : list (wblock * list value) :=
  match find (fun e => (String.eqb (join "/" (le_dir e)) path && String.eqb (log_name e) name)%bool) (w_logs w) with Some e => le_blocks e | None => [] end.
Lemma blocks_found : forall e, In e (w_logs w) -> blocks_at (join "/" (le_dir e)) (log_name e) = le_blocks e.
Proof.
  intros e I. unfold blocks_at. destruct (find _ _) as [e'|] eqn:E.
  - apply find_some in E as [I' E]. apply andb_true_iff in E as [E1 E2]. apply String.eqb_eq in E1, E2. assert (e' = e) as ->; [|reflexivity]. apply log_entry_same; try assumption. apply paths_inj; [apply (log_facts e' I')|apply (log_facts e I)|exact E1].
  - exfalso. pose proof (find_none _ _ E e I) as N. cbn in N. rewrite !String.eqb_refl in N. discriminate.
Qed.
Lemma no_slash_end : forall dir, Forall legal dir -> forall r, join "/" dir <> r ++ "/".
Proof.
  intros dir F. induction dir as [|x dir _] using rev_ind; intros r E; [destruct r; discriminate|]. apply Forall_app in F as [F1 F2]. inversion F2 as [|? ? L _]; subst. destruct L as [N [S _]].
  assert (J : exists q, join "/" (dir ++ [x]) = q ++ x).
  { clear. induction dir as [|d dir [q IH]]; [now exists ""|]. destruct dir as [|d' dir]; [exists (d ++ "/"); cbn [List.app join]; now rewrite !app_assoc_s|].
    exists (d ++ String "/" q). cbn [List.app] in *. rewrite join_cons2, IH. now rewrite !app_assoc_s. }
  destruct J as [q J]. rewrite J in E. destruct (last_char x N) as [a [c ->]]. rewrite <- app_assoc_s in E.
  assert (c = "/"%char). { assert (H : ends_with "/" ((q ++ a) ++ String c "") = true) by (apply ends_with_spec; eauto). rewrite ends_char in H. apply Ascii.eqb_eq in H. congruence. }
  subst c. rewrite L_Str.has_char_app in S. cbn in S. now rewrite Bool.orb_true_r in S.
Qed.
Section Listed.
Variable g : string * string.
Variable dir : list string.
Variable l : list file_meta.
Hypothesis OP : object_partition objs table partitioned (fst g) dir.
Hypothesis DL : directory_listing objs table dir l.
Lemma base_dir : forall e, In e (w_bases w) -> be_group e = g -> be_dir e = dir.
Proof. destruct OP as [F [EP _]]. intros e I E. apply paths_inj; [apply (base_facts e I)|exact F|]. rewrite <- EP, <- E. reflexivity. Qed.
Lemma log_dir : forall e, In e (w_logs w) -> le_group e = g -> le_dir e = dir.
Proof. destruct OP as [F [EP _]]. intros e I E. apply paths_inj; [apply (log_facts e I)|exact F|]. rewrite <- EP, <- E. reflexivity. Qed.
Lemma logs_are : forall m c0, log_of format (snd g) l m c0 <-> exists e, In e (w_logs w) /\ le_group e = g /\ le_base e = c0 /\ m = new_meta (log_name e) (o_size (log_object table e)).
Proof.
  pose proof OP as [F [EP _]].
  assert (LG : forall e, le_dir e = dir -> le_id e = snd g -> le_group e = g). { intros e E1 E2. unfold le_group. rewrite E1, E2, <- EP. now destruct g. }
  intros m c0. split.
  - intros [f [L [E1 E2]]]. destruct (listed_log _ _ _ _ _ OP DL L) as [e [I [ED [ -> [A1 [A2 _]]]]]]. exists e. split; [exact I|]. split; [apply LG; congruence|]. split; [congruence|reflexivity].
  - intros [e [I [E1 [E2 ->]]]]. pose proof (log_dir e I E1) as ED. pose proof DL as DL'. rewrite <- ED in DL'. eexists. split; [exact (log_is_listed e l I DL')|]. cbn [lf_file_id lf_base_commit]. split; [rewrite <- E1; reflexivity|exact E2].
Qed.
Lemma bases_are : forall m c0, base_of format (snd g) l m c0 <-> exists e, In e (w_bases w) /\ be_group e = g /\ be_commit e = c0 /\ m = new_meta (base_name e) (o_size (base_object table format e)).
Proof.
  pose proof OP as [F [EP _]].
  assert (BG : forall e, be_dir e = dir -> be_id e = snd g -> be_group e = g). { intros e E1 E2. unfold be_group. rewrite E1, E2, <- EP. now destruct g. }
  intros m c0. split.
  - intros [f [L [E1 E2]]]. destruct (listed_base _ _ _ _ _ OP DL L) as [e [I [ED [ -> [A1 [A2 _]]]]]]. exists e. split; [exact I|]. split; [apply BG; congruence|]. split; [congruence|reflexivity].
  - intros [e [I [E1 [E2 ->]]]]. pose proof (base_dir e I E1) as ED. pose proof DL as DL'. rewrite <- ED in DL'. eexists. split; [exact (base_is_listed e l I DL')|]. cbn [bf_file_id bf_commit]. split; [rewrite <- E1; reflexivity|exact E2].
Qed.
Lemma blocks_of_group : forall e, In e (w_logs w) -> le_group e = g -> blocks_at (fst g) (log_name e) = le_blocks e.
Proof. intros e I E. rewrite <- (blocks_found e I). rewrite <- E. reflexivity. Qed.
End Listed.
Lemma left_out : forall g c, S_Whole.has_base objs table format partitioned g c -> forall dir l content, object_partition objs table partitioned (fst g) dir -> directory_listing objs table dir l ->
  (forall n o, file_in objs table dir n o -> content (file_path (fst g) n) = Ok (o_data o)) ->
  written_out parse_schema encodes code rank (fun path => let* d := content path in parse_rows d) content format (fst g) (snd g) dfs l (blocks_at (fst g)) (w_hist w g).
Proof.
  intros g c HB dir l content OP DL CT.
  pose proof (partition_data _ _ OP) as D. pose proof OP as [F [EP _]].
  pose proof (base_dir g dir OP) as GB. pose proof (log_dir g dir OP) as GL. pose proof (logs_are g dir l OP DL) as LO. pose proof (bases_are g dir l OP DL) as BO. pose proof (blocks_of_group g) as BA.
  split.
  - split; [rewrite EP; now apply no_slash_end|]. apply left_bases in HB. apply in_map_iff in HB as [[c' rows] [_ J]]. destruct (k_bases _ _ _ _ _ _ _ _ _ _ K _ _ _ J) as [e [I [E _]]].
    intros r Er. destruct (base_facts e I) as [_ [[_ [_ [SL _]]] _]]. rewrite <- E in Er. cbn [snd be_group] in Er. rewrite Er in SL. cbn in SL. discriminate.
  - intros m b L _. destruct (listed_base _ _ _ _ _ OP DL L) as [e [_ [_ [ -> [_ [_ E]]]]]]. exact E.
  - intros c0. split.
    + intros J. apply in_map_iff in J as [[c' rows] [E J]]. cbn [fst] in E. subst c'. destruct (k_bases _ _ _ _ _ _ _ _ _ _ K _ _ _ J) as [e [I [E1 [E2 _]]]]. eexists. apply BO. exists e. auto.
    + intros [m L]. apply BO in L as [e [I [E1 [ <- _]]]]. destruct (k_base _ _ _ _ _ _ _ _ _ _ K e I) as [_ [_ [_ [_ [_ [rows [J _]]]]]]]. rewrite E1 in J. apply in_map_iff. now exists (be_commit e, rows).
  - intros m c0 rows L J. apply BO in L as [e [I [E1 [E2 ->]]]]. cbn [fm_name new_meta]. rewrite (CT (base_name e) (base_object table format e)); [|rewrite <- (GB e I E1); now apply base_in]. cbn [bind o_data base_object].
    destruct (k_bases _ _ _ _ _ _ _ _ _ _ K _ _ _ J) as [e' [I' [E1' [E2' PR]]]]. assert (e = e') as ->; [|exact PR]. apply base_same; try assumption.
    * rewrite (GB e I E1), (GB e' I' E1'). reflexivity.
    * pose proof (f_equal snd (eq_trans E1 (eq_sym E1'))) as H. exact H.
    * congruence.
  - exact (k_typed _ _ _ _ _ _ _ _ _ _ K g).
  - intros m1 l1 m2 l2 L1 L2 E1 E2 EB EV ET. destruct (listed_log _ _ _ _ _ OP DL L1) as [e1 [I1 [D1 [ -> [A1 [A2 [A3 A4]]]]]]]. destruct (listed_log _ _ _ _ _ OP DL L2) as [e2 [I2 [D2 [ -> [B1 [B2 [B3 B4]]]]]]].
    assert (e1 = e2) as -> by (apply log_same; congruence). reflexivity.
  - intros m c0 L. apply LO in L as [e [I [E1 [E2 ->]]]]. cbn [fm_name new_meta]. rewrite (BA e I E1). split.
    + rewrite (CT (log_name e) (log_object table e)); [reflexivity|]. rewrite <- (GL e I E1). now apply log_in.
    + intros bl vs J. destruct (k_log _ _ _ _ _ _ _ _ _ _ K e I) as [_ [_ [_ [_ [_ A]]]]]. destruct (A bl vs J) as [x [[X1 [X2 X3]] X4]]. split; [exact X1|]. split; [exact X2|]. eauto.
  - intros c0 x r. rewrite (k_blocks _ _ _ _ _ _ _ _ _ _ K g c0 x r). split.
    + intros [e [bl [vs [v [A1 [A2 [A3 [A4 [A5 [A6 A7]]]]]]]]]]. eexists. exists bl, vs, v. split; [apply LO; exists e; auto|]. cbn [fm_name new_meta]. rewrite (BA e A1 A2). auto.
    + intros [m [bl [vs [v [L [A4 [A5 [A6 A7]]]]]]]]. apply LO in L as [e [A1 [A2 [A3 ->]]]]. cbn [fm_name new_meta] in A4. rewrite (BA e A1 A2) in A4. exists e, bl, vs, v. auto 8.
  - intros c0 y x. rewrite (k_rollbacks _ _ _ _ _ _ _ _ _ _ K g c0 y x). split.
    + intros [e [bl [vs [A1 [A2 [A3 [A4 A5]]]]]]]. eexists. exists bl, vs. split; [apply LO; exists e; auto|]. cbn [fm_name new_meta]. rewrite (BA e A1 A2). auto.
    + intros [m [bl [vs [L [A4 A5]]]]]. apply LO in L as [e [A1 [A2 [A3 ->]]]]. cbn [fm_name new_meta] in A4. rewrite (BA e A1 A2) in A4. exists e, bl, vs. auto 8.
Qed.
Lemma left_written : (forall g now h, known g now h -> history k p s now h) -> forall t, (forall g, clean_at (w_hist w g) t) -> S_Whole.written_by objs table format partitioned parse_schema code rank parse_rows dfs k p s t (w_hist w).
Proof.
  intros HH t CL g c HB. exists (w_last w g), (blocks_at (fst g)). split; [apply (HH g), (k_hist _ _ _ _ _ _ _ _ _ _ K)|]. split; [apply CL|]. exact (left_out g c HB).
Qed.
End Objects.
