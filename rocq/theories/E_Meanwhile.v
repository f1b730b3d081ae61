(** The table of E_History on an object store, read while writers go on. *)
From Coq Require Import Sorted.
From Verif Require Import Base Str L_Base L_Str M_Time M_Instant M_Timeline M_FileGroup M_Builder M_Listing M_Expr M_Log M_Config M_Reader M_Table M_Storage M_Session M_Objects M_During
  S_Time S_Timeline S_FileGroup S_Builder S_Listing S_Expr S_Log S_Reader S_Config S_Table S_History S_Storage S_Session S_Objects S_During S_Meanwhile
  L_Timeline L_Reader L_History L_Storage L_Objects E_History E_Scan E_Open E_During.
Local Open Scope string_scope.

(** ** Some of the files of a file group, with other sizes *)
Lemma base_meta : forall name m m' b, base_file_of name m = Ok b -> exists b', base_file_of name m' = Ok b' /\ bf_file_id b' = bf_file_id b /\ bf_commit b' = bf_commit b /\ base_file_name b' = base_file_name b.
Proof. intros name m m' b H. unfold base_file_of in *. apply bind_ok in H as [[[[i tk] c] e] [E H]]. rewrite E. injection H as <-. cbn [bind]. eexists. split; [reflexivity|]. auto. Qed.
Lemma log_meta : forall name m m' l, log_file_of name m = Ok l -> exists l', log_file_of name m' = Ok l' /\ lf_file_id l' = lf_file_id l /\ lf_base_commit l' = lf_base_commit l /\ lf_version l' = lf_version l /\ lf_write_token l' = lf_write_token l.
Proof. intros name m m' l H. unfold log_file_of in *. apply bind_ok in H as [[[[[i c] e] v] tk] [E H]]. rewrite E. injection H as <-. cbn [bind]. eexists. split; [reflexivity|]. auto. Qed.
Lemma name_inj : forall (l : list file_meta) a b, NoDup (map fm_name l) -> In a l -> In b l -> fm_name a = fm_name b -> a = b.
Proof.
  induction l as [|x l IH]; intros a b D Ia Ib E; [destruct Ia|]. cbn in D. inversion D as [|? ? N D']; subst.
  destruct Ia as [ <- |Ia]; destruct Ib as [ <- |Ib]; [reflexivity| | |now apply IH]; exfalso; apply N; [rewrite E|rewrite <- E]; now apply in_map.
Qed.

Section Part.
Variable avro_schema avro_value : Type.
Variable parse_schema : string -> option avro_schema.
Variable datum : avro_schema -> string -> option (avro_value * string).
Variable check_schema : avro_schema -> outcome unit.
Variable to_batch : avro_schema -> list avro_value -> outcome record_batch.
Variable parquet : string -> option (list record_batch).
Variable rp rp' : string -> outcome record_batch.
Variable by_ by' : string -> outcome string.
Variable format part id : string.
Variable sch : list field.
Variable listed listed' : list file_meta.
Variable contents : string -> list (wblock * list record_batch).
Variable g g' : group.
Variable keep keep_log : string -> Prop.
Hypothesis LO : laid_out avro_schema avro_value parse_schema datum check_schema to_batch parquet rp by_ format part id sch listed contents g.
Hypothesis ND : NoDup (map fm_name listed').
Hypothesis SUB : forall m', In m' listed' -> exists m, In m listed /\ fm_name m = fm_name m'.
Hypothesis KB : forall m c, base_of format id listed m c -> (keep c <-> In (fm_name m) (map fm_name listed')).
Hypothesis KL : forall m c, log_of format id listed m c -> (keep_log c <-> In (fm_name m) (map fm_name listed')).
Hypothesis RB : forall m c, base_of format id listed m c -> keep c -> rp' (file_path part (fm_name m)) = rp (file_path part (fm_name m)).
Hypothesis RL : forall m c, log_of format id listed m c -> keep_log c -> by' (file_path part (fm_name m)) = by_ (file_path part (fm_name m)).
Hypothesis GB : forall c rows, In (c, rows) (g_bases g') <-> In (c, rows) (g_bases g) /\ keep c.
Hypothesis GL : forall c x rows, In (c, x, rows) (g_blocks g') <-> In (c, x, rows) (g_blocks g) /\ keep_log c.
Hypothesis GR : forall c y x, In (c, y, x) (g_rollbacks g') <-> In (c, y, x) (g_rollbacks g) /\ keep_log c.
Hypothesis GV : forall x r, In (x, r) (g_versions g') -> wf_row sch r.

Lemma part_base : forall m' b', base_listed format listed' m' b' -> bf_file_id b' = id -> exists m b, base_listed format listed m b /\ fm_name m = fm_name m' /\ bf_file_id b = id /\ bf_commit b = bf_commit b' /\ base_file_name b = base_file_name b' /\ keep (bf_commit b).
Proof.
  intros m' b' [I [M [N B]]] E. destruct (SUB m' I) as [m [Im En]]. destruct (base_meta _ _ (Some m) _ B) as [b [B' [E1 [E2 E3]]]]. exists m, b.
  assert (X : base_listed format listed m b) by (split; [exact Im|]; rewrite En; auto). split; [exact X|]. split; [exact En|]. split; [congruence|]. split; [exact E2|]. split; [exact E3|].
  apply (KB m); [exists b; split; [exact X|split; congruence]|]. rewrite En. now apply in_map.
Qed.
Lemma part_log : forall m' l', log_listed format listed' m' l' -> lf_file_id l' = id -> exists m l, log_listed format listed m l /\ fm_name m = fm_name m' /\ lf_file_id l = id /\ lf_base_commit l = lf_base_commit l' /\ lf_version l = lf_version l' /\ lf_write_token l = lf_write_token l' /\ keep_log (lf_base_commit l).
Proof.
  intros m' l' [I [M [N B]]] E. destruct (SUB m' I) as [m [Im En]]. destruct (log_meta _ _ (Some m) _ B) as [b [B' [E1 [E2 [E3 E4]]]]]. exists m, b.
  assert (X : log_listed format listed m b) by (split; [exact Im|]; rewrite En; auto). split; [exact X|]. split; [exact En|]. split; [congruence|]. split; [exact E2|]. split; [exact E3|]. split; [exact E4|].
  apply (KL m); [exists b; split; [exact X|split; congruence]|]. rewrite En. now apply in_map.
Qed.
Lemma part_base_of : forall m' c, base_of format id listed' m' c -> keep c /\ exists m, base_of format id listed m c /\ fm_name m = fm_name m'.
Proof. intros m' c [b' [B [E <-]]]. destruct (part_base m' b' B E) as [m [b [X1 [X2 [X3 [X4 [_ X6]]]]]]]. rewrite <- X4. split; [exact X6|]. exists m. split; [exists b; auto|exact X2]. Qed.
Lemma part_log_of : forall m' c, log_of format id listed' m' c -> keep_log c /\ exists m, log_of format id listed m c /\ fm_name m = fm_name m'.
Proof. intros m' c [b' [B [E <-]]]. destruct (part_log m' b' B E) as [m [b [X1 [X2 [X3 [X4 [_ [_ X6]]]]]]]]. rewrite <- X4. split; [exact X6|]. exists m. split; [exists b; auto|exact X2]. Qed.
Lemma base_of_part : forall m c, base_of format id listed m c -> keep c -> exists m', base_of format id listed' m' c /\ fm_name m' = fm_name m.
Proof.
  intros m c B K. pose proof (proj1 (KB m c B) K) as I. apply in_map_iff in I as [m' [En I]]. destruct B as [b [[_ [M [N B]]] [E1 E2]]]. destruct (base_meta _ _ (Some m') _ B) as [b' [B' [E3 [E4 _]]]].
  exists m'. split; [|exact En]. exists b'. split; [split; [exact I|]; rewrite En; auto|split; congruence].
Qed.
Lemma log_of_part : forall m c, log_of format id listed m c -> keep_log c -> exists m', log_of format id listed' m' c /\ fm_name m' = fm_name m.
Proof.
  intros m c B K. pose proof (proj1 (KL m c B) K) as I. apply in_map_iff in I as [m' [En I]]. destruct B as [b [[_ [M [N B]]] [E1 E2]]]. destruct (log_meta _ _ (Some m') _ B) as [b' [B' [E3 [E4 _]]]].
  exists m'. split; [|exact En]. exists b'. split; [split; [exact I|]; rewrite En; auto|split; congruence].
Qed.
Lemma laid_out_part : laid_out avro_schema avro_value parse_schema datum check_schema to_batch parquet rp' by' format part id sch listed' contents g'.
Proof.
  constructor.
  - apply LO.
  - intros m' b' B E. destruct (part_base m' b' B E) as [m [b [X1 [X2 [X3 [X4 [X5 X6]]]]]]]. rewrite <- X5, <- X2. exact (lo_names _ _ _ _ _ _ _ _ _ _ _ _ _ _ _ _ LO m b X1 X3).
  - intros c. split.
    + intros I. apply in_map_iff in I as [[c' rows] [E I]]. cbn in E. subst c'. apply GB in I as [I K]. destruct (proj1 (lo_bases _ _ _ _ _ _ _ _ _ _ _ _ _ _ _ _ LO c)) as [m B]; [apply in_map_iff; now exists (c, rows)|].
      destruct (base_of_part m c B K) as [m' [B' _]]. eauto.
    + intros [m' B']. destruct (part_base_of m' c B') as [K [m [B _]]]. pose proof (proj2 (lo_bases _ _ _ _ _ _ _ _ _ _ _ _ _ _ _ _ LO c) (ex_intro _ m B)) as I.
      apply in_map_iff in I as [[c' rows] [E I]]. cbn in E. subst c'. apply in_map_iff. exists (c, rows). split; [reflexivity|]. now apply GB.
  - intros m' c rows B' I. apply GB in I as [I _]. destruct (part_base_of m' c B') as [K [m [B En]]]. rewrite <- En, (RB m c B K). exact (lo_rows _ _ _ _ _ _ _ _ _ _ _ _ _ _ _ _ LO m c rows B I).
  - exact GV.
  - intros m1 l1 m2 l2 L1 L2 E1 E2 Ec Ev Et. destruct (part_log m1 l1 L1 E1) as [n1 [k1 [X1 [X2 [X3 [X4 [X5 [X6 X7]]]]]]]]. destruct (part_log m2 l2 L2 E2) as [n2 [k2 [Y1 [Y2 [Y3 [Y4 [Y5 [Y6 Y7]]]]]]]].
    assert (n1 = n2) by (apply (lo_distinct _ _ _ _ _ _ _ _ _ _ _ _ _ _ _ _ LO n1 k1 n2 k2); congruence). subst n2. apply (name_inj listed'); [exact ND|apply L1|apply L2|congruence].
  - intros m' c L'. destruct (part_log_of m' c L') as [K [m [B En]]]. rewrite <- En, (RL m c B K). exact (lo_logs _ _ _ _ _ _ _ _ _ _ _ _ _ _ _ _ LO m c B).
  - intros c x r. split.
    + intros [rows [I Ir]]. apply GL in I as [I K]. destruct (proj1 (lo_blocks _ _ _ _ _ _ _ _ _ _ _ _ _ _ _ _ LO c x r)) as [m [w [bs [B X]]]]; [eauto|]. destruct (log_of_part m c B K) as [m' [B' En]]. exists m', w, bs. rewrite En. auto.
    + intros [m' [w [bs [B' X]]]]. destruct (part_log_of m' c B') as [K [m [B En]]]. rewrite <- En in X. destruct (proj2 (lo_blocks _ _ _ _ _ _ _ _ _ _ _ _ _ _ _ _ LO c x r)) as [rows [I Ir]]; [exists m, w, bs; auto|]. exists rows. split; [|exact Ir]. now apply GL.
  - intros c y x. split.
    + intros I. apply GR in I as [I K]. apply (lo_rollbacks _ _ _ _ _ _ _ _ _ _ _ _ _ _ _ _ LO) in I as [m [w [bs [B X]]]]. destruct (log_of_part m c B K) as [m' [B' En]]. exists m', w, bs. rewrite En. auto.
    + intros [m' [w [bs [B' X]]]]. destruct (part_log_of m' c B') as [K [m [B En]]]. rewrite <- En in X. apply GR. split; [|exact K]. apply (lo_rollbacks _ _ _ _ _ _ _ _ _ _ _ _ _ _ _ _ LO). eauto.
Qed.
End Part.

(** ** The objects at three moments: before the compaction, after it, after the deltacommit that follows *)
Definition mx_object (name data : string) : object := {| o_key := "data/t/" ++ name; o_data := data |}.
Definition mx_log (m : file_meta) : object := mx_object (fm_name m) (put_log (map fst (hx_contents (fm_name m)))).
Definition mx_start : list object :=
  [mx_object ".hoodie/20250101000000000.commit" "c1"; mx_object ".hoodie/20250102000000000.deltacommit" "d2"; mx_object (fm_name hx_base1) "base1"; mx_log hx_log1].
Definition mx_mid : list object := (mx_start ++ [mx_object (fm_name hx_base5) "base5"])%list.
Definition mx_end : list object := (mx_mid ++ [mx_log hx_log5])%list.
Definition mx_later : list (list object) := [mx_mid; mx_end].
Definition mx_json (d : string) : outcome (list (string * json)) :=
  if String.eqb d "c1" then Ok (hx_md (fm_name hx_base1) []) else if String.eqb d "d2" then Ok (hx_md (fm_name hx_base1) [fm_name hx_log1]) else Err EStorage.
Definition mx_schema (d : string) : outcome (list (string * unit)) := Ok [("ts", tt)].
Definition mx_rows (d : string) : outcome record_batch :=
  if String.eqb d "base1" then Ok (hx_batch [hx_a1; hx_b1]) else if String.eqb d "base5" then Ok (hx_batch [hx_a2; hx_b1]) else Err EStorage.
Definition mx_footer (d : string) : outcome (Z * Z) := Ok (1, 1)%Z.
Definition mx_store (objs : list object) : store unit := object_store objs sx_base unit mx_json mx_schema mx_rows mx_footer (fun _ _ => Ok tt).
(** The table was opened before the compaction. *)
Definition mx_table : table := {| t_configs := t_configs hx_table; t_storage := []; t_commits := firstn 2 (t_commits hx_table) |}.
(** A query that lists the files after the compaction and reads them after the deltacommit. *)
Definition mx_query : store unit :=
  {| st_json := st_json _ (mx_store mx_start); st_schema := st_schema _ (mx_store mx_mid); st_files := st_files _ (mx_store mx_mid); st_dirs := st_dirs _ (mx_store mx_start);
     st_meta := st_meta _ (mx_store mx_mid); st_parquet := st_parquet _ (mx_store mx_end); st_bytes := st_bytes _ (mx_store mx_end); st_open := fun _ _ => Ok tt |}.
Definition mx_group5 : group :=
  {| g_versions := g_versions hx_group4; g_bases := g_bases hx_group; g_blocks := g_blocks hx_group4; g_failed := g_failed hx_group4; g_rollbacks := g_rollbacks hx_group4 |}.

Fact mx_proper : forall objs, In objs (mx_start :: mx_later) -> proper_objects objs.
Proof. intros objs [ <- |[ <- |[ <- |[]]]]; apply proper_by; vm_compute; reflexivity. Qed.
Fact mx_grows : grows (mx_start :: mx_later).
Proof.
  assert (A : incl mx_start mx_mid) by (intros x I; apply in_or_app; now left). assert (B : incl mx_mid mx_end) by (intros x I; apply in_or_app; now left). assert (C : incl mx_start mx_end) by (intros x I; auto).
  intros a b [ <- |[ <- |[ <- |[]]]] [ <- |[ <- |[ <- |[]]]]; auto using incl_refl.
Qed.
Fact mx_sees : sees (mx_start :: mx_later) sx_base unit mx_json mx_schema mx_rows mx_footer (fun _ _ => Ok tt) mx_query.
Proof.
  intros q. cbv zeta. assert (I0 : In mx_start (mx_start :: mx_later)) by now left. assert (I1 : In mx_mid (mx_start :: mx_later)) by (right; now left). assert (I2 : In mx_end (mx_start :: mx_later)) by (right; right; now left).
  split; [exists mx_start; split; [exact I0|reflexivity]|]. split; [exists mx_mid; split; [exact I1|reflexivity]|]. split; [exists mx_mid; split; [exact I1|reflexivity]|]. split; [exists mx_start; split; [exact I0|reflexivity]|].
  split; [exists mx_mid; split; [exact I1|reflexivity]|]. split; exists mx_end; (split; [exact I2|reflexivity]).
Qed.
Fact mx_after : read_after_listing unit mx_store (mx_start :: mx_later) mx_query.
Proof.
  intros q. exists mx_mid. split; [right; now left|]. split; [reflexivity|]. intros name. cbv zeta.
  assert (B : incl mx_mid mx_end) by (intros x I; apply in_or_app; now left).
  split; exists mx_end; (split; [right; right; now left|]; split; [exact B|reflexivity]).
Qed.
Fact mx_timeline : forall i, In i (t_commits mx_table) -> exists o, file_in mx_start ["data"; "t"] [".hoodie"] (file_name i) o.
Proof.
  intros i [ <- |[ <- |[]]]; eexists; [split; [left; reflexivity|]|split; [right; left; reflexivity|]]; (split; [repeat split; discriminate|reflexivity]).
Qed.
Fact mx_one_base : forall objs, In objs (mx_start :: mx_later) -> one_base_file ["data"; "t"] "parquet" objs.
Proof. intros objs I. apply one_base_by; [repeat constructor; discriminate|]. destruct I as [ <- |[ <- |[ <- |[]]]]; vm_compute; reflexivity. Qed.
Fact mx_later_objects : forall objs, In objs mx_later -> later_objects ["data"; "t"] "parquet" hx_t4 mx_start objs.
Proof.
  assert (H : forall dir name o, Forall legal dir -> legal name -> o_key o = key_of (["data"; "t"] ++ dir ++ [name]) -> In o [mx_object (fm_name hx_base5) "base5"; mx_log hx_log5] ->
    (forall b, ~ marker_name name -> base_named "parquet" name -> base_file_of name (Some (new_meta name (o_size o))) = Ok b -> slt hx_t4 (bf_commit b))
    /\ forall d, Forall legal d -> data_directory mx_start ["data"; "t"] (join "/" d) -> forall below, dir = (d ++ below)%list -> below = []).
  { intros dir name o F N K I. symmetry in K.
    assert (E0 : forall x, (dir ++ [name])%list = [x] -> dir = [] /\ name = x) by (intros x E; change [x] with ([] ++ [x])%list in E; now apply app_inj_tail in E).
    destruct I as [ <- |[ <- |[]]].
    - apply (in_key dir name [fm_name hx_base5] F N ltac:(repeat constructor; discriminate)) in K. apply E0 in K as [-> ->]. split.
      + intros b _ _ B. vm_compute in B. injection B as <-. reflexivity.
      + intros d _ _ below E. symmetry in E. now apply app_eq_nil in E.
    - apply (in_key dir name [fm_name hx_log5] F N ltac:(repeat constructor; discriminate)) in K. apply E0 in K as [-> ->]. split.
      + intros b _ [r B]. assert (X : ends_with ".parquet" (fm_name hx_log5) = true) by (apply ends_with_spec; exists r; exact B). discriminate X.
      + intros d _ _ below E. symmetry in E. now apply app_eq_nil in E. }
  intros objs I. split; [intros x J; destruct I as [ <- |[ <- |[]]]; repeat (apply in_or_app; left); exact J|].
  intros dir name o F [Io [N K]] NI. apply (H dir name o F N K).
  destruct I as [ <- |[ <- |[]]]; unfold mx_end, mx_mid in Io; rewrite ?in_app_iff in Io; cbn [In] in *; tauto.
Qed.

(** What the files hold at each moment. *)
Definition mx_lays objs := laid_out unit unit (fun _ => None) (fun _ _ => None) (fun _ => Ok tt) (fun _ _ => Err EArrow) hx_decode (st_parquet _ (mx_store objs)) (st_bytes _ (mx_store objs)).
Definition mx_sized (m : file_meta) (data : string) : file_meta := new_meta (fm_name m) (Z.of_nat (String.length data)).
Definition mx_files : list file_meta := [mx_sized hx_base1 "base1"; mx_sized hx_log1 (o_data (mx_log hx_log1)); mx_sized hx_base5 "base5"; mx_sized hx_log5 (o_data (mx_log hx_log5))].
Fact mx_base_of : forall m c, base_of "parquet" "f" hx_listed m c -> m = hx_base1 /\ c = hx_t1 \/ m = hx_base5 /\ c = hx_t5.
Proof. intros m c [b [B [_ <-]]]. apply hx_bases in B as [_ [_ B]]. exact B. Qed.
Ltac mx_in := cbn; intuition discriminate.
Fact mx_sub : forall n m', In m' (firstn n mx_files) -> exists m, In m hx_listed /\ fm_name m = fm_name m'.
Proof.
  intros n m' I. assert (J : In m' mx_files) by (rewrite <- (firstn_skipn n); apply in_or_app; now left).
  destruct J as [ <- |[ <- |[ <- |[ <- |[]]]]]; [exists hx_base1|exists hx_log1|exists hx_base5|exists hx_log5]; (split; [cbn; tauto|reflexivity]).
Qed.
Fact mx_laid_start : mx_lays mx_start "parquet" "" "f" hx_sch (firstn 2 mx_files) hx_contents hx_group4.
Proof.
  apply (laid_out_part unit unit _ _ _ _ _ (st_parquet _ hx_store) _ (st_bytes _ hx_store) _ "parquet" "" "f" hx_sch hx_listed (firstn 2 mx_files) hx_contents hx_group hx_group4 (fun c => c = hx_t1) (fun c => c = hx_t1) hx_laid_out).
  - cbn [map firstn mx_files]. repeat constructor; mx_in.
  - exact (mx_sub 2).
  - intros m c B. apply mx_base_of in B as [[-> ->]|[-> ->]]; mx_in.
  - intros m c B. apply hx_log_of in B as [[-> ->]|[-> ->]]; mx_in.
  - intros m c B K. apply mx_base_of in B as [[-> ->]|[-> ->]]; [vm_compute; reflexivity|discriminate K].
  - intros m c B K. apply hx_log_of in B as [[-> ->]|[-> ->]]; [vm_compute; reflexivity|discriminate K].
  - intros c rows. cbn. split; [intros [[= <- <-]|[]]; auto|]. intros [[[= <- <-]|[[= <- <-]|[]]] E]; [auto|discriminate E].
  - intros c x rows. cbn. split; [intros [[= <- <- <-]|[[= <- <- <-]|[]]]; auto|]. intros [[[= <- <- <-]|[[= <- <- <-]|[[= <- <- <-]|[]]]] E]; [auto|auto|discriminate E].
  - intros c y x. cbn. split; [intros [[= <- <- <-]|[]]; auto|]. intros [[[= <- <- <-]|[]] E]; auto.
  - intros x r I. apply (lo_typed _ _ _ _ _ _ _ _ _ _ _ _ _ _ _ _ hx_laid_out x r). cbn in *. tauto.
Qed.
Fact mx_laid_mid : mx_lays mx_mid "parquet" "" "f" hx_sch (firstn 3 mx_files) hx_contents mx_group5.
Proof.
  apply (laid_out_part unit unit _ _ _ _ _ (st_parquet _ hx_store) _ (st_bytes _ hx_store) _ "parquet" "" "f" hx_sch hx_listed (firstn 3 mx_files) hx_contents hx_group mx_group5 (fun c => True) (fun c => c = hx_t1) hx_laid_out).
  - cbn [map firstn mx_files]. repeat constructor; mx_in.
  - exact (mx_sub 3).
  - intros m c B. apply mx_base_of in B as [[-> ->]|[-> ->]]; mx_in.
  - intros m c B. apply hx_log_of in B as [[-> ->]|[-> ->]]; mx_in.
  - intros m c B K. apply mx_base_of in B as [[-> ->]|[-> ->]]; vm_compute; reflexivity.
  - intros m c B K. apply hx_log_of in B as [[-> ->]|[-> ->]]; [vm_compute; reflexivity|discriminate K].
  - intros c rows. cbn. tauto.
  - intros c x rows. cbn. split; [intros [[= <- <- <-]|[[= <- <- <-]|[]]]; auto|]. intros [[[= <- <- <-]|[[= <- <- <-]|[[= <- <- <-]|[]]]] E]; [auto|auto|discriminate E].
  - intros c y x. cbn. split; [intros [[= <- <- <-]|[]]; auto|]. intros [[[= <- <- <-]|[]] E]; auto.
  - intros x r I. apply (lo_typed _ _ _ _ _ _ _ _ _ _ _ _ _ _ _ _ hx_laid_out x r). cbn in *. tauto.
Qed.
Fact mx_laid_end : mx_lays mx_end "parquet" "" "f" hx_sch mx_files hx_contents hx_group.
Proof.
  apply (laid_out_part unit unit _ _ _ _ _ (st_parquet _ hx_store) _ (st_bytes _ hx_store) _ "parquet" "" "f" hx_sch hx_listed mx_files hx_contents hx_group hx_group (fun c => True) (fun c => True) hx_laid_out).
  - cbn [map mx_files]. repeat constructor; mx_in.
  - exact (mx_sub 4).
  - intros m c B. apply mx_base_of in B as [[-> ->]|[-> ->]]; mx_in.
  - intros m c B. apply hx_log_of in B as [[-> ->]|[-> ->]]; mx_in.
  - intros m c B K. apply mx_base_of in B as [[-> ->]|[-> ->]]; vm_compute; reflexivity.
  - intros m c B K. apply hx_log_of in B as [[-> ->]|[-> ->]]; vm_compute; reflexivity.
  - intros c rows. cbn. tauto.
  - intros c x rows. cbn. tauto.
  - intros c y x. cbn. tauto.
  - exact (lo_typed _ _ _ _ _ _ _ _ _ _ _ _ _ _ _ _ hx_laid_out).
Qed.
Fact mx_compacted : continues 2 3 1 hx_t4 hx_group4 hx_t5 mx_group5.
Proof.
  eapply c_write; [apply c_same|apply hx_stamp; cbn; tauto|reflexivity|apply (w_compact 2 3 1 hx_group4 hx_t5 [hx_a2; hx_b1])]. split; [|split].
  - cbn. repeat constructor; cbn; intuition discriminate.
  - intros r I. cbn in I. destruct I as [ <- |[ <- |[ <- |[]]]]; [exists hx_a2|exists hx_b1|exists hx_a2]; cbn; auto.
  - intros r I. split; [cbn in *; tauto|]. cbn [g_versions hx_group4 map snd]. destruct I as [ <- |[ <- |[]]]; hx_newer.
Qed.
Fact mx_written : written_on unit unit unit (fun _ => None) (fun _ _ => None) (fun _ => Ok tt) (fun _ _ => Err EArrow) hx_decode mx_store (mx_start :: mx_later) "parquet" hx_sch 2 3 1 "" "f" hx_t4 hx_group4.
Proof.
  intros objs [ <- |[ <- |[ <- |[]]]].
  - exists hx_t4, hx_group4, (firstn 2 mx_files), hx_contents. split; [apply c_same|]. split; [vm_compute; reflexivity|exact mx_laid_start].
  - exists hx_t5, mx_group5, (firstn 3 mx_files), hx_contents. split; [exact mx_compacted|]. split; [vm_compute; reflexivity|exact mx_laid_mid].
  - exists hx_t6, hx_group, mx_files, hx_contents. split; [exact hx_continues|]. split; [vm_compute; reflexivity|exact mx_laid_end].
Qed.
Fact mx_clean : clean_at hx_group4 hx_t4.
Proof.
  intros b x rows I F _. destruct F as [ <- |[]]. destruct I as [[= <- <-]|[[= <- <-]|[]]]. exists hx_t4. split; [now left|apply sle_refl].
Qed.
Fact mx_distinct : distinct_versions 2 3 1 hx_group4 hx_t4.
Proof.
  intros x a y b Ia Ib _ _ K P _. cbn in Ia, Ib. destruct Ia as [[= <- <-]|[[= <- <-]|[[= <- <-]|[]]]]; destruct Ib as [[= <- <-]|[[= <- <-]|[[= <- <-]|[]]]]; try reflexivity; try discriminate K; discriminate P.
Qed.
Fact mx_merging : merging_table mx_table hx_sch 3 1 2.
Proof. destruct hx_merging as [A B C D E]. now constructor. Qed.
Fact mx_sorted : StronglySorted instant_le (t_commits mx_table).
Proof. repeat constructor; cbn; unfold instant_le; cbn; (left; lia) || lia || reflexivity || discriminate. Qed.
Fact mx_fields : get_partition_schema unit (mx_store mx_start) mx_table = Ok [].
Proof. vm_compute. reflexivity. Qed.
Fact mx_wf_fields : wf_fields (dtype := unit) [].
Proof. split; [constructor|intros n []]. Qed.
Definition mx_reads (st : store unit) (c' : cache) (rows : list (list cell)) : Prop :=
  read_snapshot_as_of unit string (fun _ s => Some s) (fun a b => Some (scmp a b)) unit unit (fun _ => None) (fun _ _ => None) (fun _ => Ok tt) (fun _ _ => Err EArrow) hx_decode
    hx_local st mx_table hx_t4 [] [] c' (Ok [hx_batch rows]).
Ltac mx_read :=
  eexists; eapply ra_ok;
  [eapply ga_ok; [vm_compute; reflexivity|]; eapply sa_view; [vm_compute; reflexivity|vm_compute; reflexivity|vm_compute; reflexivity|vm_compute; reflexivity|];
   eapply vq_ok with (order := fun _ l => l);
   [reflexivity
   |eapply hx_listing; vm_compute; reflexivity
   |reflexivity|vm_compute; reflexivity]
  |eapply rs_read with (iter := fun m => m); [intros m; reflexivity| |];
   [split; [reflexivity|]; apply Forall2_cons; [exists (@isort _), (fun m => m); split; [apply isort_sorts|split; [intros m; reflexivity|vm_compute; reflexivity]]|apply Forall2_nil]
   |exact (jo_ok [hx_batch _])]].
Fact mx_read_query : exists c', mx_reads mx_query c' [hx_a2; hx_b1].
Proof. mx_read. Qed.
Fact mx_read_start : exists c', mx_reads (mx_store mx_start) c' [hx_a2; hx_b1].
Proof. mx_read. Qed.
