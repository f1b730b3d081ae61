(** Property theorems C12-C19: file names, file slices and file groups. *)
From Verif Require Import Base Str M_FileGroup S_FileGroup L_FileGroup.
Local Open Scope string_scope.

(** Concrete values for the examples. *)
Definition ex_base (commit : string) : base_file :=
  {| bf_file_id := "f1"; bf_write_token := "0-7-24"; bf_commit := commit; bf_ext := "parquet"; bf_meta := None |}.
Definition ex_log (commit version : string) : log_file :=
  {| lf_file_id := "f1"; lf_base_commit := commit; lf_ext := "log"; lf_version := version;
     lf_write_token := "0-1-2"; lf_meta := None |}.
Definition ex_ops : list op :=
  [AddBase (ex_base "20240101"); AddBase (ex_base "20240102"); AddLog (ex_log "20240101" "1");
   AddLog (ex_log "20240101" "2"); AddLog (ex_log "20240102" "1")].
Definition ex_group : file_group :=
  match run (new_group "f1" "p") ex_ops with Some g => g | None => new_group "" "" end.
Lemma ex_group_run : run (new_group "f1" "p") ex_ops = Some ex_group.
Proof. reflexivity. Qed.
Lemma run_reachable : forall ops g g', reachable g -> run g ops = Some g' -> reachable g'.
Proof.
  induction ops as [|o ops IH]; intros g g' R H; [injection H as <-; assumption|].
  apply run_cons in H as [g1 [H1 H2]]. apply (IH g1); [|assumption].
  destruct o; cbn in H1; [eapply r_base|eapply r_log]; eauto.
Qed.
Lemma ex_group_reachable : reachable ex_group.
Proof. eapply run_reachable; [apply r_new|apply ex_group_run]. Qed.

(** ** C12 *)
Theorem C12_base_name_round_trip : forall id token commit ext m,
  has_char "_" id = false -> has_char "_" token = false -> has_char "_" commit = false ->
  has_char "." ext = false ->
  base_file_of (id ++ "_" ++ token ++ "_" ++ commit ++ "." ++ ext) m
  = Ok {| bf_file_id := id; bf_write_token := token; bf_commit := commit; bf_ext := ext; bf_meta := m |}.
Proof. exact base_name_round_trip. Qed.
Print Assumptions C12_base_name_round_trip.
Example C12_example : base_file_of "5a226868_0-7-24_20240402123035233.parquet" None
  = Ok {| bf_file_id := "5a226868"; bf_write_token := "0-7-24"; bf_commit := "20240402123035233";
          bf_ext := "parquet"; bf_meta := None |}.
Proof. reflexivity. Qed.

(** An accepted name whose part before the last dot has exactly three '_'-separated parts is the
    printed name of the parsed file. *)
Theorem C12_accepted_name_reproduced : forall name m f stem ext,
  base_file_of name m = Ok f -> rsplit_once "." name = Some (stem, ext) ->
  List.length (split "_" stem) = 3%nat -> base_file_name f = name.
Proof. exact base_name_reprint. Qed.
Print Assumptions C12_accepted_name_reproduced.
Example C12_reproduced_example : exists f, base_file_of "a-0_b_1.2.parquet" None = Ok f /\ base_file_name f = "a-0_b_1.2.parquet".
Proof. eexists. split; reflexivity. Qed.

(** The restriction to three parts is needed: further parts are accepted and lost. *)
Theorem C12_extra_parts_lost : exists f, base_file_of "a_b_c_d.parquet" None = Ok f /\ base_file_name f = "a_b_c.parquet".
Proof. eexists. split; reflexivity. Qed.
Print Assumptions C12_extra_parts_lost.

(** ** C13 *)
Theorem C13_accepted_name_reproduced : forall name m f, log_file_of name m = Ok f -> log_file_name f = name.
Proof. exact log_name_reprint. Qed.
Print Assumptions C13_accepted_name_reproduced.
Example C13_example : log_file_of ".id0_2025.log.1_0-51-115" None
  = Ok {| lf_file_id := "id0"; lf_base_commit := "2025"; lf_ext := "log"; lf_version := "1";
          lf_write_token := "0-51-115"; lf_meta := None |}.
Proof. reflexivity. Qed.

Theorem C13_components_round_trip : forall id commit ext version token m,
  id <> "" -> commit <> "" -> ext <> "" -> version <> "" -> token <> "" ->
  has_char "_" id = false -> has_char "_" token = false ->
  has_char "." commit = false -> has_char "." ext = false -> has_char "." version = false ->
  log_file_of ("." ++ id ++ "_" ++ commit ++ "." ++ ext ++ "." ++ version ++ "_" ++ token) m
  = Ok {| lf_file_id := id; lf_base_commit := commit; lf_ext := ext; lf_version := version;
          lf_write_token := token; lf_meta := m |}.
Proof. exact log_name_round_trip. Qed.
Print Assumptions C13_components_round_trip.

(** Exactly these names are accepted. *)
Theorem C13_accepted_names : forall name id commit ext version token,
  parse_log_name name = Ok (id, commit, ext, version, token) ->
  name = "." ++ id ++ "_" ++ commit ++ "." ++ ext ++ "." ++ version ++ "_" ++ token
  /\ id <> "" /\ commit <> "" /\ ext <> "" /\ version <> "" /\ token <> ""
  /\ has_char "_" id = false /\ has_char "_" token = false
  /\ has_char "." commit = false /\ has_char "." ext = false /\ has_char "." version = false.
Proof. exact parse_log_inv. Qed.
Print Assumptions C13_accepted_names.

(** ** C14 *)
Theorem C14_as_of_newest : forall g t, reachable g ->
  match get_file_slice_as_of g t with
  | Some s => In s (slices g) /\ sle (bf_commit (fs_base s)) t
              /\ forall s', In s' (slices g) -> sle (bf_commit (fs_base s')) t ->
                   s' = s \/ slt (bf_commit (fs_base s')) (bf_commit (fs_base s))
  | None => forall s, In s (slices g) -> slt t (bf_commit (fs_base s))
  end.
Proof. intros g t R. exact (as_of_spec g t (reachable_wf g R)). Qed.
Print Assumptions C14_as_of_newest.
Example C14_example : option_map (fun s => bf_commit (fs_base s)) (get_file_slice_as_of ex_group "2024010112") = Some "20240101"
  /\ get_file_slice_as_of ex_group "2023" = None /\ reachable ex_group.
Proof. split; [vm_compute; reflexivity|]. split; [vm_compute; reflexivity|apply ex_group_reachable]. Qed.

(** ** C15 *)
(** Base files with distinct commit times, then log files whose base files are there: succeeds. *)
Theorem C15_building_succeeds : forall id p bs ls, NoDup (map bf_commit bs) ->
  (forall l, In l ls -> In (lf_base_commit l) (map bf_commit bs)) ->
  exists g, run (new_group id p) (map AddBase bs ++ map AddLog ls) = Some g.
Proof. exact build_succeeds. Qed.
Print Assumptions C15_building_succeeds.

(** Any two successful orders of the same additions give the same group, when the log files carry
    the group's file id and one extension. *)
Theorem C15_order_irrelevant : forall id p ops1 ops2 g1 g2,
  Permutation ops1 ops2 -> uniform_logs (logs_of ops1) ->
  run (new_group id p) ops1 = Some g1 -> run (new_group id p) ops2 = Some g2 -> g1 = g2.
Proof. exact run_perm_eq. Qed.
Print Assumptions C15_order_irrelevant.
Example C15_example : uniform_logs (logs_of ex_ops)
  /\ run (new_group "f1" "p")
       [AddBase (ex_base "20240102"); AddLog (ex_log "20240102" "1"); AddBase (ex_base "20240101");
        AddLog (ex_log "20240101" "2"); AddLog (ex_log "20240101" "1")] = Some ex_group.
Proof.
  split; [|vm_compute; reflexivity]. intros a c Ha Hc. cbn in Ha, Hc.
  repeat (destruct Ha as [<-|Ha]; [|]); try tauto; repeat (destruct Hc as [<-|Hc]; [|]); try tauto;
    repeat split; try reflexivity; intros H; discriminate H.
Qed.

(** Without that assumption the observable contents still agree, from any reachable group. *)
Theorem C15_contents_order_irrelevant : forall g ops1 ops2 g1 g2, reachable g ->
  Permutation ops1 ops2 -> run g ops1 = Some g1 -> run g ops2 = Some g2 -> same_contents g1 g2.
Proof. intros g ops1 ops2 g1 g2 R. exact (run_perm_contents g ops1 ops2 g1 g2 (reachable_wf g R)). Qed.
Print Assumptions C15_contents_order_irrelevant.

(** What a history of additions leaves in the group. *)
Theorem C15_contents : forall g ops g', reachable g -> run g ops = Some g' ->
  fg_id g' = fg_id g /\ fg_partition g' = fg_partition g
  /\ (forall c n, has_base g' c n <->
        has_base g c n \/ exists b, In b (bases_of ops) /\ bf_commit b = c /\ base_file_name b = n)
  /\ (forall c v t, has_log g' c v t <->
        has_log g c v t \/ exists l, In l (logs_of ops)
          /\ lf_base_commit l = c /\ lf_version l = v /\ lf_write_token l = t).
Proof. intros g ops g' R. exact (run_contents ops g g' (reachable_wf g R)). Qed.
Print Assumptions C15_contents.

(** Every reachable group: slices keyed by their base file's commit time, without duplicates, in the
    group's partition, holding only log files of that commit time. *)
Theorem C15_keys : forall g, reachable g ->
  map fst (fg_slices g) = map (fun s => bf_commit (fs_base s)) (slices g)
  /\ NoDup (map (fun s => bf_commit (fs_base s)) (slices g))
  /\ forall s, In s (slices g) -> fs_partition s = fg_partition g
       /\ forall l, In l (fs_logs s) -> lf_base_commit l = bf_commit (fs_base s).
Proof. exact reachable_keys. Qed.
Print Assumptions C15_keys.

(** ** C16 *)
Theorem C16_base_rejected_iff_present : forall g b, reachable g ->
  ((exists s, In s (slices g) /\ bf_commit (fs_base s) = bf_commit b) -> add_base_file g b = (g, Err EFileGroup))
  /\ ((forall s, In s (slices g) -> bf_commit (fs_base s) <> bf_commit b) -> exists g', add_base_file g b = (g', Ok tt)).
Proof. intros g b R. exact (add_base_iff g b (reachable_wf g R)). Qed.
Print Assumptions C16_base_rejected_iff_present.
Theorem C16_log_rejected_iff_orphan : forall g l, reachable g ->
  ((forall s, In s (slices g) -> bf_commit (fs_base s) <> lf_base_commit l) -> add_log_file g l = (g, Err EFileGroup))
  /\ ((exists s, In s (slices g) /\ bf_commit (fs_base s) = lf_base_commit l) -> exists g', add_log_file g l = (g', Ok tt)).
Proof. intros g l R. exact (add_log_iff g l (reachable_wf g R)). Qed.
Print Assumptions C16_log_rejected_iff_orphan.
(** A new file group with the base file of this name. *)
Theorem C16_new_group : forall id p name,
  (forall b, base_file_from_str name = Ok b -> exists g, new_with_base_file_name id p name = Ok g /\ fg_id g = id /\ fg_partition g = p
     /\ exists s, slices g = [s] /\ fs_partition s = p /\ fs_base s = b /\ fs_logs s = [])
  /\ (forall e, base_file_from_str name = Err e -> new_with_base_file_name id p name = Err e).
Proof.
  intros id p name. unfold new_with_base_file_name, add_base_file_from_name. split.
  - intros b ->. eexists. split; [reflexivity|]. split; [reflexivity|]. split; [reflexivity|]. eexists. split; [reflexivity|]. auto.
  - intros e ->. reflexivity.
Qed.
Print Assumptions C16_new_group.
Example C16_example : add_base_file ex_group (ex_base "20240101") = (ex_group, Err EFileGroup)
  /\ add_log_file ex_group (ex_log "20240103" "1") = (ex_group, Err EFileGroup)
  /\ snd (add_base_file ex_group (ex_base "20240103")) = Ok tt.
Proof. repeat split; vm_compute; reflexivity. Qed.

(** ** C17 *)
Theorem C17_merge_succeeds_iff : forall g h, reachable g -> reachable h ->
  ((exists m, merge_group g h = (m, Ok tt)) <->
   fg_id g = fg_id h /\ fg_partition g = fg_partition h
   /\ forall c n1 n2, has_base g c n1 -> has_base h c n2 -> n1 = n2).
Proof. intros g h R1 R2. exact (merge_ok_iff g h (reachable_wf g R1) (reachable_wf h R2)). Qed.
Print Assumptions C17_merge_succeeds_iff.

Theorem C17_mismatch_is_error : forall g h, reachable g -> reachable h ->
  (fg_id g <> fg_id h \/ fg_partition g <> fg_partition h
   \/ exists c n1 n2, has_base g c n1 /\ has_base h c n2 /\ n1 <> n2) ->
  exists m e, merge_group g h = (m, Err e).
Proof. intros g h R1 R2. exact (merge_mismatch g h (reachable_wf g R1) (reachable_wf h R2)). Qed.
Print Assumptions C17_mismatch_is_error.

Theorem C17_merge_is_union : forall g h m, reachable g -> reachable h -> merge_group g h = (m, Ok tt) ->
  fg_id m = fg_id g /\ fg_partition m = fg_partition g
  /\ (forall c n, has_base m c n <-> has_base g c n \/ has_base h c n)
  /\ (forall c v t, has_log m c v t <-> has_log g c v t \/ has_log h c v t).
Proof. intros g h m R1 R2. exact (merge_contents g h m (reachable_wf g R1) (reachable_wf h R2)). Qed.
Print Assumptions C17_merge_is_union.

Theorem C17_merge_idempotent : forall g, reachable g -> merge_group g g = (g, Ok tt).
Proof. intros g R. exact (merge_idem g (reachable_wf g R)). Qed.
Print Assumptions C17_merge_idempotent.

Theorem C17_merge_commutative : forall g h m, reachable g -> reachable h -> merge_group g h = (m, Ok tt) ->
  exists m', merge_group h g = (m', Ok tt) /\ same_contents m m'.
Proof. intros g h m R1 R2. exact (merge_comm g h m (reachable_wf g R1) (reachable_wf h R2)). Qed.
Print Assumptions C17_merge_commutative.

Theorem C17_merge_associative : forall g h k m r, reachable g -> reachable h -> reachable k ->
  merge_group g h = (m, Ok tt) -> merge_group m k = (r, Ok tt) ->
  exists n r', merge_group h k = (n, Ok tt) /\ merge_group g n = (r', Ok tt) /\ same_contents r r'.
Proof.
  intros g h k m r R1 R2 R3. exact (merge_assoc g h k m r (reachable_wf g R1) (reachable_wf h R2) (reachable_wf k R3)).
Qed.
Print Assumptions C17_merge_associative.

Definition ex_ops2 : list op := [AddBase (ex_base "20240102"); AddBase (ex_base "20240103"); AddLog (ex_log "20240102" "2")].
Definition ex_other : file_group :=
  match run (new_group "f1" "p") ex_ops2 with Some g => g | None => new_group "" "" end.
Example C17_example : reachable ex_other
  /\ exists m, merge_group ex_group ex_other = (m, Ok tt)
       /\ map fst (fg_slices m) = ["20240101"; "20240102"; "20240103"]
       /\ map (fun s => map lf_version (fs_logs s)) (slices m) = [["1"; "2"]; ["1"; "2"]; []].
Proof.
  split.
  - apply (run_reachable ex_ops2 (new_group "f1" "p")); [apply r_new|reflexivity].
  - eexists. split; [vm_compute; reflexivity|]. split; reflexivity.
Qed.

(** ** C18 *)
(** The property is false: version 10 is read before version 2. *)
Theorem C18_version_order_refuted : exists g s pre a mid c post, reachable g /\ In s (slices g)
  /\ fs_logs s = (pre ++ a :: mid ++ c :: post)%list
  /\ all_digits (lf_version a) /\ all_digits (lf_version c)
  /\ dec_val 0 (lf_version a) = 10%Z /\ dec_val 0 (lf_version c) = 2%Z.
Proof.
  destruct (build_succeeds "f1" "p" [ex_base "1"] [ex_log "1" "2"; ex_log "1" "10"]) as [g Hg].
  - repeat constructor. intros [].
  - intros l [<-|[<-|[]]]; now left.
  - exists g. assert (R : reachable g) by (eapply run_reachable; [apply (r_new "f1" "p")|exact Hg]).
    vm_compute in Hg. injection Hg as <-.
    eexists _, [], (ex_log "1" "10"), [], (ex_log "1" "2"), [].
    split; [exact R|]. split; [left; reflexivity|]. split; [reflexivity|]. cbn. repeat split; lia.
Qed.
Print Assumptions C18_version_order_refuted.

(** What holds for every magnitude: the order of the version strings, then of the write tokens. *)
Theorem C18_string_order : forall g s pre a mid c post, reachable g -> In s (slices g) ->
  fs_logs s = (pre ++ a :: mid ++ c :: post)%list ->
  sle (lf_version a) (lf_version c)
  /\ (lf_version a = lf_version c -> slt (lf_write_token a) (lf_write_token c)).
Proof. intros g s pre a mid c post R. exact (version_order g s pre a mid c post (reachable_wf g R)). Qed.
Print Assumptions C18_string_order.

(** The numeric order holds among versions written with the same number of digits.  Missing: versions
    of different lengths, where it is false. *)
Theorem C18_numeric_order_partial : forall g s pre a mid c post, reachable g -> In s (slices g) ->
  fs_logs s = (pre ++ a :: mid ++ c :: post)%list ->
  all_digits (lf_version a) -> all_digits (lf_version c) ->
  String.length (lf_version a) = String.length (lf_version c) ->
  (dec_val 0 (lf_version a) <= dec_val 0 (lf_version c))%Z.
Proof. intros g s pre a mid c post R. exact (version_order_numeric g s pre a mid c post (reachable_wf g R)). Qed.
Print Assumptions C18_numeric_order_partial.

(** ** C19 *)
(** The property is false for names that differ only in the extension. *)
Theorem C19_distinct_logs_kept_refuted : exists b a c g,
  log_file_from_str ".f1_1.log.1_0-1-2" = Ok a /\ log_file_from_str ".f1_1.blog.1_0-1-2" = Ok c
  /\ log_file_name a <> log_file_name c
  /\ run (new_group "f1" "p") [AddBase b; AddLog a; AddLog c] = Some g
  /\ map fs_logs (slices g) = [[a]].
Proof.
  eexists (ex_base "1"), _, _, _. split; [reflexivity|]. split; [reflexivity|]. split; [intros H; vm_compute in H; discriminate H|].
  split; vm_compute; reflexivity.
Qed.
Print Assumptions C19_distinct_logs_kept_refuted.

(** Log files of one file id and extension are all kept.  Missing: mixed extensions (and log files of
    a foreign file id), where it is false. *)
Theorem C19_distinct_logs_kept_partial : forall id p ops g,
  uniform_logs (logs_of ops) -> run (new_group id p) ops = Some g ->
  forall s l, In s (slices g) ->
    (In l (fs_logs s) <-> In l (logs_of ops) /\ lf_base_commit l = bf_commit (fs_base s)).
Proof. exact run_logs_exact. Qed.
Print Assumptions C19_distinct_logs_kept_partial.
