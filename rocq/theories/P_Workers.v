(** C85: planning a query and reading its file slices elsewhere is reading. *)
From Verif Require Import Base Str M_Utf8 M_Time M_Instant M_Timeline M_FileGroup M_Builder M_Listing M_Expr M_Log M_Config M_Reader M_Table M_Python
  S_FileGroup S_Builder S_Listing S_Config S_Reader S_Table S_History S_Python S_Readers S_Workers L_Base L_Str L_Config L_Reader L_Tree L_Table L_Python L_Readers L_Workers E_Scan E_History.
Local Open Scope string_scope.

(** The slices of a snapshot, in as many splits as wanted, are read by workers with readers for the time of the
    snapshot.  What they get together, in order, is an answer of the query that reads the snapshot; and every answer of
    that query is got by workers. *)
Theorem C85_snapshot_partial : forall dtype value cast cmp A V ps da cs tobatch pq local_to_utc (st : store dtype) tb n t filters c c',
  let opts := [("hoodie.read.file_group.end_timestamp", t)] in
  let workers := Forall2 (worker dtype A V ps da cs tobatch pq local_to_utc st tb opts) in
  one_per_key (t_storage tb) -> readers_open st tb opts ->
  (forall parts answers r, get_file_slices_splits_as_of dtype value cast cmp local_to_utc st tb n t filters c c' (Ok parts) ->
     workers parts answers -> joined (List.concat answers) r ->
     read_snapshot_as_of dtype value cast cmp A V ps da cs tobatch pq local_to_utc st tb t filters c c' r)
  /\ (forall batches, read_snapshot_as_of dtype value cast cmp A V ps da cs tobatch pq local_to_utc st tb t filters c c' (Ok batches) ->
     exists parts answers, get_file_slices_splits_as_of dtype value cast cmp local_to_utc st tb n t filters c c' (Ok parts)
       /\ workers parts answers /\ List.concat answers = map Ok batches).
Proof.
  intros D V0 ca cm A V ps da cs to pq L st tb n t filters c c' opts workers OK OP. split.
  - intros parts answers r G W J. destruct (splits_of_query D V0 ca cm L st tb n t filters c c' _ G) as [whole [Q S]]. destruct whole as [ss|e|]; [|discriminate S|discriminate S].
    destruct S as [parts' [E [_ [C _]]]]. injection E as <-. subst ss. eapply ra_ok; [exact Q|]. eapply worker_reads; [|exact J]. apply workers_as_one; assumption.
  - intros batches R. inversion R as [| |? ? ss ? Q RS]; subst. pose proof (gp_one D V0 ca cm L st tb n t filters c c' (Ok ss) Q) as G. cbn [bind] in G.
    destruct (splits_of_query D V0 ca cm L st tb n t filters c c' _ G) as [whole [Q' S]].
    assert (exists parts, splits n ss = Ok parts /\ List.concat parts = ss) as [parts [E C]] by (destruct (splits_spec n ss) as [parts [E [_ [C _]]]]; eauto).
    rewrite E in G. exists parts. apply read_worker in RS. rewrite <- C in RS. apply worker_parts in RS as [answers [EQ W]]. exists answers. split; [exact G|]. split; [exact W|exact EQ].
Qed.
Print Assumptions C85_snapshot_partial.

(** The same for the latest snapshot: the time is that of the latest commit, which the timeline of the table reports. *)
Theorem C85_latest_partial : forall dtype value cast cmp A V ps da cs tobatch pq local_to_utc (st : store dtype) tb n t filters c c',
  let opts := [("hoodie.read.file_group.end_timestamp", t)] in
  let workers := Forall2 (worker dtype A V ps da cs tobatch pq local_to_utc st tb opts) in
  one_per_key (t_storage tb) -> readers_open st tb opts -> get_latest_commit_timestamp (t_commits tb) = Ok t ->
  (forall parts answers r, get_file_slices_splits dtype value cast cmp local_to_utc st tb n filters c c' (Ok parts) ->
     workers parts answers -> joined (List.concat answers) r ->
     read_snapshot dtype value cast cmp A V ps da cs tobatch pq local_to_utc st tb filters c c' r)
  /\ (forall batches, read_snapshot dtype value cast cmp A V ps da cs tobatch pq local_to_utc st tb filters c c' (Ok batches) ->
     exists parts answers, get_file_slices_splits dtype value cast cmp local_to_utc st tb n filters c c' (Ok parts)
       /\ workers parts answers /\ List.concat answers = map Ok batches).
Proof.
  intros D V0 ca cm A V ps da cs to pq L st tb n t filters c c' opts workers OK OP LT.
  assert (LT' : latest_commit_timestamp (t_commits tb) = Some t) by (unfold get_latest_commit_timestamp in LT; destruct (latest_commit_timestamp (t_commits tb)); [injection LT as ->; reflexivity|discriminate]).
  destruct (C85_snapshot_partial D V0 ca cm A V ps da cs to pq L st tb n t filters c c' OK OP) as [X Y]. split.
  - intros parts answers r G W J. inversion G as [|? ? t' ? E G']; subst; [congruence|]. assert (t' = t) by congruence. subst t'. econstructor; [exact LT'|]. exact (X parts answers r G' W J).
  - intros batches R. inversion R as [|? ? t' ? E R']; subst; [congruence|]. assert (t' = t) by congruence. subst t'. destruct (Y batches R') as [parts [answers [G [W E']]]]. exists parts, answers.
    split; [econstructor; [exact LT'|exact G]|]. split; [exact W|exact E'].
Qed.
Print Assumptions C85_latest_partial.

(** And for changes: the slices that changed, divided in any way, with readers for both times. *)
Theorem C85_incremental_partial : forall dtype A V ps da cs tobatch pq local_to_utc (st : store dtype) tb start stop e,
  let opts := [("hoodie.read.file_group.start_timestamp", start); ("hoodie.read.file_group.end_timestamp", e)] in
  let workers := Forall2 (worker dtype A V ps da cs tobatch pq local_to_utc st tb opts) in
  one_per_key (t_storage tb) -> readers_open st tb opts ->
  stop = Some e \/ stop = None /\ get_latest_commit_timestamp (t_commits tb) = Ok e ->
  (forall order ss parts answers r, (forall n l, Permutation l (order n l)) -> get_file_slices_between dtype local_to_utc st tb order (Some start) stop = Ok ss ->
     List.concat parts = ss -> workers parts answers -> joined (List.concat answers) r ->
     read_incremental dtype A V ps da cs tobatch pq local_to_utc st tb start stop r)
  /\ (forall batches, read_incremental dtype A V ps da cs tobatch pq local_to_utc st tb start stop (Ok batches) ->
     exists order ss, (forall n l, Permutation l (order n l)) /\ get_file_slices_between dtype local_to_utc st tb order (Some start) stop = Ok ss
       /\ forall parts, List.concat parts = ss -> exists answers, workers parts answers /\ List.concat answers = map Ok batches).
Proof.
  intros D A V ps da cs to pq L st tb start stop e opts workers OK OP SE.
  assert (ST : stop_or_latest tb stop = Some e).
  { destruct SE as [ -> |[ -> LT]]; [reflexivity|]. cbn. unfold get_latest_commit_timestamp in LT. destruct (latest_commit_timestamp (t_commits tb)); [injection LT as ->; reflexivity|discriminate]. }
  split.
  - intros order ss parts answers r PO G C W J. unfold get_file_slices_between in G. rewrite ST in G. subst ss. eapply ri_ok; [exact PO|exact ST|exact G|].
    eapply worker_reads; [|exact J]. apply workers_as_one; assumption.
  - intros batches R. inversion R as [N| | |order e' ss r PO S' G RS]; subst; [congruence|]. assert (e' = e) by congruence. subst e'. exists order, ss. split; [exact PO|].
    split; [unfold get_file_slices_between; now rewrite ST|]. intros parts C. apply read_worker in RS. rewrite <- C in RS. apply worker_parts in RS as [answers [EQ W]]. eauto.
Qed.
Print Assumptions C85_incremental_partial.

(** In Python, where workers get slices as names, they read the same. *)
Theorem C85_python_partial : forall dtype value cast cmp A V ps da cs tobatch pq local_to_utc (st : store dtype) tb root,
  serves_dirs root (st_dirs _ st) -> wf_tree root ->
  forall n t filters c c' opts parts answers, view_after dtype value cast cmp local_to_utc st tb c ->
  get_file_slices_splits_as_of dtype value cast cmp local_to_utc st tb n t filters c c' (Ok parts) ->
  (Forall2 (py_worker dtype A V ps da cs tobatch pq local_to_utc st tb opts) (map (map py_slice_of) parts) answers
   <-> Forall2 (worker dtype A V ps da cs tobatch pq local_to_utc st tb opts) parts answers).
Proof.
  intros D V0 ca cm A V ps da cs to pq L st tb root SD WT n t filters c c' opts parts answers VW G.
  assert (RA : forall p s, In p parts -> In s p -> reads_as s (py_slice_of s)).
  { destruct (splits_of_query D V0 ca cm L st tb n t filters c c' _ G) as [whole [Q S]]. destruct whole as [ss|e|]; [|discriminate S|discriminate S]. destruct S as [parts' [E [_ [C _]]]]. injection E as <-.
    intros p s I1 I2. refine (proj1 (as_of_python D V0 ca cm L st tb root SD WT c c' t filters ss VW Q s _)). rewrite <- C. apply in_concat. eauto. }
  clear G. revert answers. induction parts as [|p parts IH]; intros answers; split; intros F; inversion F as [|x y xs ys W F']; subst; constructor.
  - apply py_worker_is in W; [exact W|]. intros s I. apply (RA p s); [now left|exact I].
  - apply IH; [intros q s I1 I2; apply (RA q s); [now right|exact I2]|exact F'].
  - apply py_worker_is; [intros s I; apply (RA p s); [now left|exact I]|exact W].
  - apply IH; [intros q s I1 I2; apply (RA q s); [now right|exact I2]|exact F'].
Qed.
Print Assumptions C85_python_partial.

(** Workers that have only the URI of the table read the same if they are given all options of the table. *)
Theorem C85_uri_partial : forall dtype A V ps da cs tobatch pq local_to_utc (st : store dtype) tb uri given opts ss answers,
  one_per_key given -> readers_open st tb opts -> storage_only (t_storage tb) -> reading_options opts ->
  oget "hoodie.base.path" (t_configs tb) = Some uri -> oget "hoodie.base.path" given = None ->
  (forall r, "hoodie." ++ r <> "hoodie.base.path" -> oget ("hoodie." ++ r) given = first_given [last_value opts ("hoodie." ++ r); oget ("hoodie." ++ r) (t_configs tb)]) ->
  uri_worker dtype A V ps da cs tobatch pq local_to_utc st uri given ss answers -> worker dtype A V ps da cs tobatch pq local_to_utc st tb opts ss answers.
Proof. intros. eapply uri_worker_is; eassumption. Qed.
Print Assumptions C85_uri_partial.

(** ** What goes wrong without *)
Notation hx_worker := (worker unit unit unit (fun _ => None) (fun _ _ => None) (fun _ => Ok tt) (fun _ _ => Err EArrow) hx_decode hx_local hx_store).
Notation hx_uri_worker := (uri_worker unit unit unit (fun _ => None) (fun _ _ => None) (fun _ => Ok tt) (fun _ _ => Err EArrow) hx_decode hx_local hx_store).
Notation hx_snapshot := (read_snapshot unit string (fun _ s => Some s) (fun a b => Some (scmp a b)) unit unit (fun _ => None) (fun _ _ => None) (fun _ => Ok tt) (fun _ _ => Err EArrow) hx_decode hx_local hx_store).
Notation hx_slices := (get_file_slices unit string (fun _ s => Some s) (fun a b => Some (scmp a b)) hx_local hx_store).
Ltac hx_plan :=
  eapply ga_ok; [reflexivity|]; eapply sa_view; [reflexivity|reflexivity|reflexivity|reflexivity|];
  eapply vq_ok with (order := fun _ l => l); [reflexivity|eapply hx_listing; vm_compute; reflexivity|reflexivity|vm_compute; reflexivity].
Ltac hx_reader :=
  exists (fun m => m); split; [intros m; reflexivity|]; split; [reflexivity|];
  apply Forall2_cons; [exists (@isort _), (fun m => m); split; [apply isort_sorts|split; [intros m; reflexivity|vm_compute; reflexivity]]|apply Forall2_nil].
Ltac hx_whole :=
  eapply ra_ok; [hx_plan|]; eapply rs_read with (iter := fun m => m); [intros m; reflexivity| |];
  [split; [reflexivity|]; apply Forall2_cons; [exists (@isort _), (fun m => m); split; [apply isort_sorts|split; [intros m; reflexivity|vm_compute; reflexivity]]|apply Forall2_nil]
  |exact (jo_ok [hx_batch _])].

(** A reader without an end time reads everything in the log files: here the record "a" of a write that has not been
    committed, while the snapshot has the committed one.  The slices are the same. *)
Definition qx_table : table := {| t_configs := t_configs hx_table; t_storage := []; t_commits := [{| i_timestamp := hx_t1; i_action := Commit; i_state := Completed; i_epoch := 1735689600000 |}] |}.
Theorem C85_untimed_refuted : exists ss c', hx_slices qx_table [] [] c' (Ok ss)
  /\ hx_worker qx_table [] ss [Ok (hx_batch [hx_a2; hx_b1])]
  /\ hx_snapshot qx_table [] [] c' (Ok [hx_batch [hx_b1; hx_a1]]) /\ hx_a2 <> hx_a1.
Proof.
  eexists. eexists. split; [eapply gs_some; [reflexivity|]; hx_plan|]. split; [hx_reader|]. split; [|discriminate]. eapply rn_some; [reflexivity|]. hx_whole.
Qed.
Print Assumptions C85_untimed_refuted.

(** A reader made from the URI alone does not know how the table merges: it returns old and new versions of a record,
    without an error. *)
Definition qx_table2 : table :=
  {| t_configs := ("hoodie.base.path", "file:///data/t/") :: t_configs hx_table; t_storage := []; t_commits := firstn 2 (t_commits hx_table) |}.
Theorem C85_uri_refuted : exists ss c', oget "hoodie.base.path" (t_configs qx_table2) = Some "file:///data/t/"
  /\ hx_slices qx_table2 [] [] c' (Ok ss)
  /\ hx_uri_worker "file:///data/t/" [("hoodie.read.file_group.end_timestamp", hx_t2)] ss [Ok (hx_batch [hx_a1; hx_b1; hx_a2])]
  /\ hx_snapshot qx_table2 [] [] c' (Ok [hx_batch [hx_a2; hx_b1]]).
Proof.
  eexists. eexists. split; [reflexivity|]. split; [eapply gs_some; [reflexivity|]; hx_plan|]. split; [hx_reader|]. eapply rn_some; [reflexivity|]. hx_whole.
Qed.
Print Assumptions C85_uri_refuted.

(** ** The hypotheses are met *)
Example C85_case : one_per_key (t_storage qx_table2) /\ storage_only (t_storage qx_table2) /\ readers_open hx_store qx_table2 [("hoodie.read.file_group.end_timestamp", hx_t2)]
  /\ reading_options [("hoodie.read.file_group.end_timestamp", hx_t2)] /\ get_latest_commit_timestamp (t_commits qx_table2) = Ok hx_t2
  /\ serves_dirs (Dir hx_listed []) (st_dirs _ hx_store) /\ wf_tree (Dir hx_listed [])
  /\ exists ss c', get_file_slices_splits unit string (fun _ s => Some s) (fun a b => Some (scmp a b)) hx_local hx_store qx_table2 3 [] [] c' (Ok [ss])
     /\ hx_worker qx_table2 [("hoodie.read.file_group.end_timestamp", hx_t2)] ss [Ok (hx_batch [hx_a2; hx_b1])]
     /\ hx_uri_worker "file:///data/t/" (("hoodie.read.file_group.end_timestamp", hx_t2) :: t_configs hx_table) ss [Ok (hx_batch [hx_a2; hx_b1])]
     /\ hx_snapshot qx_table2 [] [] c' (Ok [hx_batch [hx_a2; hx_b1]]).
Proof.
  split; [constructor|]. split; [split; [constructor|intros k v r []]|]. split; [intros it VA; reflexivity|].
  split; [intros k v [[= <- _]|[]]; split; [now exists "read.file_group.end_timestamp"|discriminate]|]. split; [reflexivity|]. split; [exact (tree_serves _ hx_wf)|]. split; [exact hx_wf|].
  assert (X : exists ss c', get_file_slices_as_of unit string (fun _ s => Some s) (fun a b => Some (scmp a b)) hx_local hx_store qx_table2 hx_t2 [] [] c' (Ok ss)
     /\ splits 3 ss = Ok [ss] /\ hx_worker qx_table2 [("hoodie.read.file_group.end_timestamp", hx_t2)] ss [Ok (hx_batch [hx_a2; hx_b1])]
     /\ hx_uri_worker "file:///data/t/" (("hoodie.read.file_group.end_timestamp", hx_t2) :: t_configs hx_table) ss [Ok (hx_batch [hx_a2; hx_b1])]
     /\ hx_snapshot qx_table2 [] [] c' (Ok [hx_batch [hx_a2; hx_b1]])).
  { eexists. eexists. split; [hx_plan|]. split; [reflexivity|]. split; [hx_reader|]. split; [hx_reader|]. eapply rn_some; [reflexivity|]. hx_whole. }
  destruct X as [ss [c' [G [S [W [U R]]]]]]. exists ss, c'. split; [|split; [exact W|split; [exact U|exact R]]].
  eapply gl_some; [reflexivity|]. pose proof (gp_one unit string (fun _ s => Some s) (fun a b => Some (scmp a b)) hx_local hx_store qx_table2 3 hx_t2 [] [] c' (Ok ss) G) as P. cbn [bind] in P. now rewrite S in P.
Qed.
