(** When the file groups of a window of the timeline are found: C10. *)
From Coq Require Import Sorted.
From Verif Require Import Base Str M_Time M_Instant M_Timeline M_FileGroup M_Builder M_Table
  S_Time S_Timeline S_FileGroup S_Builder S_Table L_Builder L_Incremental L_Between P_Builder.
Local Open Scope string_scope.

(** C10: the file groups of a window are found exactly if the bounds are times, the metadata of every commit in
    between can be read and names proper files, and no two commits name different base files of one file group
    with one commit time. *)
Theorem C10_succeeds_iff : forall local_to_utc read order, (forall n l, Permutation l (order n l)) ->
  forall tz commits start stop, StronglySorted instant_le commits ->
  let at_time := bound_at (fun ts => parse_datetime local_to_utc ts tz) in
  (forall s e i md, at_time start s -> at_time stop e -> commit_in read commits s e i md -> unique_stats md) ->
  ((exists gs, get_file_groups_between local_to_utc read order tz commits start stop = Ok gs) <->
   exists s e, at_time start s /\ at_time stop e /\ window_fine read commits s e).
Proof. exact between_succeeds_iff. Qed.
Print Assumptions C10_succeeds_iff.

(** Cases: the example of C10; with a bound that is no time; with two commits that name different base files of
    one file group with one commit time. *)
Definition other_name (path : string) : outcome (list (string * json)) :=
  if String.eqb path (".hoodie/" ++ file_name ex_i1)
  then Ok [("partitionToWriteStats", JObj [("p", JArr [ex_stat "a" "a_0_1.parquet" []])])]
  else Ok [("partitionToWriteStats", JObj [("p", JArr [ex_stat "a" "a_9_1.parquet" []])]); ("partitionToReplaceFileIds", JObj [])].
Lemma names_one : forall name rest b, base_file_from_str name = Ok b -> bf_commit b = "1" -> base_file_name b = name ->
  names_base (("partitionToWriteStats", JObj [("p", JArr [ex_stat "a" name []])]) :: rest) "p" "a" "1" name.
Proof.
  intros name rest b E C N. exists (ex_stat "a" name []), name, [], b. split; [|split; [apply nf_delta; reflexivity|split; [exact E|split; [exact C|exact N]]]].
  exists [("p", JArr [ex_stat "a" name []])], [ex_stat "a" name []]. split; [reflexivity|]. split; now left.
Qed.
Example C10_succeeds_case : StronglySorted instant_le [ex_i1; ex_i2]
  /\ (exists gs, get_file_groups_between ex_tz ex_read (fun _ l => l) "utc" [ex_i1; ex_i2] (Some "20240101000000") None = Ok gs)
  /\ (exists x, get_file_groups_between ex_tz ex_read (fun _ l => l) "utc" [ex_i1; ex_i2] (Some "the day before yesterday") None = Err x)
  /\ get_file_groups_between ex_tz ex_read (fun _ l => l) "utc" [ex_i1; ex_i2] (Some "soon") None = Panic
  /\ (exists x, get_file_groups_between ex_tz other_name (fun _ l => l) "utc" [ex_i1; ex_i2] None None = Err x)
  /\ ~ window_fine other_name [ex_i1; ex_i2] None None.
Proof.
  split; [exact ex_sorted|]. split; [eexists; vm_compute; reflexivity|]. split; [eexists; vm_compute; reflexivity|]. split; [vm_compute; reflexivity|].
  split; [eexists; vm_compute; reflexivity|]. intros [_ W].
  assert (X : "a_0_1.parquet" = "a_9_1.parquet"); [|discriminate X].
  eapply (W ex_i1 _ ex_i2 _ "p" "a" "1").
  - split; [now left|]. split; [reflexivity|]. split; vm_compute; reflexivity.
  - split; [right; now left|]. split; [reflexivity|]. split; vm_compute; reflexivity.
  - eapply names_one; [vm_compute; reflexivity|reflexivity|reflexivity].
  - eapply names_one; [vm_compute; reflexivity|reflexivity|reflexivity].
Qed.

(** C11, the other way: every file of a file group is named by a write stat of its partition and file id. *)
Theorem C11_nothing_invented : forall md gs g, build_file_groups md = Ok gs -> In g gs ->
  (forall c n, has_base g c n -> names_base md (fg_partition g) (fg_id g) c n)
  /\ (forall c v w, has_log g c v w -> names_log md (fg_partition g) (fg_id g) c v w).
Proof.
  intros md gs g H I. destruct (build_facts _ _ H) as [_ [G _]]. destruct (G g I) as [stat [W K]]. destruct (stat_contents _ _ _ K) as [_ [base [logs [b [N [P [B1 B2]]]]]]]. split.
  - intros c n B. apply B1 in B as [B B']. exists stat, base, logs, b. auto.
  - intros c v w B. apply B2 in B as [B [name [l [X1 [X2 [X3 X4]]]]]]. exists stat, base, logs, b, name, l. auto 10.
Qed.
Print Assumptions C11_nothing_invented.
(** If no two stats of a partition share a file id, the files of the file groups are exactly those that the stats name. *)
Theorem C11_files_exact_partial : forall md gs, build_file_groups md = Ok gs -> unique_stats md -> forall p id,
  (forall c n, (exists g, In g gs /\ ident g = (p, id) /\ has_base g c n) <-> names_base md p id c n)
  /\ (forall c v w, (exists g, In g gs /\ ident g = (p, id) /\ has_log g c v w) <-> names_log md p id c v w).
Proof. exact build_exact. Qed.
Print Assumptions C11_files_exact_partial.
Example C11_files_exact_case : exists md gs, build_file_groups md = Ok gs /\ unique_stats md /\ names_log md "p" "a" "1" "2" "0" /\ names_base md "p" "b" "1" "b_0_1.parquet".
Proof.
  exists [("partitionToWriteStats", JObj [("p", JArr [ex_stat "a" "a_0_1.parquet" [".a_1.log.2_0"]; ex_stat "b" "b_0_1.parquet" []])])]. eexists. split; [vm_compute; reflexivity|].
  assert (W : forall p stat, writes [("partitionToWriteStats", JObj [("p", JArr [ex_stat "a" "a_0_1.parquet" [".a_1.log.2_0"]; ex_stat "b" "b_0_1.parquet" []])])] p stat <-> p = "p" /\ (stat = ex_stat "a" "a_0_1.parquet" [".a_1.log.2_0"] \/ stat = ex_stat "b" "b_0_1.parquet" [])).
  { intros p stat. split.
    - intros [obj [stats [J [I1 I2]]]]. vm_compute in J. injection J as <-. destruct I1 as [[= <- <-]|[]]. split; [reflexivity|]. destruct I2 as [ <- |[ <- |[]]]; auto.
    - intros [-> [-> | ->]]; (eexists; eexists; split; [reflexivity|]; split; [left; reflexivity|]); [now left|right; now left]. }
  split; [|split].
  - intros p s1 s2 id W1 W2 F1 F2. apply W in W1 as [-> W1], W2 as [_ W2]. destruct W1 as [-> | ->], W2 as [-> | ->]; try reflexivity; vm_compute in F1, F2; congruence.
  - exists (ex_stat "a" "a_0_1.parquet" [".a_1.log.2_0"]), "a_0_1.parquet", [".a_1.log.2_0"]. eexists. exists ".a_1.log.2_0". eexists. split; [apply W; auto|]. split; [apply nf_delta; reflexivity|]. split; [vm_compute; reflexivity|]. split; [reflexivity|]. split; [now left|]. split; [vm_compute; reflexivity|]. split; reflexivity.
  - exists (ex_stat "b" "b_0_1.parquet" []), "b_0_1.parquet", []. eexists. split; [apply W; auto|]. split; [apply nf_delta; reflexivity|]. split; [vm_compute; reflexivity|]. split; reflexivity.
Qed.
