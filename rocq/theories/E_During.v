(** The small table of E_Open while writers add and remove files. *)
From Coq Require Import Sorted.
From Verif Require Import Base Str M_Utf8 M_Time M_Instant M_Timeline M_FileGroup M_Builder M_Listing M_Expr M_Log M_Config M_Reader M_Table M_Storage M_Objects M_Open M_During
  S_Time S_Timeline S_FileGroup S_Builder S_Listing S_Expr S_Config S_Table S_Storage S_Objects S_Open S_During L_Str L_Timeline L_Storage L_Objects E_Scan E_Open.
Local Open Scope string_scope.

(** A later commit rewrites f1, adds a log file to f2 and opens a partition. *)
Definition dx_new1 := {| o_key := "data/t/city=ams/f1_0-2-1_20240102000000000.parquet"; o_data := "ams rows" |}.
Definition dx_new2 := {| o_key := "data/t/city=rio/.f2_20240101000000000.log.1_0-2-2"; o_data := "log" |}.
Definition dx_new3 := {| o_key := "data/t/city=lon/f3_0-2-3_20240102000000000.parquet"; o_data := "lon" |}.
Definition dx_mid : list object := (bx_objs ++ [dx_new1])%list.
Definition dx_end : list object := (bx_objs ++ [dx_new1; dx_new2; dx_new3])%list.
(** A query that lists the directories and city=rio at the end, city=ams in the middle, city=lon at the start. *)
Definition dx_store : store unit :=
  {| st_json := st_json _ (bx_store bx_objs); st_schema := st_schema _ (bx_store bx_objs);
     st_files := fun p => if String.eqb p "city=ams" then list_files dx_mid sx_base p else if String.eqb p "city=lon" then list_files bx_objs sx_base p else list_files dx_end sx_base p;
     st_dirs := list_dirs dx_end sx_base; st_meta := st_meta _ (bx_store dx_mid); st_parquet := st_parquet _ (bx_store dx_end); st_bytes := st_bytes _ (bx_store dx_end);
     st_open := fun _ _ => Ok tt |}.
Definition dx_moments : list (list object) := [bx_objs; dx_mid; dx_end].
Fact dx_sees : sees dx_moments sx_base unit bx_json bx_schema bx_rows bx_footer (fun _ _ => Ok tt) dx_store.
Proof.
  intros p. cbv zeta. assert (I0 : In bx_objs dx_moments) by now left. assert (I1 : In dx_mid dx_moments) by (right; now left). assert (I2 : In dx_end dx_moments) by (right; right; now left).
  repeat split; try (exists bx_objs; split; [exact I0|reflexivity]); try (exists dx_mid; split; [exact I1|reflexivity]); try (exists dx_end; split; [exact I2|reflexivity]).
  cbn [st_files dx_store]. destruct (String.eqb p "city=ams"); [exists dx_mid; split; [exact I1|reflexivity]|].
  destruct (String.eqb p "city=lon"); [exists bx_objs; split; [exact I0|reflexivity]|exists dx_end; split; [exact I2|reflexivity]].
Qed.
Fact dx_proper : forall objs, In objs dx_moments -> proper_objects objs.
Proof. intros objs [ <- |[ <- |[ <- |[]]]]; apply proper_by; vm_compute; reflexivity. Qed.
Definition dx_asks (st : store unit) (t : string) (c' : cache) (r : outcome (list file_slice)) : Prop :=
  get_file_slices_as_of unit string sx_cast sx_cmp sx_local st bx_table t [] [] c' r.
Definition dx_shows (r : outcome (list file_slice)) : outcome (list (string * list string)) :=
  match r with Ok ss => Ok (map (fun s => (base_relative_path s, map log_file_name (fs_logs s))) ss) | Err e => Err e | Panic => Panic end.
Fact dx_answer : exists c' r, dx_asks dx_store sx_t c' r
  /\ dx_shows r = Ok [("city=ams/f1_0-1-2_20240101000000000.parquet", []); ("city=rio/f2_0-1-3_20240101000000000.parquet", [".f2_20240101000000000.log.1_0-2-2"])].
Proof. bx_asked ltac:(do 3 sx_one). Qed.

(** A writer whose commit time lies before the time of the query, and who is still writing. *)
Definition dx_t := "20240103000000000".
Definition dx_late : list object := (bx_objs ++ [dx_new1; {| o_key := "data/t/city=rio/f2_0-2-2_20240102000000000.parquet"; o_data := "rio" |}])%list.
Definition dx_torn : store unit :=
  {| st_json := st_json _ (bx_store bx_objs); st_schema := st_schema _ (bx_store bx_objs);
     st_files := fun p => if String.eqb p "city=ams" then list_files bx_objs sx_base p else list_files dx_late sx_base p;
     st_dirs := list_dirs bx_objs sx_base; st_meta := st_meta _ (bx_store dx_late); st_parquet := st_parquet _ (bx_store dx_late); st_bytes := st_bytes _ (bx_store dx_late);
     st_open := fun _ _ => Ok tt |}.
Fact dx_torn_sees : sees [bx_objs; dx_late] sx_base unit bx_json bx_schema bx_rows bx_footer (fun _ _ => Ok tt) dx_torn.
Proof.
  intros p. cbv zeta. assert (I0 : In bx_objs [bx_objs; dx_late]) by now left. assert (I1 : In dx_late [bx_objs; dx_late]) by (right; now left).
  repeat split; try (exists bx_objs; split; [exact I0|reflexivity]); try (exists dx_late; split; [exact I1|reflexivity]).
  cbn [st_files dx_torn]. destruct (String.eqb p "city=ams"); [exists bx_objs; split; [exact I0|reflexivity]|exists dx_late; split; [exact I1|reflexivity]].
Qed.
Fact dx_torn_answer : exists c' r, dx_asks dx_torn dx_t c' r
  /\ dx_shows r = Ok [("city=ams/f1_0-1-2_20240101000000000.parquet", []); ("city=rio/f2_0-2-2_20240102000000000.parquet", [])].
Proof. bx_asked ltac:(do 2 sx_one). Qed.
(** A cleaner removes a file after it was listed. *)
Definition dx_cleaned : list object := (filter (fun o => negb (String.eqb (o_key o) "data/t/city=rio/f2_0-1-3_20240101000000000.parquet")) dx_end)%list.
Definition dx_gone : store unit :=
  {| st_json := st_json _ (bx_store bx_objs); st_schema := st_schema _ (bx_store bx_objs); st_files := list_files bx_objs sx_base;
     st_dirs := list_dirs bx_objs sx_base; st_meta := st_meta _ (bx_store dx_cleaned); st_parquet := st_parquet _ (bx_store dx_cleaned); st_bytes := st_bytes _ (bx_store dx_cleaned);
     st_open := fun _ _ => Ok tt |}.
Fact dx_gone_sees : sees [bx_objs; dx_cleaned] sx_base unit bx_json bx_schema bx_rows bx_footer (fun _ _ => Ok tt) dx_gone.
Proof.
  intros p. cbv zeta. assert (I0 : In bx_objs [bx_objs; dx_cleaned]) by now left. assert (I1 : In dx_cleaned [bx_objs; dx_cleaned]) by (right; now left).
  repeat split; try (exists bx_objs; split; [exact I0|reflexivity]); try (exists dx_cleaned; split; [exact I1|reflexivity]).
Qed.
Fact dx_gone_answer : exists c' r, dx_asks dx_gone sx_t c' r /\ r = Err EStorage.
Proof. bx_asked ltac:(do 2 sx_one). Qed.

Lemma in_key : forall dir name names, Forall legal dir -> legal name -> Forall legal names -> key_of (["data"; "t"] ++ dir ++ [name]) = key_of (["data"; "t"] ++ names) -> (dir ++ [name])%list = names.
Proof.
  intros dir name names F N G E. assert (D : Forall legal ["data"; "t"]) by (repeat constructor; discriminate).
  apply key_of_inj in E; [|apply Forall_app; split; [exact D|apply Forall_app; auto]|apply Forall_app; auto]. now injection E.
Qed.
Lemma dx_below : forall objs d x below, Forall legal d -> data_directory objs ["data"; "t"] (join "/" d) -> [x] = (d ++ below)%list -> below = [].
Proof.
  intros objs d x below F [top [rest [E [G _]]]] X. assert (d = top :: rest) by (apply key_of_inj; assumption). subst d. injection X as _ X. destruct rest; [now symmetry|discriminate].
Qed.
Ltac legal_names := repeat constructor; discriminate.
Fact dx_later : forall objs, In objs [dx_mid; dx_end] -> later_objects ["data"; "t"] "parquet" sx_t bx_objs objs.
Proof.
  assert (H : forall dir name o, Forall legal dir -> legal name -> o_key o = key_of (["data"; "t"] ++ dir ++ [name]) -> In o [dx_new1; dx_new2; dx_new3] ->
    (forall b, ~ marker_name name -> base_named "parquet" name -> base_file_of name (Some (new_meta name (o_size o))) = Ok b -> slt sx_t (bf_commit b))
    /\ forall d, Forall legal d -> data_directory bx_objs ["data"; "t"] (join "/" d) -> forall below, dir = (d ++ below)%list -> below = []).
  { intros dir name o F N K I. symmetry in K. destruct I as [ <- |[ <- |[ <- |[]]]].
    - apply (in_key dir name ["city=ams"; "f1_0-2-1_20240102000000000.parquet"] F N ltac:(legal_names)) in K.
      apply (app_inj_tail dir ["city=ams"] name "f1_0-2-1_20240102000000000.parquet") in K as [-> ->]. split.
      + intros b _ _ B. vm_compute in B. injection B as <-. reflexivity.
      + intros d Fd D below. now apply dx_below with (objs := bx_objs).
    - apply (in_key dir name ["city=rio"; ".f2_20240101000000000.log.1_0-2-2"] F N ltac:(legal_names)) in K.
      apply (app_inj_tail dir ["city=rio"] name ".f2_20240101000000000.log.1_0-2-2") in K as [-> ->]. split.
      + intros b _ [r B]. assert (X : ends_with ".parquet" ".f2_20240101000000000.log.1_0-2-2" = true) by (apply ends_with_spec; exists r; exact B). discriminate X.
      + intros d Fd D below. now apply dx_below with (objs := bx_objs).
    - apply (in_key dir name ["city=lon"; "f3_0-2-3_20240102000000000.parquet"] F N ltac:(legal_names)) in K.
      apply (app_inj_tail dir ["city=lon"] name "f3_0-2-3_20240102000000000.parquet") in K as [-> ->]. split.
      + intros b _ _ B. vm_compute in B. injection B as <-. reflexivity.
      + intros d Fd D below. now apply dx_below with (objs := bx_objs). }
  intros objs I. split; [destruct I as [ <- |[ <- |[]]]; intros x; unfold dx_mid, dx_end; rewrite in_app_iff; auto|].
  intros dir name o F [Io [N K]] NI. apply (H dir name o F N K).
  destruct I as [ <- |[ <- |[]]]; unfold dx_mid, dx_end in Io; rewrite in_app_iff in Io; destruct Io as [Io|Io]; try contradiction; [destruct Io as [Io|[]]; now left|exact Io].
Qed.
Fact dx_timeline : forall i, In i (t_commits bx_table) -> exists o, file_in bx_objs ["data"; "t"] [".hoodie"] (file_name i) o.
Proof.
  assert (E : t_commits bx_table = t_commits sx_table) by (vm_compute; reflexivity). rewrite E.
  intros i [ <- |[]]. eexists. split; [right; left; reflexivity|]. split; [repeat split; discriminate|reflexivity].
Qed.
Fact dx_before_answer : exists c' r, dx_asks (bx_store bx_objs) dx_t c' r
  /\ dx_shows r = Ok [("city=ams/f1_0-1-2_20240101000000000.parquet", []); ("city=rio/f2_0-1-3_20240101000000000.parquet", [])].
Proof. bx_asked ltac:(do 2 sx_one). Qed.
Fact dx_after_answer : exists c' r, dx_asks (bx_store dx_late) dx_t c' r
  /\ dx_shows r = Ok [("city=ams/f1_0-2-1_20240102000000000.parquet", []); ("city=rio/f2_0-2-2_20240102000000000.parquet", [])].
Proof. bx_asked ltac:(do 2 sx_one). Qed.

Definition one_base_b (objs : list object) : bool :=
  forallb (fun o1 => forallb (fun o2 =>
    let k1 := split "/" (o_key o1) in let k2 := split "/" (o_key o2) in let n1 := last k1 "" in let n2 := last k2 "" in
    match base_file_of n1 (Some (new_meta n1 (o_size o1))), base_file_of n2 (Some (new_meta n2 (o_size o2))) with
    | Ok b1, Ok b2 => negb (String.eqb (bf_file_id b1) (bf_file_id b2) && String.eqb (bf_commit b1) (bf_commit b2)) || String.eqb n1 n2
    | _, _ => true
    end) objs) objs.
Lemma file_last : forall objs table dir n o, Forall legal table -> Forall legal dir -> file_in objs table dir n o -> last (split "/" (o_key o)) "" = n.
Proof.
  intros objs table dir n o T F [_ [N K]]. rewrite K. unfold key_of. rewrite join_split.
  - rewrite app_assoc. apply last_last.
  - destruct table; [destruct dir|]; discriminate.
  - rewrite app_assoc. assert (G : Forall legal ((table ++ dir) ++ [n])) by (repeat (apply Forall_app; split); auto). eapply Forall_impl; [|exact G]. intros a A. apply A.
Qed.
Lemma one_base_by : forall table format objs, Forall legal table -> one_base_b objs = true -> one_base_file table format objs.
Proof.
  intros table format objs T H dir n1 o1 b1 n2 o2 b2 F F1 F2 _ _ K1 _ _ K2 E1 E2. unfold one_base_b in H. rewrite forallb_forall in H. specialize (H o1 (proj1 F1)). rewrite forallb_forall in H. specialize (H o2 (proj1 F2)). cbv zeta in H.
  rewrite (file_last _ _ _ _ _ T F F1), (file_last _ _ _ _ _ T F F2), K1, K2, E1, E2, !String.eqb_refl in H. now apply String.eqb_eq.
Qed.
Fact dx_one_base : forall objs, In objs dx_moments -> one_base_file ["data"; "t"] "parquet" objs.
Proof. intros objs I. apply one_base_by; [legal_names|]. destruct I as [ <- |[ <- |[ <- |[]]]]; vm_compute; reflexivity. Qed.
Fact dx_quiet_answer : exists c' r, dx_asks (bx_store bx_objs) sx_t c' r
  /\ dx_shows r = Ok [("city=ams/f1_0-1-2_20240101000000000.parquet", []); ("city=rio/f2_0-1-3_20240101000000000.parquet", [])].
Proof. bx_asked ltac:(do 2 sx_one). Qed.
