(** The table of E_Erased.v with its middle slice removed, for the examples of C96. *)
From Coq Require Import Sorted.
From Verif Require Import Base Str M_Utf8 M_Time M_Instant M_Timeline M_FileGroup M_Builder M_Listing M_Expr M_Log M_Config M_Reader M_Table M_Storage M_Avro M_Values M_Datum M_Json M_Objects M_Open
  S_Time S_Timeline S_FileGroup S_Builder S_Listing S_Expr S_Log S_Reader S_Config S_Table S_Avro S_Storage S_Objects S_Open S_History S_Values S_Datum S_Json S_Whole S_Deletes S_Erased S_Clean S_Gaps
  L_Base L_Str L_Storage L_Objects L_Timeline L_Open L_Json L_Whole L_Clean L_Gaps E_Scan E_Open E_History E_Values E_Datum E_Json E_Whole E_Erased.
Local Open Scope string_scope.

Definition ix_stays (_ : string * string) (c : string) : bool := negb (String.eqb c hx_t2).
Definition ix_objs : list object := filter (fun o => negb (String.eqb (o_key o) ("data/t/" ++ gx_2))) gx_objs.
Definition ix_build : outcome (table * url * list object) :=
  build (fun m => m) [] bx_parse (fun _ _ => Ok ix_objs) (fun _ => Err EStorage) hx_local isort wx_builder.
Fact ix_built : ix_build = Ok (gx_table, sx_base, ix_objs).
Proof. vm_compute. reflexivity. Qed.
Definition ix_store : store unit :=
  object_store ix_objs sx_base unit (parse_metadata jx_number jx_collect) (fun _ => Ok [("ts", tt)]) gx_rows (fun _ => Ok (1, 1)%Z) (storage_opens bx_parse (fun _ _ => Ok ix_objs)).
Fact ix_fields : forall fields, get_partition_schema unit ix_store gx_table = Ok fields -> wf_fields fields.
Proof. intros fields E. vm_compute in E. injection E as <-. split; [constructor|intros ? []]. Qed.
Fact ix_in : forall o, In o ix_objs <-> In o gx_objs /\ o_key o <> "data/t/" ++ gx_2.
Proof. intros o. unfold ix_objs. rewrite filter_In, Bool.negb_true_iff, String.eqb_neq. reflexivity. Qed.
Fact ix_slice : forall n d id c, In (n, d) gx_data -> slice_file "parquet" n id c -> id = "f" /\ In (n, c) [(gx_1, hx_t1); (gx_2, hx_t2); (gx_3, hx_t3)].
Proof.
  intros n d id c I S. destruct (gx_base_ok n d I) as [b B]. destruct (gx_base n d b I B) as [E1 [_ E3]].
  assert (Jn : In n (map fst gx_data)) by (change n with (fst (n, d)); now apply in_map).
  assert (T : slice_file "parquet" n "f" (bf_commit b)).
  { exists (new_meta n (Z.of_nat (String.length d))). split; [reflexivity|]. left. exists b. split; [|auto]. split; [now left|]. split; [now apply gx_no_log|]. split; [now apply gx_no_log|exact B]. }
  destruct (slice_file_one _ _ _ _ _ _ S T) as [ -> -> ]. auto.
Qed.
Fact ix_removed : slices_removed gx_objs ix_objs wx_names "parquet" false ix_stays.
Proof.
  assert (M2 : forall o, In o gx_objs -> o_key o = "data/t/" ++ gx_2 -> file_in gx_objs wx_names [] gx_2 o).
  { intros o I K. split; [exact I|]. split; [apply gx_legal; cbn; tauto|]. now rewrite wx_key. }
  constructor.
  - unfold ix_objs. apply NoDup_filter. apply (NoDup_map_inv o_key). apply gx_proper.
  - intros o. rewrite ix_in. split; intros [I H]; (split; [exact I|]).
    + intros [q id] c [dir [n [[_ [_ ->]] [FI S]]]]. cbn [snd] in S. pose proof FI as FI'. apply gx_files in FI' as [d [J ->]]. destruct (ix_slice n d id c J S) as [_ X].
      unfold ix_stays. apply Bool.negb_true_iff, String.eqb_neq. intros ->. apply H. destruct X as [X|[X|[X|[]]]]; try discriminate X. injection X as <-. reflexivity.
    + intros K. pose proof (M2 o I K) as FI. pose proof FI as FI'. apply gx_files in FI' as [d [J ->]]. enough (ix_stays ("", "f") hx_t2 = true) by discriminate. apply H.
      exists [], gx_2. split; [repeat split; constructor|]. split; [exact FI|]. cbn [snd]. destruct (gx_base_ok gx_2 d J) as [b B]. destruct (gx_base gx_2 d b J B) as [E1 [_ E3]].
      exists (new_meta gx_2 (Z.of_nat (String.length d))). split; [reflexivity|]. left. exists b. split; [split; [now left|]; split; [apply gx_no_log; cbn; tauto|]; split; [apply gx_no_log; cbn; tauto|exact B]|].
      split; [exact E1|]. destruct E3 as [X|[X|[X|[]]]]; try discriminate X. now injection X.
  - intros dir n o F FI. destruct (string_dec (o_key o) ("data/t/" ++ gx_2)) as [K|K].
    + pose proof (M2 o (proj1 FI) K) as FJ. destruct (place gx_objs sx_base wx_names sx_located dir n [] gx_2 o F (Forall_nil _) FI FJ) as [ -> _ ].
      exists gx_1, (wx_at gx_1 "b1"). split; [apply ix_in; split; [unfold gx_objs; cbn [app In map gx_data fst snd]; tauto|discriminate]|]. split; [apply gx_legal; cbn; tauto|]. now rewrite wx_key.
    + exists n, o. split; [apply ix_in; split; [apply FI|exact K]|apply FI].
Qed.
Fact ix_schema : schema_found ix_objs wx_names jx_number jx_collect (fun _ => Ok [("ts", tt)]) (t_commits gx_table) [("ts", tt)].
Proof.
  let l := eval vm_compute in (t_commits gx_table) in
  match l with [?a; ?b; ?c] => exists [a; b], c end.
  exists (wx_at ".hoodie/20250103000000000.commit" (wx_commit (wx_stat "f" gx_3) "")). eexists. exists [], gx_3, (wx_at gx_3 "b3"). split; [vm_compute; reflexivity|].
  split; [split; [apply ix_in; split; [unfold gx_objs; cbn [In app]; do 3 right; left; reflexivity|discriminate]|split; [repeat split; discriminate|reflexivity]]|]. split; [apply slice_text; vm_compute; reflexivity|].
  split; [do 5 eexists; split; [reflexivity|]; split; [reflexivity|]; left; split; [now exists "f_0-0-2_20250103000000000"|reflexivity]|]. split; [constructor|].
  split; [|reflexivity]. assert (F : file_in gx_objs wx_names [] gx_3 (wx_at gx_3 "b3")) by (apply gx_files; exists "b3"; split; [cbn [gx_data In]; tauto|reflexivity]).
  split; [apply ix_in; split; [apply F|discriminate]|apply F].
Qed.
(** What is left reads like another history: in it the record was deleted when it was written again. *)
Definition ix_group : group := only (ix_stays ("", "f")) gx_group.
Fact ix_history : dhistory 2 3 1 hx_t3 ix_group [(hx_t3, "a")].
Proof.
  change [(hx_t3, "a")] with ([] ++ map (pair hx_t3) ["a"])%list.
  eapply (dh_write 2 3 1 hx_t1 hx_group1 [] hx_t3); [|apply hx_stamp; cbn; tauto|reflexivity|].
  - eapply dh_write; [apply dh_new|apply hx_stamp; cbn; tauto|reflexivity|].
    apply (dw_rewrite 2 3 1 new_group_history [] hx_t1 [] [hx_a1; hx_b1] [] [hx_a1; hx_b1]); [intros r; split; [intros []|intros [[y [[] _]] _]]|]. split; [|split].
    + cbn. repeat constructor; cbn; intuition discriminate.
    + intros r I. exists r. auto.
    + intros r I. split; [exact I|]. destruct I as [ <- |[ <- |[]]]; hx_newer.
  - apply (dw_rewrite 2 3 1 hx_group1 [] hx_t3 ["a"] [gx_a3] [hx_b1] [hx_b1; gx_a3]).
    + intros r. split.
      * intros [ <- |[]]. split; [|intros [E|[]]; discriminate E]. exists hx_t1. split; [right; now left|]. split; [discriminate|intros [d [[] _]]].
      * intros [[y [[E|[E|[]]] _]] N]; injection E as <- <-; [exfalso; apply N; now left|now left].
    + split; [|split].
      * cbn. repeat constructor; cbn; intuition discriminate.
      * intros r I. exists r. auto.
      * intros r I. split; [exact I|]. destruct I as [ <- |[ <- |[]]]; hx_newer.
Qed.
Fact ix_has : forall g c, has_base ix_objs wx_names "parquet" false g c -> g = ("", "f").
Proof. intros g c H. apply (bases_left gx_objs ix_objs sx_base wx_names "parquet" false ix_stays sx_located ix_removed) in H as [H _]. now apply gx_has in H. Qed.
Fact ix_erased : forall t, erased_by ix_objs wx_names "parquet" false vx_parse vx_code vx_rank gx_rows vx_dfs 2 3 1 t (fun _ => ix_group) (fun _ => [(hx_t3, "a")]).
Proof.
  intros t g c H. pose proof (ix_has g c H). subst g. destruct (layout_after gx_objs ix_objs sx_base wx_names "parquet" false ix_stays sx_located gx_proper ix_removed vx_parse vx_code vx_rank gx_rows vx_dfs 2 3 1 t (fun _ => gx_group) (fun _ => gx_dels) (gx_erased t) _ _ H) as [now [contents [_ [_ WO]]]].
  exists hx_t3, contents. split; [exact ix_history|]. split; [intros b x rows []|exact WO].
Qed.
Fact ix_shown : forall t g c, In t [hx_t1; hx_t3] -> shown_slice gx_objs wx_names "parquet" false t g c -> ix_stays g c = true.
Proof.
  intros t g c I [H [L M]]. unfold ix_stays. apply Bool.negb_true_iff, String.eqb_neq. intros ->. pose proof (gx_has _ _ H). subst g. destruct I as [ <- |[ <- |[]]]; [now apply L|].
  assert (X : sle hx_t3 hx_t2); [|now apply X]. apply M; [|apply sle_refl]. apply (bases_are gx_objs sx_base wx_names "parquet" false sx_located gx_proper vx_parse vx_code vx_rank gx_rows vx_dfs 2 3 1 hx_t3 (fun _ => gx_group) (fun _ => gx_dels) (gx_erased hx_t3) ("", "f") hx_t2 H).
  cbn. auto.
Qed.
