(** Moments of cleaning the small table of E_Whole.v (C99). *)
From Verif Require Import Base Str M_Utf8 M_Time M_Instant M_Timeline M_FileGroup M_Builder M_Listing M_Expr M_Log M_Config M_Reader M_Table M_Storage M_Avro M_Values M_Datum M_Json M_Objects M_During M_Open
  S_Time S_Timeline S_FileGroup S_Builder S_Listing S_Expr S_Log S_Reader S_Config S_Table S_Avro S_Storage S_Objects S_Open S_History S_Values S_Datum S_Json S_Whole S_Clean S_Deletes S_Erased S_Gaps S_Swept
  L_Base L_Str L_Timeline L_Open L_Json L_Whole L_Writer L_Clean L_Succeed P_Deletes E_Scan E_Open E_History E_Values E_Datum E_Json E_Whole E_During E_Clean P_Clean.
Local Open Scope string_scope.

(** The log file of the first slice goes first, then its base file, then the replaced file group. *)
Definition sv_gone : list (list string) := [[fm_name hx_log1]; [fm_name hx_log1; fm_name hx_base1]; [fm_name hx_log1; fm_name hx_base1; wx_r]].
Definition sv_later : list (list object) := map cl_without sv_gone.
Definition sv_at (i : nat) : store unit := cl_store (nth i (wx_objs :: sv_later) []).
(** A query that lists the files when the log file is gone, and reads what it lists when all is gone. *)
Definition sv_store : store unit :=
  {| st_json := st_json _ (sv_at 2); st_schema := st_schema _ (sv_at 0); st_files := st_files _ (sv_at 1); st_dirs := st_dirs _ (sv_at 2); st_meta := st_meta _ (sv_at 2);
     st_parquet := st_parquet _ (sv_at 3); st_bytes := st_bytes _ (sv_at 3); st_open := storage_opens bx_parse (fun _ _ => Ok wx_objs) |}.
Fact sv_sees : sees (wx_objs :: sv_later) sx_base unit (parse_metadata jx_number jx_collect) (fun _ => Ok [("ts", tt)]) wx_rows (fun _ => Ok (1, 1)%Z) (storage_opens bx_parse (fun _ _ => Ok wx_objs)) sv_store.
Proof.
  intros q. cbv zeta. assert (I : forall i, (i < 4)%nat -> In (nth i (wx_objs :: sv_later) []) (wx_objs :: sv_later)) by (intros i Hi; apply nth_In; exact Hi).
  repeat split; [exists (nth 2 (wx_objs :: sv_later) [])|exists (nth 0 (wx_objs :: sv_later) [])|exists (nth 1 (wx_objs :: sv_later) [])|exists (nth 2 (wx_objs :: sv_later) [])|exists (nth 2 (wx_objs :: sv_later) [])|exists (nth 3 (wx_objs :: sv_later) [])|exists (nth 3 (wx_objs :: sv_later) [])];
    (split; [apply I; lia|reflexivity]).
Qed.
Fact sv_part : forall names, In names sv_gone -> incl names cl_names.
Proof. intros names I n J. cbn [sv_gone In] in I. destruct I as [ <- |[ <- |[ <- |[]]]]; cbn [In] in J; cbn [cl_names In]; tauto. Qed.
Fact sv_keeps : forall names n d, incl names cl_names -> In (n, d) wx_data -> ~ In n cl_names -> In (wx_at n d) (cl_without names).
Proof.
  intros names n d I J N. apply cl_in. split; [unfold wx_objs; apply in_or_app; right; apply in_map_iff; exists (n, d); auto|]. intros m Im E. cbn [o_key wx_at] in E.
  apply wx_strip in E. subst m. apply N. exact (I _ Im).
Qed.
Fact sv_timeline : forall names o, incl names cl_names -> In o wx_objs -> (forall n, In n cl_names -> o_key o <> "data/t/" ++ n) -> In o (cl_without names).
Proof.
  intros names o I J N. apply cl_in. split; [exact J|]. intros n K. apply N. exact (I _ K).
Qed.
Fact sv_replaced : replaced_in wx_objs wx_names jx_number jx_collect hx_local "utc" 1736208000000 ("", "r").
Proof. destruct C96_case as [_ [_ [_ [G _]]]]. now apply G. Qed.
Fact sv_swept : forall names, incl names cl_names -> swept wx_objs (cl_without names) wx_names "parquet" false wx_t7 (replaced_in wx_objs wx_names jx_number jx_collect hx_local "utc" 1736208000000).
Proof.
  intros names I. constructor.
  - apply NoDup_filter. apply nodup_of_map with (f := o_key). apply wx_proper.
  - intros o J. now apply cl_in in J.
  - intros o J. destruct (existsb (fun n => String.eqb (o_key o) ("data/t/" ++ n)) names) eqn:X.
    + right. apply existsb_exists in X as [n [Jn E]]. apply String.eqb_eq in E. assert (K : In n cl_names) by exact (I _ Jn).
      assert (FI : exists d, In (n, d) wx_data) by (cbn [cl_names In] in K; repeat (destruct K as [ <- |K]; [eexists; cbn [wx_data In]; tauto|]); destruct K). destruct FI as [d FI].
      assert (EO : o = wx_at n d). { apply (one_object wx_objs wx_proper); [exact J|unfold wx_objs; apply in_or_app; right; apply in_map_iff; exists (n, d); auto|exact E]. } subst o.
      assert (SO : forall id c, In (n, (id, c)) cl_slices -> slice_object wx_objs wx_names "parquet" false ("", id) c (wx_at n d)).
      { intros id c Y. exists [], n. split; [now apply cl_part|]. split; [apply wx_files; exists d; auto|]. apply cl_slice; [apply in_map_iff; exists (n, d); auto|exact Y]. }
      assert (F1 : ~ needed wx_objs wx_names "parquet" false wx_t7 (replaced_in wx_objs wx_names jx_number jx_collect hx_local "utc" 1736208000000) ("", "f") hx_t1).
      { intros [[_ [_ M]] _]. apply (M hx_t5 cl_has_5); [discriminate|reflexivity]. }
      cbn [cl_names In] in K. destruct K as [ <- |[ <- |[ <- |[]]]].
      * exists ("", "f"), hx_t1. split; [apply SO; cbn [cl_slices In]; tauto|exact F1].
      * exists ("", "f"), hx_t1. split; [apply SO; cbn [cl_slices In]; tauto|exact F1].
      * exists ("", "r"), hx_t1. split; [apply SO; cbn [cl_slices In]; tauto|]. intros [_ N]. exact (N sv_replaced).
    + left. unfold cl_without. apply filter_In. split; [exact J|]. now rewrite X.
  - intros dir n o F FI. destruct (cl_directories dir n o F FI) as [n' [o' [J [N K]]]]. exists n', o'. split; [|now split]. apply cl_in in J as [J1 J2]. exact (sv_timeline names o' I J1 J2).
Qed.
Fact sv_first : forall names, In names sv_gone -> logs_first wx_objs (cl_without names) wx_names "parquet" false.
Proof.
  intros names I [q id] c o [dir [n [OP [FI SF]]]] J HB. cbn [fst snd] in *. apply cl_part in OP as [ -> -> ]. apply wx_files in FI as [d [W ->]].
  pose proof SF as SF'. apply cl_slice in SF'; [|apply in_map_iff; exists (n, d); auto].
  assert (B : forall n' d', In (n', d') [(wx_h, "h1"); (fm_name hx_base1, "b1"); (wx_r, "r1"); (fm_name hx_base5, "b5")] -> In (n', (id, c)) cl_slices -> In (wx_at n' d') (cl_without names) ->
    has_base (cl_without names) wx_names "parquet" false ("", id) c).
  { intros n' d' Y Z K. exists [], n', (wx_at n' d').
    assert (X : exists b, ~ marker_name n' /\ base_named "parquet" n' /\ base_file_of n' (Some (new_meta n' (o_size (wx_at n' d')))) = Ok b /\ bf_file_id b = id /\ bf_commit b = c).
    { cbn [In] in Y. repeat (destruct Y as [[= <- <-]|Y]; [eexists; split; [apply cl_not_marker; reflexivity|split; [apply (ends_with_spec ".parquet"); reflexivity|split; [vm_compute; reflexivity|]]]; cbn [cl_slices In] in Z;
        repeat (destruct Z as [Z|Z]; [first [discriminate Z|injection Z as <- <-; split; reflexivity]|]); destruct Z|]). destruct Y. }
    destruct X as [b X]. exists b. split; [repeat split; constructor|]. split; [|exact X]. split; [exact K|].
    assert (LN : legal n') by (cbn [In] in Y; repeat (destruct Y as [[= <- <-]|Y]; [apply wx_legal; cbn [wx_data map fst In]; tauto|]); destruct Y). split; [exact LN|]. now rewrite wx_key. }
  assert (B1 : In (wx_at (fm_name hx_log1) d) (cl_without names) -> In (wx_at (fm_name hx_base1) "b1") (cl_without names)).
  { intros K. apply cl_in in K as [_ K]. exfalso. apply (K (fm_name hx_log1)); [|reflexivity]. cbn [sv_gone In] in I. destruct I as [ <- |[ <- |[ <- |[]]]]; now left. }
  cbn [cl_slices In] in SF'. repeat (destruct SF' as [E|SF']; [injection E as <- <- <-|]).
  - apply (B wx_h "h1"); [cbn [In]; tauto|cbn [cl_slices In]; tauto|]. apply sv_keeps; [exact (sv_part _ I)|cbn [wx_data In]; tauto|cbn [cl_names In]; intros [Y|[Y|[Y|[]]]]; discriminate Y].
  - assert (d = "b1") as -> by (cbn [wx_data In] in W; repeat (destruct W as [W|W]; [first [discriminate W|injection W as <-; reflexivity]|]); destruct W). apply (B (fm_name hx_base1) "b1"); [cbn [In]; tauto|cbn [cl_slices In]; tauto|exact J].
  - apply (B (fm_name hx_base1) "b1"); [cbn [In]; tauto|cbn [cl_slices In]; tauto|exact (B1 J)].
  - assert (d = "r1") as -> by (cbn [wx_data In] in W; repeat (destruct W as [W|W]; [first [discriminate W|injection W as <-; reflexivity]|]); destruct W). apply (B wx_r "r1"); [cbn [In]; tauto|cbn [cl_slices In]; tauto|exact J].
  - apply (B (fm_name hx_base5) "b5"); [cbn [In]; tauto|cbn [cl_slices In]; tauto|]. apply sv_keeps; [exact (sv_part _ I)|cbn [wx_data In]; tauto|cbn [cl_names In]; intros [Y|[Y|[Y|[]]]]; discriminate Y].
  - apply (B (fm_name hx_base5) "b5"); [cbn [In]; tauto|cbn [cl_slices In]; tauto|]. apply sv_keeps; [exact (sv_part _ I)|cbn [wx_data In]; tauto|cbn [cl_names In]; intros [Y|[Y|[Y|[]]]]; discriminate Y].
  - destruct SF'.
Qed.
Fact sv_schema : forall objs, In objs (wx_objs :: sv_later) -> schema_found objs wx_names jx_number jx_collect (fun _ => Ok [("ts", tt)]) (t_commits wx_table) [("ts", tt)].
Proof.
  intros objs [ <- |I]; [exact wx_schema|]. apply in_map_iff in I as [names [ <- I]].
  let l := eval vm_compute in (t_commits wx_table) in
  match l with [?a; ?b; ?c; ?d; ?e] => exists [a; b; c; d], e end.
  exists (wx_at ".hoodie/20250107000000000.replacecommit" wx_replace). eexists. exists [], wx_h, (wx_at wx_h "h1"). split; [vm_compute; reflexivity|].
  split; [split; [apply (sv_timeline names _ (sv_part _ I)); [unfold wx_objs; cbn [In app]; do 6 right; left; reflexivity|intros m J X; cbn [cl_names In] in J; repeat (destruct J as [ <- |J]; [discriminate X|]); destruct J]|split; [repeat split; discriminate|reflexivity]]|].
  split; [apply slice_text; vm_compute; reflexivity|].
  split; [do 5 eexists; split; [reflexivity|]; split; [reflexivity|]; left; split; [now exists "h_0-0-0_20250101000000000"|reflexivity]|]. split; [constructor|]. split; [|reflexivity].
  split; [|split; [repeat split; discriminate|reflexivity]]. apply sv_keeps; [exact (sv_part _ I)|cbn [wx_data In]; tauto|cbn [cl_names In]; intros [Y|[Y|[Y|[]]]]; discriminate Y].
Qed.
Fact sv_erased : erased_by wx_objs wx_names "parquet" false vx_parse vx_code vx_rank wx_rows vx_dfs 2 3 1 wx_t7 wx_hist (fun _ => []).
Proof.
  intros g c B. destruct (wx_written wx_t7 ltac:(cbn [In]; tauto) g c B) as [now [contents [H [C W]]]]. exists now, contents. split; [|split; [exact C|exact W]]. exact (proj1 (C92_conservative 2 3 1 now (wx_hist g) H)).
Qed.
