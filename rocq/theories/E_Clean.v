(** Cleaning the small table of E_Whole.v (C96). *)
From Verif Require Import Base Str M_Utf8 M_Time M_Instant M_Timeline M_FileGroup M_Builder M_Listing M_Expr M_Log M_Config M_Reader M_Table M_Storage M_Avro M_Values M_Datum M_Json M_Objects M_Open
  S_Time S_Timeline S_FileGroup S_Builder S_Listing S_Expr S_Log S_Reader S_Config S_Table S_Avro S_Storage S_Objects S_Open S_History S_Values S_Datum S_Json S_Whole S_Clean
  L_Base L_Str L_Timeline L_Open L_Json L_Whole L_Writer L_Clean E_Scan E_Open E_History E_Values E_Datum E_Json E_Whole E_During.
Local Open Scope string_scope.

(** The slice of the first commit is removed from the file group "f", with its log file, and the file group "r", which is
    replaced, is removed. *)
Definition cl_names : list string := [fm_name hx_base1; fm_name hx_log1; wx_r].
Definition cl_without (names : list string) : list object := filter (fun o => negb (existsb (fun n => String.eqb (o_key o) ("data/t/" ++ n)) names)) wx_objs.
Definition cl_objs : list object := cl_without cl_names.
Definition cl_keep (g : string * string) : string := if String.eqb (snd g) "f" then hx_t5 else if String.eqb (snd g) "h" then hx_t1 else "".
Definition cl_gone (g : string * string) : Prop := g = ("", "r").

Definition cl_build (objs : list object) : outcome (table * url * list object) :=
  build (fun m => m) [] bx_parse (fun _ _ => Ok objs) (fun _ => Err EStorage) hx_local isort wx_builder.
Definition cl_table (objs : list object) : table := match cl_build objs with Ok (tb, _, _) => tb | _ => hx_table end.
Definition cl_store (objs : list object) : store unit :=
  object_store objs sx_base unit (parse_metadata jx_number jx_collect) (fun _ => Ok [("ts", tt)]) wx_rows (fun _ => Ok (1, 1)%Z) (storage_opens bx_parse (fun _ _ => Ok objs)).
Definition cl_reads (objs : list object) (t : string) (r : outcome (list record_batch)) : Prop := exists c',
  read_snapshot_as_of unit string (fun _ s => Some s) (fun a b => Some (scmp a b)) avro value vx_parse decode check_schema (to_batch vx_code vx_rank vx_cast) (fun _ => None)
    hx_local (cl_store objs) (cl_table objs) t [] [] c' r.
Fact cl_built : cl_build cl_objs = Ok (cl_table cl_objs, sx_base, cl_objs).
Proof. vm_compute. reflexivity. Qed.

(** The slices of the files. *)
Definition cl_slices : list (string * (string * string)) :=
  [(wx_h, ("h", hx_t1)); (fm_name hx_base1, ("f", hx_t1)); (fm_name hx_log1, ("f", hx_t1)); (wx_r, ("r", hx_t1)); (fm_name hx_base5, ("f", hx_t5)); (fm_name hx_log5, ("f", hx_t5))].
Lemma cl_not_marker : forall n, starts_with ".hoodie_partition_metadata" n = false -> ends_with ".crc" n = false -> ~ marker_name n.
Proof. intros n A B [[r E]|[r E]]; [assert (starts_with ".hoodie_partition_metadata" n = true) by (apply starts_with_spec; eauto)|assert (ends_with ".crc" n = true) by (apply ends_with_spec; eauto)]; congruence. Qed.
Fact cl_slice : forall n id c, In n (map fst wx_data) -> slice_file "parquet" n id c <-> In (n, (id, c)) cl_slices.
Proof.
  assert (T : forall n id c, In (n, (id, c)) cl_slices -> slice_file "parquet" n id c).
  { intros n id c I. exists (new_meta n 0). split; [reflexivity|]. cbn [cl_slices In] in I.
    repeat (destruct I as [[= <- <- <-]|I];
      [first [left; eexists; split; [split; [now left|split; [apply cl_not_marker; reflexivity|split; [apply (ends_with_spec ".parquet"); reflexivity|vm_compute; reflexivity]]]|split; reflexivity]
             |right; eexists; split; [split; [now left|split; [apply cl_not_marker; reflexivity|split; [intros X; apply (ends_with_spec ".parquet") in X; discriminate X|vm_compute; reflexivity]]]|split; reflexivity]]|]).
    destruct I. }
  intros n id c I. split; [|apply T]. intros S. assert (exists id' c', In (n, (id', c')) cl_slices) as [id' [c' J]].
  { cbn [wx_data map fst In] in I. repeat (destruct I as [ <- |I]; [do 2 eexists; cbn [cl_slices In]; tauto|]). destruct I. }
  destruct (slice_file_one _ _ _ _ _ _ S (T _ _ _ J)) as [ -> -> ]. exact J.
Qed.
Fact cl_part : forall path dir, object_partition wx_objs wx_names false path dir <-> path = "" /\ dir = [].
Proof. intros path dir. unfold object_partition. split; [intros [_ [ -> -> ]]; auto|intros [ -> -> ]; repeat split; constructor]. Qed.
Fact cl_in : forall names o, In o (cl_without names) <-> In o wx_objs /\ forall n, In n names -> o_key o <> "data/t/" ++ n.
Proof.
  intros names o. unfold cl_without. rewrite filter_In, Bool.negb_true_iff. split; intros [I H]; (split; [exact I|]).
  - intros n J E. assert (existsb (fun n => String.eqb (o_key o) ("data/t/" ++ n)) names = true); [|congruence]. apply existsb_exists. exists n. split; [exact J|now apply String.eqb_eq].
  - apply Bool.not_true_is_false. intros X. apply existsb_exists in X as [n [J E]]. apply String.eqb_eq in E. now apply (H n J).
Qed.
Fact cl_has : forall g c, has_base wx_objs wx_names "parquet" false g c -> In (g, c) [(("", "f"), hx_t1); (("", "f"), hx_t5); (("", "h"), hx_t1); (("", "r"), hx_t1)].
Proof.
  intros [q id] c [dir [n [o [b [P [FI [M [B [E [E1 E2]]]]]]]]]]. apply cl_part in P as [P ->]. cbn in P, E1. subst q id c. apply wx_files in FI as [d [I ->]].
  assert (S : slice_file "parquet" n (bf_file_id b) (bf_commit b)) by (apply (base_slice_file "parquet" [new_meta n (o_size (wx_at n d))] (new_meta n (o_size (wx_at n d))) b); split; [now left|auto]).
  apply cl_slice in S; [|apply in_map_iff; exists (n, d); auto]. cbn [cl_slices In] in *.
  repeat (destruct S as [S|S]; [injection S as _ <- <-; tauto|]). destruct S.
Qed.
Fact cl_has_5 : has_base wx_objs wx_names "parquet" false ("", "f") hx_t5.
Proof.
  exists [], (fm_name hx_base5), (wx_at (fm_name hx_base5) "b5"). eexists. split; [now apply cl_part|]. split; [apply wx_files; exists "b5"; split; [cbn [wx_data In]; tauto|reflexivity]|].
  split; [apply cl_not_marker; reflexivity|]. split; [apply (ends_with_spec ".parquet"); reflexivity|]. split; [vm_compute; reflexivity|]. split; reflexivity.
Qed.
Fact cl_directories : forall dir n o, Forall legal dir -> file_in wx_objs wx_names dir n o -> exists n' o', file_in cl_objs wx_names dir n' o'.
Proof.
  intros dir n o F FI.
    assert (D : dir = [] \/ dir = [".hoodie"]).
    { destruct FI as [I [N E]]. unfold wx_objs in I. apply in_app_or in I as [I|I].
      - right. assert (X : exists m, legal m /\ o_key o = key_of (["data"; "t"] ++ [".hoodie"; m])).
        { cbn [In] in I. repeat (destruct I as [ <- |I]; [match goal with |- context [wx_at ?x _] => let m := eval vm_compute in (drop 8 x) in exists m end; split; [repeat split; discriminate|reflexivity]|]). destruct I. }
        destruct X as [m [M E']]. rewrite E in E'. apply in_key in E'; [|exact F|exact N|constructor; [exact metadata_legal|constructor; [exact M|constructor]]].
        change [".hoodie"; m] with ([".hoodie"] ++ [m])%list in E'. now apply app_inj_tail in E'.
      - left. apply in_map_iff in I as [[m d] [ <- I]]. cbn [wx_at o_key fst snd] in E. symmetry in E. change ("data/t/" ++ m) with (key_of (["data"; "t"] ++ [m])) in E.
        apply in_key in E; [|exact F|exact N|constructor; [apply wx_legal; apply in_map_iff; exists (m, d); auto|constructor]]. change [m] with ([] ++ [m])%list in E. now apply app_inj_tail in E. }
    destruct D as [ -> | -> ].
    + exists wx_h, (wx_at wx_h "h1"). split; [|split; [repeat split; discriminate|reflexivity]]. apply cl_in. split; [unfold wx_objs; apply in_or_app; right; now left|]. intros m J X. cbn [cl_names In] in J. repeat (destruct J as [ <- |J]; [discriminate X|]). destruct J.
    + exists "hoodie.properties". eexists. split; [apply cl_in; split; [unfold wx_objs; now left|]|split; [repeat split; discriminate|reflexivity]]. intros m J X. cbn [cl_names In] in J. repeat (destruct J as [ <- |J]; [discriminate X|]). destruct J.
Qed.
Fact cl_cleaned : cleaned wx_objs cl_objs wx_names "parquet" false cl_keep cl_gone.
Proof.
  constructor.
  - apply NoDup_filter. apply nodup_of_map with (f := o_key). apply wx_proper.
  - intros o. unfold cl_objs. rewrite cl_in. split; intros [I H]; (split; [exact I|]).
    + intros [q id] c [dir [n [P [FI S]]]]. apply cl_part in P as [P ->]. cbn in P, S. subst q. apply wx_files in FI as [d [J ->]]. apply cl_slice in S; [|apply in_map_iff; exists (n, d); auto].
      assert (NN : ~ In n cl_names) by (intros X; now apply (H n X)). cbn [cl_slices In] in S.
      repeat (destruct S as [S|S]; [injection S as <- <- <-; try (exfalso; apply NN; cbn [cl_names In]; tauto); (split; [discriminate|vm_compute; discriminate])|]). destruct S.
    + intros n J E. assert (FI : exists d, In (n, d) wx_data) by (cbn [cl_names In] in J; repeat (destruct J as [ <- |J]; [eexists; cbn [wx_data In]; tauto|]); destruct J). destruct FI as [d FI].
      assert (EO : o = wx_at n d). { apply (one_object wx_objs wx_proper); [exact I|unfold wx_objs; apply in_or_app; right; apply in_map_iff; exists (n, d); auto|exact E]. }
      assert (SO : forall id c, In (n, (id, c)) cl_slices -> ~ cl_gone ("", id) /\ sle (cl_keep ("", id)) c).
      { intros id c X. apply (H ("", id) c). exists [], n. split; [now apply cl_part|]. split; [apply wx_files; exists d; auto|]. apply cl_slice; [apply in_map_iff; exists (n, d); auto|exact X]. }
      cbn [cl_names In] in J. destruct J as [ <- |[ <- |[ <- |[]]]].
      * destruct (SO "f" hx_t1) as [_ X]; [cbn [cl_slices In]; tauto|]. now apply X.
      * destruct (SO "f" hx_t1) as [_ X]; [cbn [cl_slices In]; tauto|]. now apply X.
      * destruct (SO "r" hx_t1) as [X _]; [cbn [cl_slices In]; tauto|]. now apply X.
  - intros g c B NG. pose proof B as I. apply cl_has in I. cbn [In] in I. destruct I as [I|[I|[I|[I|[]]]]]; injection I as <- <-.
    + exact cl_has_5.
    + exact cl_has_5.
    + exact B.
    + now elim NG.
  - exact cl_directories.
Qed.
