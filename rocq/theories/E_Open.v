(** A small table on an object store for the examples: the objects of a bucket. *)
From Coq Require Import Sorted.
From Verif Require Import Base Str M_Utf8 M_Time M_Instant M_Timeline M_FileGroup M_Builder M_Listing M_Expr M_Log M_Config M_Reader M_Table M_Storage M_Objects M_Open
  S_Time S_Timeline S_FileGroup S_Builder S_Listing S_Expr S_Reader S_Config S_Table S_Storage S_Objects S_Open L_Timeline L_Expr E_Scan.
Local Open Scope string_scope.

Definition LF := String "010" "".
Definition lines_of (l : list string) : string := fold_right (fun a r => a ++ LF ++ r) "" l.
Definition bx_props (version : string) (more : list string) : string :=
  lines_of (["hoodie.table.name=t"; "hoodie.table.type=COPY_ON_WRITE"; ("hoodie.table.version=" ++ version)%string; "hoodie.timeline.layout.version=1";
             "hoodie.table.partition.fields=city"; "hoodie.datasource.write.hive_style_partitioning=true";
             "hoodie.datasource.write.partitionpath.urlencode=false"] ++ more)%list.
Definition bx_objects (props : string) (more : list object) : list object :=
  ([{| o_key := "data/t/.hoodie/hoodie.properties"; o_data := props |};
    {| o_key := "data/t/.hoodie/20240101000000000.commit"; o_data := "metadata" |};
    {| o_key := "data/t/.hoodie/20240102000000000.commit.requested"; o_data := "" |};
    {| o_key := "data/t/.hoodie/metadata/files/x.parquet"; o_data := "?" |};
    {| o_key := "data/t/city=ams/f1_0-1-2_20240101000000000.parquet"; o_data := "ams rows" |};
    {| o_key := "data/t/city=rio/f2_0-1-3_20240101000000000.parquet"; o_data := "rio" |};
    {| o_key := "data/other/.hoodie/hoodie.properties"; o_data := bx_props "6" [] |}] ++ more)%list.
Definition bx_json (d : string) : outcome (list (string * json)) := if String.eqb d "metadata" then Ok sx_md else Err EStorage.
Definition bx_schema (d : string) : outcome (list (string * unit)) := Ok [("id", tt); ("city", tt)].
Definition bx_rows (d : string) : outcome record_batch :=
  if String.eqb d "ams rows" then Ok (sx_batch [sx_row "1" "ams"; sx_row "2" "ams"]) else if String.eqb d "rio" then Ok (sx_batch [sx_row "3" "rio"]) else Err EStorage.
Definition bx_footer (d : string) : outcome (Z * Z) := if String.eqb d "ams rows" then Ok (100, 2)%Z else if String.eqb d "rio" then Ok (50, 1)%Z else Err EStorage.
Definition bx_store (objs : list object) : store unit := object_store objs sx_base unit bx_json bx_schema bx_rows bx_footer (fun _ _ => Ok tt).
Definition bx_parse (uri : string) : option url :=
  if String.eqb uri "file:///data/t/" then Some {| u_special := true; u_file := true; u_opaque := false; u_path := "/data/t/" |}
  else if String.eqb uri "file:///data/other" then Some {| u_special := true; u_file := true; u_opaque := false; u_path := "/data/other" |} else None.
Definition bx_builder : builder := {| b_base := "file:///data/t/"; b_hudi := []; b_storage := []; b_options := [("hoodie.read.input.partitions", "2"); ("region", "r")] |}.
Definition bx_build (objs : list object) : outcome (table * url * list object) :=
  build (fun m => m) [("AWS_X", "y"); ("HOME", "h")] bx_parse (fun _ _ => Ok objs) (fun _ => Err EStorage) sx_local isort bx_builder.
Definition bx_objs : list object := bx_objects (bx_props "6" []) [].

Lemma sx_located : located sx_base ["data"; "t"].
Proof.
  split; [reflexivity|]. split; [repeat constructor; discriminate|]. split; [discriminate|]. exists "/data/t". split; [apply encodes_self; reflexivity|]. split; [reflexivity|now left].
Qed.
Definition key_names (k : string) : list string := split "/" k.
Fixpoint proper_b (seen : list string) (l : list object) : bool :=
  match l with
  | [] => true
  | o :: r => negb (existsb (String.eqb (o_key o)) seen)
              && forallb (fun n => negb (String.eqb n "") && negb (has_char "/" n) && negb (String.eqb n ".") && negb (String.eqb n "..") && negb (has_control n) && utf8_valid n) (key_names (o_key o))
              && proper_b (o_key o :: seen) r
  end.
Lemma proper_b_spec : forall l seen, proper_b seen l = true -> proper_objects l /\ forall k, In k seen -> ~ In k (map o_key l).
Proof.
  induction l as [|o l IH]; intros seen H; cbn [proper_b] in H.
  - split; [split; constructor|]. intros k _ [].
  - apply Bool.andb_true_iff in H as [H R]. apply Bool.andb_true_iff in H as [N F]. destruct (IH _ R) as [[P D] X]. apply Bool.negb_true_iff in N.
    split; [split|].
    + cbn [map]. constructor; [|exact P]. exists (key_names (o_key o)). split; [apply L_Str.split_not_nil|]. split; [|symmetry; apply L_Str.split_join].
      rewrite Forall_forall. intros n I. rewrite forallb_forall in F. specialize (F n I). repeat (apply Bool.andb_true_iff in F as [F ?A]).
      repeat match goal with H : negb _ = true |- _ => apply Bool.negb_true_iff in H end.
      assert (Q : forall a b, String.eqb a b = false -> a <> b) by (intros a b E ->; rewrite String.eqb_refl in E; discriminate).
      repeat split; auto.
    + cbn [map]. constructor; [|exact D]. apply X. now left.
    + intros k I [E|J]; [|eapply X; [right; exact I|exact J]]. subst k. assert (existsb (String.eqb (o_key o)) seen = true); [|congruence]. apply existsb_exists. exists (o_key o). split; [exact I|apply String.eqb_refl].
Qed.
Lemma proper_by : forall l, proper_b [] l = true -> proper_objects l.
Proof. intros l H. now apply proper_b_spec in H. Qed.
Lemma bx_proper : proper_objects bx_objs.
Proof. apply proper_by. vm_compute. reflexivity. Qed.
Definition bx_table : table := match bx_build bx_objs with Ok (tb, _, _) => tb | _ => sx_table end.
Fact bx_built : bx_build bx_objs = Ok (bx_table, sx_base, bx_objs).
Proof. vm_compute. reflexivity. Qed.
Definition bx_asks (objs : list object) (filters : list (string * string * string)) (c' : cache) (r : outcome (list file_slice)) : Prop :=
  get_file_slices_as_of unit string sx_cast sx_cmp sx_local (bx_store objs) bx_table sx_t filters [] c' r.
Definition bx_files (r : outcome (list file_slice)) : outcome (list (string * Z * Z)) :=
  match r with
  | Ok ss => Ok (map (fun s => (base_relative_path s, match bf_meta (fs_base s) with Some m => fm_size m | None => 0 end, match bf_meta (fs_base s) with Some m => fm_num_records m | None => 0 end)%Z) ss)
  | Err e => Err e
  | Panic => Panic
  end.
Ltac bx_asked t := eexists; eexists; split; [eapply ga_ok; [reflexivity|]; eapply sa_view; [vm_compute; reflexivity|vm_compute; reflexivity|vm_compute; reflexivity|vm_compute; reflexivity|];
  eapply vq_ok with (order := fun _ l => l);
  [reflexivity|eapply ll_finished with (fuel := 5%nat); [reflexivity|vm_compute; reflexivity|]; t; eapply star_step; [apply (ps_finish _ _ (Z.to_nat 10)); cbn; lia|]; apply star_refl|reflexivity|vm_compute; reflexivity]|reflexivity].
Fact bx_answer : exists c' r, bx_asks bx_objs [("city", "<", "zz")] c' r
  /\ bx_files r = Ok [("city=ams/f1_0-1-2_20240101000000000.parquet", 8, 2); ("city=rio/f2_0-1-3_20240101000000000.parquet", 3, 1)]%Z.
Proof. bx_asked ltac:(do 2 sx_one). Qed.
(** A data file with a fourth part in its name. *)
Definition bx_extra : list object := bx_objects (bx_props "6" []) [{| o_key := "data/t/city=rio/f3_0-1-4_20240101000000000_x.parquet"; o_data := "rio" |}].
Fact bx_extra_answer : exists c' r, bx_asks bx_extra [] c' r /\ r = Err EStorage.
Proof. bx_asked ltac:(do 2 sx_one). Qed.
