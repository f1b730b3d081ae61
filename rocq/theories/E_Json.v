(** Examples for C79 and C80: the texts of the commits of the table in E_Table. *)
From Verif Require Import Base Str M_Time M_Instant M_Timeline M_Utf8 M_FileGroup M_Builder M_Listing M_Expr M_Log M_Config M_Reader M_Table M_Json S_Json S_Torn E_Table L_Base L_Str L_Json.
Local Open Scope string_scope.

(** A map that keeps its entries in the order in which their keys first came. *)
Fixpoint put (k : string) (v : json) (m : list (string * json)) : list (string * json) :=
  match m with [] => [(k, v)] | (k', v') :: r => if String.eqb k k' then (k, v) :: r else (k', v') :: put k v r end.
Definition jx_collect (l : list (string * json)) : list (string * json) := fold_left (fun m e => put (fst e) (snd e) m) l [].
Definition jx_number (d : string) : option Z := Some (Z.of_nat (String.length d)).

Fact put_keys : forall k v m x, In x (map fst (put k v m)) <-> x = k \/ In x (map fst m).
Proof.
  induction m as [|[k' v'] m IH]; intros x; cbn [put map fst In]; [intuition|]. destruct (String.eqb_spec k k') as [ -> |]; cbn [map fst In]; [intuition congruence|]. rewrite IH. intuition.
Qed.
Fact put_nodup : forall k v m, NoDup (map fst m) -> NoDup (map fst (put k v m)).
Proof.
  induction m as [|[k' v'] m IH]; intros N; cbn [put]; [repeat constructor; intros []|]. cbn [map fst] in N. inversion N as [|? ? N1 N2]; subst.
  destruct (String.eqb_spec k k') as [ -> |D]; cbn [map fst]; [now constructor|]. constructor; [|now apply IH]. rewrite put_keys. intros [->|I]; [now elim D|now elim N1].
Qed.
Fact put_get : forall k v m x, jget x (put k v m) = if String.eqb x k then Some v else jget x m.
Proof.
  induction m as [|[k' v'] m IH]; intros x; cbn [put jget]; [reflexivity|]. destruct (String.eqb_spec k k') as [ -> |D]; cbn [jget].
  - destruct (String.eqb x k'); reflexivity.
  - rewrite IH. destruct (String.eqb_spec x k') as [ -> |]; [|reflexivity]. destruct (String.eqb_spec k' k); [congruence|reflexivity].
Qed.
Fact jx_is_map : is_map jx_collect.
Proof.
  assert (H : forall l m, NoDup (map fst m) -> NoDup (map fst (fold_left (fun m e => put (fst e) (snd e) m) l m)) /\
    forall k, jget k (fold_left (fun m e => put (fst e) (snd e) m) l m) = match last_member k l with Some v => Some v | None => jget k m end).
  { induction l as [|[k v] l IH]; intros m N; [split; [exact N|reflexivity]|]. cbn [fold_left fst snd last_member]. destruct (IH (put k v m) (put_nodup k v m N)) as [A B]. split; [exact A|].
    intros x. rewrite B, put_get. destruct (last_member x l); [reflexivity|]. destruct (String.eqb x k); reflexivity. }
  intros l. destruct (H l [] (NoDup_nil _)) as [A B]. split; [exact A|]. intros k. unfold jx_collect. rewrite B. now destruct (last_member k l).
Qed.

(** The commits of the table, with blanks, a new line, escapes and a member that nothing reads. *)
Definition jx_c1 : string :=
  "{ ""partitionToWriteStats"" : {""year=2024\/day=1"":[ {""fileId"":""f1"",""path"":""year=2024/day=1/f1_0-1-2_20240101000000000.parquet"",""fileId"":""f1""}," ++ String "010"
  (String "009" "{""fileId"":""f4"",""path"":""year=2024/day=1/f4_0-1-4_20240101000000000.parquet""}]} } ").
Definition jx_c3 : string :=
  "{""partitionToWriteStats"":{""year=2024/day=1"":[{""fileId"":""f1"",""path"":""year=2024/day=1/f1_0-7-8_20240103000000000.parquet""}]},""partitionToReplaceFileIds"":{""year=2024/day=1"":[""f4""]}}".
Fact jx_reads1 : parse_metadata jx_number jx_collect jx_c1 = Ok tx_md1.
Proof. vm_compute. reflexivity. Qed.
Fact jx_reads3 : parse_metadata jx_number jx_collect jx_c3 = Ok tx_md3.
Proof. vm_compute. reflexivity. Qed.

(** The replacecommit stops in the middle of its list of replaced file groups. *)
Definition jx_content (c3 : string) (path : string) : outcome string :=
  if String.eqb path ".hoodie/20240101000000000.commit" then Ok jx_c1
  else if String.eqb path ".hoodie/20240103000000000.replacecommit" then Ok c3 else Err EStorage.
Definition jx_store (c3 : string) : store unit :=
  {| st_json := fun p => let* d := jx_content c3 p in parse_metadata jx_number jx_collect d; st_schema := st_schema _ tx_store; st_files := st_files _ tx_store; st_dirs := st_dirs _ tx_store;
     st_meta := st_meta _ tx_store; st_parquet := st_parquet _ tx_store; st_bytes := st_bytes _ tx_store; st_open := st_open _ tx_store |}.
Fact jx_same : forall p, st_json _ (jx_store jx_c3) p = st_json _ tx_store p.
Proof.
  intros p. cbn. unfold jx_content, tx_json. destruct (String.eqb p ".hoodie/20240101000000000.commit"); [cbn [bind]; exact jx_reads1|].
  destruct (String.eqb p ".hoodie/20240103000000000.replacecommit"); [cbn [bind]; exact jx_reads3|reflexivity].
Qed.
Fact jx_unfinished : forall n, unfinished unit jx_number jx_collect (jx_store jx_c3) (jx_store (take n jx_c3)).
Proof.
  intros n. constructor; try reflexivity. exists (jx_content jx_c3), (jx_content (take n jx_c3)). split; [reflexivity|]. split; [reflexivity|].
  assert (TD : forall n s, s = take n s ++ drop n s).
  { induction n0 as [|k IH]; intros [|c s]; try reflexivity. cbn [take drop append]. now rewrite <- IH. }
  split; intros p; unfold jx_content.
  - intros d. destruct (String.eqb p ".hoodie/20240101000000000.commit"); [intros [= <-]; eexists; exact jx_reads1|].
    destruct (String.eqb p ".hoodie/20240103000000000.replacecommit"); [intros [= <-]; eexists; exact jx_reads3|discriminate].
  - destruct (String.eqb p ".hoodie/20240101000000000.commit"); [left; exists jx_c1, jx_c1, ""; repeat split; now rewrite app_nil_r_s|].
    destruct (String.eqb p ".hoodie/20240103000000000.replacecommit"); [left; exists jx_c3, (take n jx_c3), (drop n jx_c3); repeat split; apply TD|right; eexists; reflexivity].
Qed.
