(** C47: relative paths address objects of the table, and listed names can be read back. *)
From Verif Require Import Base Str M_Utf8 M_Expr S_Expr L_Base L_Str L_Expr M_FileGroup M_Storage S_Storage L_Storage.
Local Open Scope string_scope.

(** A relative path without tabs and line ends addresses the directory of the table followed by the
    names of the path; control characters make it an error.  Missing: tabs and line ends, see below. *)
Theorem C47_addressing_partial : forall base names rel ns, located base names -> plain rel -> utf8_valid rel = true -> path_names rel ns ->
  object_path base rel = if existsb has_control ns then Err EStorage else Ok (key_of (names ++ ns)).
Proof. exact object_path_exact. Qed.
Print Assumptions C47_addressing_partial.

(** Different names are different objects. *)
Theorem C47_distinct_partial : forall base names rel1 ns1 rel2 ns2 k1 k2, located base names -> plain rel1 -> plain rel2 -> utf8_valid rel1 = true -> utf8_valid rel2 = true ->
  path_names rel1 ns1 -> path_names rel2 ns2 -> object_path base rel1 = Ok k1 -> object_path base rel2 = Ok k2 -> (k1 = k2 <-> ns1 = ns2).
Proof. exact addressed_inj. Qed.
Print Assumptions C47_distinct_partial.

(** Listing a directory gives the names of the objects directly in it, each once. *)
Theorem C47_list_files_partial : forall keys base names sub ns, proper_keys keys -> located base names -> plain sub -> utf8_valid sub = true -> path_names sub ns -> existsb has_control ns = false ->
  exists l, list_file_names keys base sub = Ok l /\ (forall n, In n l <-> legal n /\ In (key_of (names ++ ns ++ [n])) keys) /\ (NoDup keys -> NoDup l).
Proof. exact list_files_exact. Qed.
Print Assumptions C47_list_files_partial.
Theorem C47_list_dirs_partial : forall keys base names sub ns, proper_keys keys -> located base names -> plain sub -> utf8_valid sub = true -> path_names sub ns -> existsb has_control ns = false ->
  exists l, list_dir_names keys base sub = Ok l /\ (forall n, In n l <-> legal n /\ exists rest, rest <> [] /\ Forall legal rest /\ In (key_of (names ++ ns ++ n :: rest)) keys) /\ NoDup l.
Proof. exact list_dirs_exact. Qed.
Print Assumptions C47_list_dirs_partial.

(** A listed name, joined to the directory that was listed, addresses the object that was listed. *)
Theorem C47_listed_read_partial : forall base names sub ns n, located base names -> plain sub -> utf8_valid sub = true -> path_names sub ns -> existsb has_control ns = false -> legal n ->
  object_path base (path_join sub n) = Ok (key_of (names ++ ns ++ [n])).
Proof. exact child_addressed. Qed.
Print Assumptions C47_listed_read_partial.

(** A trailing slash of the base URL makes no difference, and a base URL that was accepted never
    makes addressing panic, whatever the relative path. *)
Theorem C47_base_slash : forall parse uri u names, parse uri = Some u -> located u names -> exists v, parse_uri parse uri = Ok v /\ located v names.
Proof. exact parse_uri_located. Qed.
Print Assumptions C47_base_slash.
Theorem C47_never_panics : forall parse uri u rel, parse_uri parse uri = Ok u -> object_path u rel <> Panic.
Proof. exact never_panics. Qed.
Print Assumptions C47_never_panics.

(** Whatever the base URL and the relative path: an address is a list of names, without dot segments, empty names and
    control characters. *)
Theorem C47_names_only : forall base rel k, object_path base rel = Ok k -> exists names, Forall legal names /\ k = key_of names.
Proof.
  intros base rel k H. unfold object_path in H. destruct (join_url_segments base [rel]) as [u| |]; cbn [bind] in H; try discriminate H.
  unfold from_url_path in H. set (d := percent_decode (u_path u)) in *. destruct (utf8_valid d) eqn:V; [|discriminate H]. unfold parse_path in H.
  set (x := if starts_with "/" d then drop 1 d else d) in *. assert (VX : utf8_valid x = true).
  { unfold x. destruct (starts_with "/" d) eqn:S; [|exact V]. apply starts_with_spec in S as [r E]. rewrite E in V |- *. apply (utf8_cut "" r) in V. exact (proj2 V). }
  destruct x as [|c x']; [injection H as <-; exists []; split; [constructor|reflexivity]|]. set (y := String c x') in *.
  set (z := if ends_with "/" y then take (String.length y - 1) y else y) in *. assert (VZ : utf8_valid z = true).
  { unfold z. destruct (ends_with "/" y) eqn:S; [|exact VX]. apply ends_with_spec in S as [r E]. rewrite E in VX |- *. rewrite length_app_s. cbn [String.length]. rewrite Nat.add_sub. rewrite take_app. exact (proj1 (utf8_cut r "" VX)). }
  destruct (forallb _ _) eqn:F in H; [|discriminate H]. injection H as <-. exists (split "/" z). split; [|symmetry; apply split_join].
  pose proof (utf8_split z VZ) as U. pose proof (split_no_char "/" z) as P. rewrite Forall_forall in *. intros n I. rewrite forallb_forall in F. specialize (F n I). unfold part_ok in F.
  apply Bool.andb_true_iff in F as [F1 F]. apply Bool.andb_true_iff in F as [F F4]. apply Bool.andb_true_iff in F as [F2 F3]. apply Bool.negb_true_iff in F1, F2, F3, F4. apply String.eqb_neq in F1, F2, F3.
  repeat split; auto.
Qed.
Print Assumptions C47_names_only.
Example C47_names_only_case : object_path {| u_special := true; u_file := true; u_opaque := false; u_path := "/a/b/" |} "c/../%2e%2e/d" = Ok "a/b/c/%2e%2e/d"
  /\ object_path {| u_special := true; u_file := true; u_opaque := false; u_path := "/a/%2e%2e/b" |} "c" = Err EStorage.
Proof. split; vm_compute; reflexivity. Qed.

(** With a tab, a relative path leaves the directory of the table; and two different names are the
    same object. *)
Theorem C47_escape_refuted : exists base names rel k, located base names /\ utf8_valid rel = true /\ object_path base rel = Ok k
  /\ forall ns, k <> key_of (names ++ ns).
Proof.
  exists {| u_special := true; u_file := true; u_opaque := false; u_path := "/a/b" |}, ["a"; "b"], (String "." (String "009" ".")), "a".
  split; [|split; [reflexivity|split; [reflexivity|]]].
  - split; [reflexivity|]. split; [repeat constructor; discriminate|]. split; [discriminate|]. exists "/a/b". split; [apply encodes_self; reflexivity|]. split; [reflexivity|now left].
  - intros ns. destruct ns; discriminate.
Qed.
Print Assumptions C47_escape_refuted.
Theorem C47_collision_refuted : exists base names rel1 rel2 ns1 ns2 k, located base names /\ utf8_valid rel1 = true /\ utf8_valid rel2 = true
  /\ path_names rel1 ns1 /\ path_names rel2 ns2 /\ ns1 <> ns2 /\ object_path base rel1 = Ok k /\ object_path base rel2 = Ok k.
Proof.
  exists {| u_special := false; u_file := false; u_opaque := false; u_path := "/a" |}, ["a"], "xy", (String "x" (String "009" "y")), ["xy"], [String "x" (String "009" "y")], "a/xy".
  split; [|split; [reflexivity|split; [reflexivity|split; [|split; [|split; [discriminate|split; reflexivity]]]]]].
  - split; [reflexivity|]. split; [repeat constructor; discriminate|]. split; [discriminate|]. exists "/a". split; [apply encodes_self; reflexivity|]. split; [reflexivity|now left].
  - apply name_keep; [|constructor]. intros [X|[X|[X|[]]]]; discriminate.
  - apply name_keep; [|constructor]. intros [X|[X|[X|[]]]]; discriminate.
Qed.
Print Assumptions C47_collision_refuted.

(** ** The hypotheses are met *)
Definition ex_base : url := {| u_special := true; u_file := true; u_opaque := false; u_path := "/data/my%20table/" |}.
Example ex_located : located ex_base ["data"; "my table"].
Proof.
  split; [reflexivity|]. split; [repeat constructor; discriminate|]. split; [discriminate|]. exists "/data/my%20table". split; [|split; [reflexivity|now right]].
  change "/data/my%20table" with ("/data/my" ++ "%20table"). change (leading ["data"; "my table"]) with ("/data/my" ++ " table"). apply encodes_app; [apply encodes_self; reflexivity|].
  apply (enc_pct " " "2" "0" 2 0); try reflexivity. apply encodes_self. reflexivity.
Qed.
Example C47_case_names : path_names "a=1%/../b 2//f?.parquet" ["a=1%"; "b 2"; "f?.parquet"].
Proof.
  unfold path_names. cbn [split Ascii.eqb Bool.eqb]. repeat (first [apply no_names|apply name_skip; [cbn; tauto|]|apply name_keep; [cbn; intuition discriminate|]]).
Qed.
Example C47_case : object_path ex_base "a=1%/../b 2//f?.parquet" = Ok "data/my table/a=1%/b 2/f?.parquet".
Proof. rewrite (C47_addressing_partial ex_base ["data"; "my table"] _ ["a=1%"; "b 2"; "f?.parquet"] ex_located); [reflexivity| |reflexivity|exact C47_case_names]. repeat split. Qed.
Example C47_case_control : object_path ex_base (String "001" "x") = Err EStorage.
Proof. reflexivity. Qed.
Definition ex_keys : list string := ["data/my table/.hoodie/hoodie.properties"; "data/my table/p=1%/f.parquet"; "data/my table/p=1%/g h.parquet"; "data/my table/p=1%/q/r.parquet"; "data/my table 2/p=1%/x"].
Example ex_keys_proper : proper_keys ex_keys.
Proof.
  repeat constructor; [exists ["data"; "my table"; ".hoodie"; "hoodie.properties"]|exists ["data"; "my table"; "p=1%"; "f.parquet"]|exists ["data"; "my table"; "p=1%"; "g h.parquet"]|exists ["data"; "my table"; "p=1%"; "q"; "r.parquet"]|exists ["data"; "my table 2"; "p=1%"; "x"]];
    (split; [discriminate|split; [repeat constructor; discriminate|reflexivity]]).
Qed.
Example C47_case_list : list_file_names ex_keys ex_base "p=1%" = Ok ["f.parquet"; "g h.parquet"] /\ list_dir_names ex_keys ex_base "p=1%" = Ok ["q"]
  /\ list_dir_names ex_keys ex_base "" = Ok [".hoodie"; "p=1%"].
Proof. repeat split; vm_compute; reflexivity. Qed.
Example C47_case_sub : plain "p=1%" /\ path_names "p=1%" ["p=1%"] /\ existsb has_control ["p=1%"] = false /\ legal "g h.parquet".
Proof. repeat split; try discriminate. apply name_keep; [|constructor]. cbn. intuition discriminate. Qed.
Example C47_case_uri : exists v, parse_uri (fun _ => Some ex_base) "file:///data/my%20table/" = Ok v /\ located v ["data"; "my table"].
Proof. exact (C47_base_slash _ _ _ _ eq_refl ex_located). Qed.
