(** C95: text is UTF-8 and nothing else. *)
From Verif Require Import Base Str M_Utf8 M_Time M_Instant M_Timeline M_Builder M_Metadata M_Expr M_Storage M_Log M_Config M_Avro M_Datum M_Json S_Log S_Metadata S_Json S_Utf8 S_Text
  L_Base L_Str L_Log L_Json L_Utf8 L_Text E_Json P_Log P_Metadata.
Local Open Scope string_scope.

(** The test for text accepts the bytes of the characters of Unicode and nothing else, and the bytes determine the characters:
    no overlong forms, no surrogates, nothing above U+10FFFF, no stray bytes. *)
Theorem C95_text : forall s,
  (utf8_valid s = true <-> is_text s)
  /\ (forall l l', Forall scalar l -> Forall scalar l' -> s = characters l -> s = characters l' -> l = l').
Proof. intros s. split; [apply utf8_valid_spec|]. intros l l' F F' -> E. now apply characters_inj. Qed.
Print Assumptions C95_text.
(** e with an acute accent, the euro sign and a treble clef; a zero in two bytes, a surrogate, too large a number, half a character. *)
Example C95_text_case :
  is_text (characters [233; 8364; 119070]%N)
  /\ characters [233; 8364; 119070]%N = fold_right (fun n r => String (ascii_of_N n) r) "" [195; 169; 226; 130; 172; 240; 157; 132; 158]%N
  /\ Forall (fun l => ~ is_text (fold_right (fun n r => String (ascii_of_N n) r) "" l)) [[192; 128]; [237; 160; 128]; [244; 144; 128; 128]; [195]; [128]; [224; 159; 191]]%N.
Proof.
  split; [exists [233; 8364; 119070]%N; split; [|reflexivity]; repeat constructor; unfold scalar; lia|]. split; [vm_compute; reflexivity|].
  repeat constructor; intros T; apply utf8_valid_spec in T; vm_compute in T; discriminate T.
Qed.

(** A properties file can be read exactly if it is text. *)
Theorem C95_properties : forall separators data,
  (is_text data -> exists options, parse_data separators data = Ok options)
  /\ (~ is_text data -> parse_data separators data = Err EConfigParse).
Proof.
  intros separators data. unfold parse_data. pose proof (parse_lines_valid separators (lines data) []) as H. rewrite lines_valid in H.
  destruct (utf8_valid data) eqn:E; split; intros T; auto.
  - elim T. now apply utf8_valid_spec.
  - apply utf8_valid_spec in T. congruence.
Qed.
Print Assumptions C95_properties.
Example C95_properties_case :
  parse_data "=" ("hoodie.table.name=" ++ utf8 233 ++ String "013" (String "010" "x=1")) = Ok [("hoodie.table.name", utf8 233); ("x", "1")]
  /\ parse_data "=" ("hoodie.table.name=" ++ String "233" (String "010" "x=1")) = Err EConfigParse.
Proof. split; vm_compute; reflexivity. Qed.

(** The metadata of an instant as a string: the bytes of its file, if they are text. *)
Theorem C95_metadata : forall read i bytes, read (instant_file i) = Ok bytes ->
  (is_text bytes -> get_instant_metadata_in_json read i = Ok bytes)
  /\ (~ is_text bytes -> get_instant_metadata_in_json read i = Err ETimeline).
Proof.
  intros read i bytes R. unfold get_instant_metadata_in_json. change (instant_relative_path i) with (instant_file i). rewrite R. cbn [bind].
  destruct (utf8_valid bytes) eqn:E; split; intros T; try reflexivity.
  - elim T. now apply utf8_valid_spec.
  - apply utf8_valid_spec in T. congruence.
Qed.
Print Assumptions C95_metadata.
(** All strings in metadata that was parsed are text, also those that were written with escapes. *)
Theorem C95_metadata_strings : forall number_of collect d m x, is_map collect -> parse_metadata number_of collect d = Ok m -> json_string x (JObj m) -> is_text x.
Proof.
  intros number_of collect d m x MP H S. unfold parse_metadata in H. destruct (from_slice number_of collect d) as [m'|] eqn:E; [|discriminate]. injection H as ->.
  apply slice_text in E as [w [o [w' [_ [_ [T _]]]]]]. now apply (json_fine _ _ MP _ _ _ T x).
Qed.
Print Assumptions C95_metadata_strings.
Example C95_metadata_case :
  let i := {| i_timestamp := "20240101000000000"; i_action := Commit; i_state := Completed; i_epoch := 1704067200000 |} in
  get_instant_metadata_in_json (fun _ => Ok (utf8 8364)) i = Ok (utf8 8364) /\ get_instant_metadata_in_json (fun _ => Ok (String "128" "")) i = Err ETimeline
  /\ is_map jx_collect /\ parse_metadata jx_number jx_collect "{""k"":""€\ud834\udd1e""}" = Ok [("k", JStr (characters [8364; 119070]%N))]
  /\ parse_metadata jx_number jx_collect "{""k"":""\ud834""}" = Err ETimeline.
Proof. cbv zeta. split; [vm_compute; reflexivity|]. split; [vm_compute; reflexivity|]. split; [exact jx_is_map|]. split; vm_compute; reflexivity. Qed.

(** The values of the headers and footers of log blocks that were read are text; a block with a header value that is not is an error. *)
Theorem C95_log : forall avro_schema avro_value batch parse_schema datum check_schema to_batch parquet local_to_utc range tz,
  let read := read_all_blocks avro_schema avro_value batch parse_schema datum check_schema to_batch parquet local_to_utc range tz in
  (forall bytes blocks b k v, read bytes = Ok blocks -> In b blocks -> In (k, v) (lb_header b) \/ In (k, v) (lb_footer b) -> is_text v)
  /\ (forall (blocks : list (wblock * list batch)) version type pre key value post n rest,
       (forall x, In x blocks -> wf_block avro_schema avro_value batch parse_schema datum check_schema to_batch parquet (fst x) (snd x)) ->
       (forall x, In x blocks -> exists b, range_says local_to_utc range tz (fst x) b) ->
       version <> V0 -> wf_metadata pre -> ~ is_text value -> (len value < 2 ^ 32)%N ->
       (N.of_nat (List.length (pre ++ (key, value) :: post)%list) < 2 ^ 32)%N ->
       read (put_log (map fst blocks) ++ "#HUDI#" ++ big_endian 8 n ++ big_endian 4 (version_number version) ++ big_endian 4 (type_number type)
         ++ put_metadata (pre ++ (key, value) :: post)%list ++ rest) = Err EUtf8).
Proof.
  intros avro_schema avro_value batch parse_schema datum check_schema to_batch parquet local_to_utc range tz. cbv zeta. split.
  - intros bytes blocks b k v H I J. destruct (blocks_text _ _ _ _ _ _ _ _ _ _ _ _ _ _ H I) as [F G]. destruct J as [J|J]; [now apply (F k)|now apply (G k)].
  - intros blocks version type pre key value post n rest W R V P U L N. apply C27_bad_header_rejected; auto.
    destruct (utf8_valid value) eqn:E; [|reflexivity]. elim U. now apply utf8_valid_spec.
Qed.
Print Assumptions C95_log.
Example C95_log_case : ex_read ex_range "UTC"
  (put_log (map fst ex_blocks) ++ "#HUDI#" ++ big_endian 8 30 ++ big_endian 4 1 ++ big_endian 4 0
    ++ put_metadata ([(InstantTime, t3)] ++ (Schema, String "237" (String "160" (String "128" ""))) :: [])%list ++ "x") = Err EUtf8.
Proof.
  refine (proj2 (C95_log _ _ _ _ _ _ _ _ _ ex_range "UTC") ex_blocks V1 Command _ _ _ _ _ _ _ _ _ _ _ _ _); [exact ex_blocks_wf| | | | | |].
  - intros x Hx. exists true. now apply ex_says.
  - discriminate.
  - ex_meta.
  - intros T. apply utf8_valid_spec in T. vm_compute in T. discriminate T.
  - reflexivity.
  - reflexivity.
Qed.

(** All strings in an Avro datum that was read, and all keys of its maps, are text, for every schema. *)
Theorem C95_avro : forall schema bytes v rest x, decode schema bytes = Some (v, rest) -> avro_string x v -> is_text x.
Proof. intros schema bytes v rest x H. exact (decode_fine _ _ _ _ H x). Qed.
Print Assumptions C95_avro.
Example C95_avro_case :
  decode (ScMap (ScUnion [ScNull; ScString])) (fold_right (fun n r => String (ascii_of_N n) r) "" [2; 4; 195; 169; 2; 6; 226; 130; 172; 0; 7]%N)
    = Some (AvMap [(utf8 233, AvUnion 1 (AvString (utf8 8364)))], String "007" "")
  /\ decode ScString (fold_right (fun n r => String (ascii_of_N n) r) "" [6; 237; 160; 128]%N) = None.
Proof. split; vm_compute; reflexivity. Qed.

(** Partition paths with escapes: if what the escapes stand for is not text, the path has no values, and the partition is not left out. *)
Theorem C95_path : forall dtype value cast cmp (p : pruner dtype value) path, pr_url _ _ p = true ->
  (forall segments, parse_segments dtype value cast p path = Ok segments -> is_text (percent_decode path))
  /\ (~ is_text (percent_decode path) -> parse_segments dtype value cast p path = Err EUtf8 /\ should_include dtype value cast cmp p path = true).
Proof.
  intros dtype value cast cmp p path U. unfold should_include, parse_segments. rewrite U. cbv zeta.
  destruct (utf8_valid (percent_decode path)) eqn:E; (split; [intros segments H|intros N]).
  - now apply utf8_valid_spec.
  - elim N. now apply utf8_valid_spec.
  - discriminate H.
  - split; reflexivity.
Qed.
Print Assumptions C95_path.
Example C95_path_case : is_text (percent_decode "city=%C3%A9") /\ ~ is_text (percent_decode "city=%E9").
Proof. split; [apply utf8_valid_spec; vm_compute; reflexivity|]. intros T. apply utf8_valid_spec in T. vm_compute in T. discriminate T. Qed.
