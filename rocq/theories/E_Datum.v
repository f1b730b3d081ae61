(** Records in Avro's binary form, for the examples of C77. *)
From Verif Require Import Base Str M_Utf8 M_Time M_Timeline M_FileGroup M_Listing M_Log M_Config M_Reader M_Table M_Avro M_Values M_Datum
  S_Time S_FileGroup S_Listing S_Log S_Reader S_Config S_Avro S_History S_Values S_Datum L_Str L_Base L_Reader L_Log L_Values L_Datum E_Avro E_History E_Values.
Local Open Scope string_scope.

(** A record with fields of many types, and its bytes. *)
Definition dx_schema : avro :=
  ScRecord [("flag", [], ScBoolean); ("count", [], ScLong); ("name", [], ScUnion [ScNull; ScString]); ("gone", [], ScUnion [ScNull; ScString]);
            ("ratio", [], ScFloat); ("kind", [], ScEnum ["A"; "B"; "C"]); ("hash", [], ScFixed 2); ("price", [], ScDecimal 10 2 None);
            ("tags", [], ScArray ScInt); ("map", [], ScMap ScLong)].
Definition dx_value : value :=
  AvRecord [("flag", AvBoolean true); ("count", AvLong (-300)); ("name", AvUnion 1 (AvString "hudi")); ("gone", AvUnion 0 AvNull);
            ("ratio", AvFloat 1065353216%N); ("kind", AvEnum 2 "C"); ("hash", AvFixed 2 "xy"); ("price", AvDecimal "12");
            ("tags", AvArray [AvInt 1; AvInt (-1); AvInt 64]); ("map", AvMap [("k", AvLong 5)])].
Fixpoint bytes_of (l : list N) : string := match l with [] => "" | n :: l => String (ascii_of_N n) (bytes_of l) end.
Definition dx_bytes : string :=
  bytes_of [1; 215; 4; 2; 8]%N ++ "hudi" ++ bytes_of [0; 0; 0; 128; 63; 4]%N ++ "xy" ++ bytes_of [4]%N ++ "12"
  ++ bytes_of [4; 2; 1; 1; 4; 128; 1; 0; 2; 2]%N ++ "k" ++ bytes_of [10; 0]%N.

Lemma number_of : forall z d n, long_range z -> zigzag z = n -> groups n d -> number z d.
Proof. intros z d n R <- G. now split. Qed.
(** The array is in two blocks, of two items and of one, the second one with its size. *)
Fact dx_encodes : encodes dx_schema dx_value dx_bytes.
Proof.
  apply en_record.
  apply (fl_cons _ _ _ _ (bytes_of [1]%N)); [apply (en_boolean true)|].
  apply (fl_cons _ _ _ _ (bytes_of [215; 4]%N)); [apply en_long; apply (number_of _ _ 599%N); [unfold long_range; lia|reflexivity|]|].
  { change (groups 599%N (String (ascii_of_N (128 + 599 mod 128)%N) (String (ascii_of_N 4%N) ""))). apply gr_more; [discriminate|]. now apply (gr_last 4%N). }
  apply (fl_cons _ _ _ _ (bytes_of [2; 8]%N ++ "hudi")).
  { apply (en_union _ 1 ScString _ (bytes_of [2]%N) (bytes_of [8]%N ++ "hudi")); [reflexivity|apply (number_of _ _ 2%N); [unfold long_range; lia|reflexivity|now apply (gr_last 2%N)]|].
    apply (en_string "hudi" (bytes_of [8]%N)); [reflexivity|]. split; [cbn; lia|]. apply (number_of _ _ 8%N); [unfold long_range; cbn; lia|reflexivity|now apply (gr_last 8%N)]. }
  apply (fl_cons _ _ _ _ (bytes_of [0]%N)).
  { apply (en_union _ 0 ScNull _ (bytes_of [0]%N) ""); [reflexivity|apply (number_of _ _ 0%N); [unfold long_range; lia|reflexivity|now apply (gr_last 0%N)]|constructor]. }
  apply (fl_cons _ _ _ _ (bytes_of [0; 0; 128; 63]%N)); [now apply (en_float 1065353216%N)|].
  apply (fl_cons _ _ _ _ (bytes_of [4]%N)).
  { apply en_enum; [reflexivity|unfold int_range; lia|]. apply (number_of _ _ 4%N); [unfold long_range; lia|reflexivity|now apply (gr_last 4%N)]. }
  apply (fl_cons _ _ _ _ "xy"); [apply (en_fixed "xy")|].
  apply (fl_cons _ _ _ _ (bytes_of [4]%N ++ "12")).
  { apply (en_decimal _ _ "12" (bytes_of [4]%N)). split; [cbn; lia|]. apply (number_of _ _ 4%N); [unfold long_range; cbn; lia|reflexivity|now apply (gr_last 4%N)]. }
  apply (fl_cons _ _ _ _ (bytes_of [4; 2; 1; 1; 4; 128; 1; 0]%N)).
  { apply en_array. apply (bl_block _ [AvInt 1; AvInt (-1)] (bytes_of [4]%N) (bytes_of [2; 1]%N) [AvInt 64] (bytes_of [1; 4; 128; 1; 0]%N)); [discriminate| | |].
    - split; [cbn; lia|]. apply (number_of _ _ 4%N); [unfold long_range; cbn; lia|reflexivity|now apply (gr_last 4%N)].
    - apply (it_cons _ _ (bytes_of [2]%N)); [apply en_int; [unfold int_range; lia|]; apply (number_of _ _ 2%N); [unfold long_range; lia|reflexivity|now apply (gr_last 2%N)]|].
      apply (it_cons _ _ (bytes_of [1]%N) _ ""); [apply en_int; [unfold int_range; lia|]; apply (number_of _ _ 1%N); [unfold long_range; lia|reflexivity|now apply (gr_last 1%N)]|constructor].
    - apply (bl_sized _ [AvInt 64] (bytes_of [1]%N) (bytes_of [4]%N) (bytes_of [128; 1]%N) [] (bytes_of [0]%N)); [discriminate|cbn; lia| | | |constructor].
      + apply (number_of _ _ 1%N); [unfold long_range; cbn; lia|reflexivity|now apply (gr_last 1%N)].
      + apply (number_of _ _ 4%N); [unfold long_range; cbn; lia|reflexivity|now apply (gr_last 4%N)].
      + apply (it_cons _ _ (bytes_of [128; 1]%N) _ ""); [apply en_int; [unfold int_range; lia|]; apply (number_of _ _ 128%N); [unfold long_range; lia|reflexivity|]|constructor].
        change (groups 128%N (String (ascii_of_N (128 + 128 mod 128)%N) (String (ascii_of_N 1%N) ""))). apply gr_more; [discriminate|]. now apply (gr_last 1%N). }
  apply (fl_cons _ _ _ _ (bytes_of [2; 2]%N ++ "k" ++ bytes_of [10; 0]%N) _ _ ""); [|constructor].
  apply en_map; [repeat constructor; intros []|].
  apply (eb_block _ [("k", AvLong 5)] (bytes_of [2]%N) (bytes_of [2]%N ++ "k" ++ bytes_of [10]%N) [] (bytes_of [0]%N)); [discriminate| | |constructor].
  - split; [cbn; lia|]. apply (number_of _ _ 2%N); [unfold long_range; cbn; lia|reflexivity|now apply (gr_last 2%N)].
  - apply (ey_cons _ _ _ (bytes_of [2]%N ++ "k") (bytes_of [10]%N) [] ""); [| |constructor].
    + apply (en_string "k" (bytes_of [2]%N)); [reflexivity|]. split; [cbn; lia|]. apply (number_of _ _ 2%N); [unfold long_range; cbn; lia|reflexivity|now apply (gr_last 2%N)].
    + apply en_long. apply (number_of _ _ 10%N); [unfold long_range; lia|reflexivity|now apply (gr_last 10%N)].
Qed.

(** The log records of E_Values are in this form. *)
Lemma dx_small : forall n, (n < 64)%nat -> number (Z.of_nat n) (vx_byte n).
Proof.
  intros n H. apply (number_of _ _ (N.of_nat (2 * n))); [unfold long_range; lia| |].
  - unfold zigzag. destruct (Z.ltb_spec (Z.of_nat n) 0); lia.
  - unfold vx_byte, ascii_of_nat. apply gr_last. lia.
Qed.
Lemma dx_text : forall s, (String.length s < 64)%nat -> utf8_valid s = true -> encodes ScString (AvString s) (vx_text s).
Proof. intros s L U. apply en_string; [assumption|]. split; [lia|]. now apply dx_small. Qed.
Lemma dx_some : forall s v d, encodes s v d -> encodes (vx_nullable s) (AvUnion 1 v) (vx_byte 1 ++ d).
Proof. intros s v d H. apply (en_union _ 1 s); [reflexivity|apply (dx_small 1); lia|assumption]. Qed.
Lemma dx_record : forall t s k ts, Forall (fun x => (String.length x < 64)%nat /\ utf8_valid x = true) [t; s; k] -> (ts < 64)%nat ->
  encodes (ScRecord vx_fields) (vx_record t s k ts) (vx_bytes t s k ts).
Proof.
  intros t s k ts F L. inversion F as [|? ? [Lt Ut] F1]; subst. inversion F1 as [|? ? [Ls Us] F2]; subst. inversion F2 as [|? ? [Lk Uk] _]; subst. apply en_record.
  replace (vx_bytes t s k ts) with ((vx_byte 1 ++ vx_text t) ++ (vx_byte 1 ++ vx_text s) ++ (vx_byte 1 ++ vx_text k) ++ (vx_byte 1 ++ vx_byte ts) ++ "")
    by (unfold vx_bytes; rewrite app_nil_r_s, !app_assoc_s; reflexivity).
  repeat (apply fl_cons; [apply dx_some; first [now apply dx_text|apply en_long; now apply dx_small]|]). constructor.
Qed.
Definition dx_logged := logged vx_parse encodes vx_dfs.
Fact dx_data_ok : forall v w t s k ts, v <> V0 -> w = {| w_version := v; w_header := [(InstantTime, t); (Schema, "{record}")]; w_content := CAvro [vx_bytes t s k ts]; w_footer := [] |} ->
  In t [hx_t1; hx_t2; hx_t3; hx_t4; hx_t5; hx_t6] -> Forall (fun x => (String.length x < 64)%nat /\ utf8_valid x = true) [t; s; k] -> (ts < 64)%nat ->
  In (vx_record t s k ts) [vx_a2; vx_a3; vx_b6] -> dx_logged w [vx_record t s k ts].
Proof.
  intros v w t s k ts Nv -> T F L I. assert (Lb : (String.length (vx_bytes t s k ts) < 300)%nat).
  { inversion F as [|? ? [Lt _] F1]; subst. inversion F1 as [|? ? [Ls _] F2]; subst. inversion F2 as [|? ? [Lk _] _]; subst. unfold vx_bytes, vx_text, vx_byte. rewrite !length_app_s. cbn [String.length]. lia. }
  split; cbn [w_version w_header w_content w_footer].
  - exact Nv.
  - split; [repeat constructor; cbn; intuition discriminate|]. intros k' x [E|[E|[]]]; injection E as <- <-; [|split; reflexivity]. repeat (destruct T as [ <- |T]; [split; reflexivity|]). destruct T.
  - split; [split; [constructor|intros k' x []]|]. reflexivity.
  - exists t. now left.
  - unfold len. cbn [put_content map glue fold_right]. unfold put_record. rewrite !length_app_s, !length_big. cbn [String.length]. lia.
  - intros ds [= <-]. split; [reflexivity|]. constructor; [unfold len; lia|constructor].
  - apply (wr_avro _ _ _ _ _ "{record}" vx_fields); [right; now left|reflexivity|reflexivity|constructor; [now apply dx_record|constructor]|]. apply vx_kept. intros x [ <- |[]]. exact I.
Qed.
Lemma dx_short : forall l, forallb (fun x => Nat.ltb (String.length x) 64 && utf8_valid x) l = true -> Forall (fun x => (String.length x < 64)%nat /\ utf8_valid x = true) l.
Proof. intros l H. rewrite forallb_forall in H. apply Forall_forall. intros x I. apply H in I. apply andb_prop in I as [A B]. split; [now apply Nat.ltb_lt|assumption]. Qed.
Fact dx_block2 : dx_logged vx_block2 [vx_a2].
Proof. apply (dx_data_ok V1 _ hx_t2 "3" "a" 2); [discriminate|reflexivity|cbn; tauto|now apply dx_short|lia|now left]. Qed.
Fact dx_block3 : dx_logged vx_block3 [vx_a3].
Proof. apply (dx_data_ok V1 _ hx_t3 "4" "a" 3); [discriminate|reflexivity|cbn; tauto|now apply dx_short|lia|right; now left]. Qed.
Fact dx_block6 : dx_logged vx_block6 [vx_b6].
Proof. apply (dx_data_ok V1 _ hx_t6 "5" "b" 6); [discriminate|reflexivity|cbn; tauto|now apply dx_short|lia|right; right; now left]. Qed.
Fact dx_undo : dx_logged (hx_undo hx_t4 hx_t3) [].
Proof. destruct vx_undo_ok as [A B C D E F G]. split; try assumption. constructor. Qed.
Fact dx_written_out : written_out vx_parse encodes vx_code vx_rank (st_parquet _ vx_store) (st_bytes _ vx_store) "parquet" "" "f" vx_dfs hx_listed vx_contents hx_group.
Proof.
  destruct vx_written_out as [A B C D E F G H I]. constructor; try assumption. intros m c L. destruct (G m c L) as [Gb Gw]. split; [exact Gb|]. intros w vs K.
  destruct (Gw w vs K) as [_ R]. split; [|exact R]. clear Gb Gw R. apply hx_log_of in L as [[ -> _]|[ -> _]].
  - rewrite vx_contents1 in K. destruct K as [[= <- <-]|[[= <- <-]|[[= <- <-]|[]]]]; [exact dx_block2|exact dx_block3|exact dx_undo].
  - rewrite vx_contents5 in K. destruct K as [[= <- <-]|[]]. exact dx_block6.
Qed.
Fact dx_log_ok : log_written vx_parse encodes hx_local (st_bytes _ vx_store) (read_range "utc" vx_options) "utc" vx_dfs (fm_name hx_log1, vx_contents (fm_name hx_log1)).
Proof.
  split; [reflexivity|]. intros x I. cbn [snd] in I. destruct vx_log_ok as [_ W]. destruct (W x I) as [_ R]. split; [|exact R]. clear W R.
  rewrite vx_contents1 in I. destruct I as [ <- |[ <- |[ <- |[]]]]; [exact dx_block2|exact dx_block3|exact dx_undo].
Qed.
Definition dx_reads (t : string) (rows : list (list cell)) : Prop := exists c',
  read_snapshot_as_of unit string (fun _ s => Some s) (fun a b => Some (scmp a b)) avro value vx_parse decode check_schema (to_batch vx_code vx_rank vx_cast) (fun _ => None)
    hx_local vx_store hx_table t [] [] c' (Ok [hx_batch rows]).
Fact dx_read4 : dx_reads hx_t4 [hx_a2; hx_b1]. Proof. hx_read. Qed.
Fact dx_read6 : dx_reads hx_t6 [hx_b6; hx_a2]. Proof. hx_read. Qed.

(** A block of format version 2, cut inside its only record. *)
Definition dx_block : wblock :=
  {| w_version := V2; w_header := [(InstantTime, hx_t2); (Schema, "{record}")]; w_content := CAvro [vx_bytes hx_t2 "3" "a" 2]; w_footer := [] |}.
Definition dx_cut : string := take 111 (put_log [dx_block]).
Definition dx_read (b : string) := read_all_blocks avro value record_batch vx_parse decode check_schema (to_batch vx_code vx_rank vx_cast) (fun _ => None) hx_local (up_to hx_t6 "utc") "utc" b.
Fact dx_block_ok : dx_logged dx_block [vx_a2].
Proof. apply (dx_data_ok V2 _ hx_t2 "3" "a" 2); [discriminate|reflexivity|cbn; tauto|now apply dx_short|lia|now left]. Qed.
