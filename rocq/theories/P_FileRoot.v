(** C47, tables at the root of the file system. *)
From Verif Require Import Base Str M_Utf8 M_Expr S_Expr L_Base L_Str L_Expr M_FileGroup M_Storage S_Storage L_Storage.
Local Open Scope string_scope.

(** Names that begin like a drive of Windows: a letter, and a colon or a bar. *)
Definition drive_name (n : string) : Prop := exists a b r, n = String a (String b r)
  /\ In a (list_ascii_of_string "abcdefghijklmnopqrstuvwxyzABCDEFGHIJKLMNOPQRSTUVWXYZ") /\ (b = ":" \/ b = "|")%char.

Lemma alpha_letter : forall a, is_alpha a = true -> In a (list_ascii_of_string "abcdefghijklmnopqrstuvwxyzABCDEFGHIJKLMNOPQRSTUVWXYZ").
Proof. intros [[] [] [] [] [] [] [] []] H; try discriminate H; cbn; tauto. Qed.
Lemma encode_char_cases : forall sp c, encode_char sp c = String c "" \/ exists x y, encode_char sp c = String "%" (String x (String y "")).
Proof. intros sp c. unfold encode_char. destruct (to_encode sp c); eauto. Qed.
Lemma push_more : forall u s y k, plain s -> (3 <= String.length y)%nat -> push_chars u (String "/" y, k) s = (String "/" (y ++ enc (u_special u) s), k).
Proof.
  intros u s. induction s as [|c r IH]; intros y k PL L; cbn [push_chars enc]; [now rewrite app_nil_r_s|]. destruct PL as [T PL]. unfold push_char. rewrite T. cbn [fst snd drop].
  assert (D : is_normalized_drive y = false) by (destruct y as [|? [|? [|? ?]]]; cbn in L; try lia; reflexivity). rewrite D, Bool.andb_false_r. cbn [fst snd append].
  rewrite IH; [now rewrite app_assoc_s|exact PL|rewrite length_app_s; lia].
Qed.
Lemma push_first : forall u s, plain s -> ~ drive_name s -> push_chars u ("/", 1%nat) s = (String "/" (enc (u_special u) s), 1%nat).
Proof.
  intros u [|a [|b r]] PL ND; [reflexivity| |].
  - destruct PL as [T _]. cbn [push_chars enc]. unfold push_char. rewrite T. cbn [fst snd drop is_normalized_drive]. rewrite Bool.andb_false_r. cbn [fst snd append]. now rewrite app_nil_r_s.
  - destruct PL as [T1 [T2 PL]]. cbn [push_chars enc]. unfold push_char at 2. rewrite T1. cbn [fst snd drop is_normalized_drive]. rewrite Bool.andb_false_r. cbn [fst snd append].
    unfold push_char. rewrite T2. cbn [fst snd drop].
    assert (D1 : is_normalized_drive (encode_char (u_special u) a) = false) by (destruct (encode_char_cases (u_special u) a) as [ -> |[x [y -> ]]]; reflexivity).
    rewrite D1, Bool.andb_false_r. cbn [fst snd append].
    destruct r as [|c r].
    + cbn [push_chars enc]. now rewrite app_nil_r_s.
    + destruct PL as [T3 PL]. cbn [push_chars]. unfold push_char. rewrite T3. cbn [fst snd drop].
      assert (D2 : is_normalized_drive (encode_char (u_special u) a ++ encode_char (u_special u) b) = false).
      { destruct (encode_char_cases (u_special u) a) as [ -> |[x [y -> ]]]; destruct (encode_char_cases (u_special u) b) as [ -> |[x' [y' -> ]]]; try reflexivity. cbn [append is_normalized_drive].
        apply Bool.not_true_is_false. intros H. apply Bool.andb_true_iff in H as [H1 H2]. apply Ascii.eqb_eq in H2. apply ND. exists a, b, (String c r). split; [reflexivity|]. split; [now apply alpha_letter|now left]. }
      rewrite D2, Bool.andb_false_r. cbn [fst snd append]. rewrite push_more; [cbn [enc]; now rewrite !app_assoc_s|exact PL|].
      rewrite !length_app_s. assert (E : forall x, (1 <= String.length (encode_char (u_special u) x))%nat) by (intros x; destruct (encode_char_cases (u_special u) x) as [ -> |[? [? -> ]]]; cbn; lia).
      pose proof (E a). pose proof (E b). pose proof (E c). lia.
Qed.
Lemma parse_first : forall u seg, plain seg -> ~ In seg [""; "."; ".."] -> ~ drive_name seg -> parse_segment u "/" seg = "/" ++ enc (u_special u) seg.
Proof.
  intros u seg PL N ND. unfold parse_segment. cbn [String.length]. rewrite (push_first u seg PL ND). cbn [drop]. pose proof (decode_encodes _ _ (enc_encodes (u_special u) seg)) as D.
  destruct (existsb (String.eqb (enc (u_special u) seg)) [".."; "%2e%2e"; "%2e%2E"; "%2E%2e"; "%2E%2E"; "%2e."; "%2E."; ".%2e"; ".%2E"]) eqn:E1.
  { exfalso. apply existsb_eqb in E1. apply N. right. right. left. rewrite <- D. repeat (destruct E1 as [ <- |E1]; [reflexivity|]). destruct E1. }
  destruct (existsb (String.eqb (enc (u_special u) seg)) ["."; "%2e"; "%2E"]) eqn:E2.
  { exfalso. apply existsb_eqb in E2. apply N. right. left. rewrite <- D. repeat (destruct E2 as [ <- |E2]; [reflexivity|]). destruct E2. }
  assert (DR : is_drive (enc (u_special u) seg) = false); [|rewrite DR, Bool.andb_false_r; reflexivity].
  destruct seg as [|a [|b r]]; [reflexivity| |]; cbn [enc].
  - destruct (encode_char_cases (u_special u) a) as [ -> |[x [y -> ]]]; reflexivity.
  - destruct (encode_char_cases (u_special u) a) as [ -> |[x [y -> ]]]; destruct (encode_char_cases (u_special u) b) as [ -> |[x' [y' -> ]]]; try reflexivity. cbn [append is_drive].
    destruct (enc (u_special u) r) eqn:ER; [|reflexivity]. apply Bool.not_true_is_false. intros H. apply Bool.andb_true_iff in H as [H1 H2]. apply ND. exists a, b, r. split; [reflexivity|]. split; [now apply alpha_letter|].
    apply Bool.orb_true_iff in H2 as [H2|H2]; apply Ascii.eqb_eq in H2; auto.
Qed.
Lemma extend_first : forall u segs ns, names_of segs ns -> Forall plain segs -> (forall n r, ns = n :: r -> ~ drive_name n) ->
  extend_path u "/" (filter nonempty segs) = match ns with [] => "/" | _ => enc_all (u_special u) ns end.
Proof.
  intros u segs ns H. induction H as [|p ps ns I H IH|p ps ns I H IH]; intros PL ND; cbn [filter]; [reflexivity| |]; inversion PL as [|? ? PP PS]; subst.
  - unfold nonempty at 1. destruct I as [ <- |[ <- |[ <- |[]]]]; cbn [String.eqb Ascii.eqb Bool.eqb negb extend_path orb]; now apply IH.
  - unfold nonempty at 1. destruct (String.eqb_spec p "") as [E0|E0]; [exfalso; apply I; rewrite E0; cbn; auto|]. cbn [negb extend_path].
    destruct (String.eqb_spec p ".") as [E1|E1]; [exfalso; apply I; rewrite E1; cbn; auto|]. destruct (String.eqb_spec p "..") as [E2|E2]; [exfalso; apply I; rewrite E2; cbn; auto|]. cbn [orb String.length Nat.eqb].
    pose proof (enc_nonempty (u_special u) p E0) as LE. rewrite parse_first; [|exact PP|exact I|exact (ND p ns eq_refl)].
    rewrite (extend_path_enc u ps ns H PS); [cbn [enc_all fold_right]; now rewrite app_assoc_s| |intros _]; rewrite length_app_s; cbn; lia.
Qed.

(** A [file] URL of the root directory: a relative path addresses its names, unless the first name begins like a drive
    of Windows. *)
Theorem C47_file_root_partial : forall base rel ns, u_opaque base = false -> u_path base = "/" -> plain rel -> utf8_valid rel = true -> path_names rel ns ->
  (forall n r, ns = n :: r -> ~ drive_name n) ->
  object_path base rel = if existsb has_control ns then Err EStorage else Ok (key_of ns).
Proof.
  intros base rel ns OP UP PL U PN ND. pose proof (path_names_named _ _ U PN) as F. unfold object_path, join_url_segments. rewrite UP.
  cbn [ends_with starts_with rev_str rev_append_str Ascii.eqb Bool.eqb andb]. rewrite OP. cbn [bind foldM pop_segment]. cbn [u_opaque with_path]. rewrite OP. cbn [bind u_path with_path].
  change (fun s : string => negb (s =? "")) with nonempty. rewrite (extend_first _ _ ns PN (plain_split _ PL) ND). unfold from_url_path.
  destruct ns as [|n ns']; [reflexivity|]. cbn [u_special with_path]. set (ns := n :: ns') in *. rewrite (decode_encodes _ _ (encodes_all (u_special base) ns)). rewrite utf8_leading by exact F. rewrite parse_key; [reflexivity|exact F|discriminate].
Qed.
Print Assumptions C47_file_root_partial.
Definition root_url : url := {| u_special := true; u_file := true; u_opaque := false; u_path := "/" |}.
Example C47_file_root_case : path_names "ab/c:d/e|" ["ab"; "c:d"; "e|"] /\ (forall n r, ["ab"; "c:d"; "e|"] = n :: r -> ~ drive_name n) /\ object_path root_url "ab/c:d/e|" = Ok "ab/c:d/e|".
Proof.
  split; [unfold path_names; cbn; repeat (apply name_keep; [cbn; intros H; repeat destruct H as [H|H]; try discriminate H; exact H|]); apply no_names|]. split; [|reflexivity].
  intros n r [= <- _] [a [b [r' [[= <- <- _] [_ [H|H]]]]]]; discriminate H.
Qed.

(** A first name that begins like a drive is another object: the name is cut after the colon, or the bar becomes one. *)
Theorem C47_drive_refuted : exists base, u_opaque base = false /\ u_path base = "/"
  /\ (path_names "p:1" ["p:1"] /\ object_path base "p:1" = Ok (key_of ["p:"; "1"]))
  /\ (path_names "p|" ["p|"] /\ object_path base "p|" = Ok (key_of ["p:"]) /\ object_path base "p:" = Ok (key_of ["p:"])).
Proof.
  exists root_url. assert (K : forall n, ~ In n [""; "."; ".."] -> split "/" n = [n] -> path_names n [n]) by (intros n N S; unfold path_names; rewrite S; apply name_keep; [exact N|apply no_names]).
  repeat split; try reflexivity; apply K; try reflexivity; intros H; repeat destruct H as [H|H]; try discriminate H; exact H.
Qed.
Print Assumptions C47_drive_refuted.

(** Another URL of a root directory, whose names are not drives. *)
Definition other_root : url := {| u_special := true; u_file := false; u_opaque := false; u_path := "/" |}.
Lemma other_located : located other_root [].
Proof. split; [reflexivity|]. split; [constructor|]. split; [discriminate|]. exists "". split; [constructor|]. split; [reflexivity|now right]. Qed.
Lemma as_other : forall base rel ns, u_opaque base = false -> u_path base = "/" -> plain rel -> utf8_valid rel = true -> path_names rel ns ->
  (forall n r, ns = n :: r -> ~ drive_name n) -> object_path base rel = object_path other_root rel.
Proof. intros base rel ns OP UP PL U PN ND. rewrite (C47_file_root_partial base rel ns OP UP PL U PN ND). symmetry. exact (object_path_exact other_root [] rel ns other_located PL U PN). Qed.

(** Different names are different objects. *)
Theorem C47_file_root_distinct_partial : forall base rel1 ns1 rel2 ns2 k1 k2, u_opaque base = false -> u_path base = "/" -> plain rel1 -> plain rel2 -> utf8_valid rel1 = true -> utf8_valid rel2 = true ->
  path_names rel1 ns1 -> path_names rel2 ns2 -> (forall n r, ns1 = n :: r -> ~ drive_name n) -> (forall n r, ns2 = n :: r -> ~ drive_name n) ->
  object_path base rel1 = Ok k1 -> object_path base rel2 = Ok k2 -> (k1 = k2 <-> ns1 = ns2).
Proof.
  intros base rel1 ns1 rel2 ns2 k1 k2 OP UP P1 P2 U1 U2 N1 N2 D1 D2. rewrite (as_other base rel1 ns1 OP UP P1 U1 N1 D1), (as_other base rel2 ns2 OP UP P2 U2 N2 D2). intros H1 H2.
  exact (addressed_inj other_root [] rel1 ns1 rel2 ns2 k1 k2 other_located P1 P2 U1 U2 N1 N2 H1 H2).
Qed.
Print Assumptions C47_file_root_distinct_partial.
Example C47_file_root_distinct_case : object_path root_url "ab/c%3Ad" = Ok "ab/c%3Ad" /\ object_path root_url "ab//./c:d" = Ok "ab/c:d" /\ object_path root_url "ab/c:d" = Ok "ab/c:d".
Proof. repeat split; vm_compute; reflexivity. Qed.

(** Listing at the root and below it, and reading back what was listed. *)
Theorem C47_file_root_lists_partial : forall keys base sub ns, proper_keys keys -> u_opaque base = false -> u_path base = "/" -> plain sub -> utf8_valid sub = true -> path_names sub ns ->
  (forall n r, ns = n :: r -> ~ drive_name n) -> existsb has_control ns = false ->
  (exists l, list_file_names keys base sub = Ok l /\ (forall n, In n l <-> legal n /\ In (key_of (ns ++ [n])) keys) /\ (NoDup keys -> NoDup l))
  /\ (exists l, list_dir_names keys base sub = Ok l /\ (forall n, In n l <-> legal n /\ exists rest, rest <> [] /\ Forall legal rest /\ In (key_of (ns ++ n :: rest)) keys) /\ NoDup l).
Proof.
  intros keys base sub ns P OP UP PL U PN ND NC. unfold list_file_names, list_dir_names. rewrite (as_other base sub ns OP UP PL U PN ND). split.
  - exact (list_files_exact keys other_root [] sub ns P other_located PL U PN NC).
  - exact (list_dirs_exact keys other_root [] sub ns P other_located PL U PN NC).
Qed.
Print Assumptions C47_file_root_lists_partial.
Theorem C47_file_root_read_partial : forall base sub ns n, u_opaque base = false -> u_path base = "/" -> plain sub -> utf8_valid sub = true -> path_names sub ns ->
  existsb has_control ns = false -> legal n -> (forall m r, (ns ++ [n])%list = m :: r -> ~ drive_name m) ->
  object_path base (path_join sub n) = Ok (key_of (ns ++ [n])).
Proof.
  intros base sub ns n OP UP PL U PN NC LN ND. transitivity (object_path other_root (path_join sub n)); [|exact (child_addressed other_root [] sub ns n other_located PL U PN NC LN)]. apply (as_other base _ (ns ++ [n])); [exact OP|exact UP| | |now apply child_names|exact ND].
  - pose proof LN as X. apply legal_named in X as [_ X]. apply control_plain in X. destruct (path_join_cases sub n) as [ -> |[ -> | -> ]]; auto using plain_app. apply plain_app; [exact PL|]. split; [reflexivity|exact X].
  - assert (X : utf8_valid n = true) by apply LN. destruct (path_join_cases sub n) as [ -> |[ -> | -> ]]; auto using utf8_app_true.
Qed.
Print Assumptions C47_file_root_read_partial.
Example C47_file_root_lists_case : proper_keys ["ab/c:d"; "ab/x/y"; "z"] /\ list_file_names ["ab/c:d"; "ab/x/y"; "z"] root_url "ab" = Ok ["c:d"] /\ list_dir_names ["ab/c:d"; "ab/x/y"; "z"] root_url "ab" = Ok ["x"]
  /\ list_file_names ["ab/c:d"; "ab/x/y"; "z"] root_url "" = Ok ["z"] /\ object_path root_url (path_join "ab" "c:d") = Ok "ab/c:d".
Proof.
  split; [|repeat split; vm_compute; reflexivity].
  repeat constructor; [exists ["ab"; "c:d"]|exists ["ab"; "x"; "y"]|exists ["z"]]; (split; [discriminate|]); (split; [|reflexivity]); repeat constructor; try reflexivity; discriminate.
Qed.

(** At the root, a listed name that begins like a drive is not the object that is read. *)
Theorem C47_drive_listed_refuted : exists keys n k, proper_keys keys /\ list_file_names keys root_url "" = Ok [n] /\ object_path root_url (path_join "" n) = Ok k /\ ~ In k keys.
Proof.
  exists ["p:1"], "p:1", "p:/1". split; [|split; [vm_compute; reflexivity|split; [vm_compute; reflexivity|intros [H|[]]; discriminate H]]].
  repeat constructor. exists ["p:1"]. split; [discriminate|]. split; [|reflexivity]. repeat constructor; try reflexivity; discriminate.
Qed.
Print Assumptions C47_drive_listed_refuted.

(** What the statements about addressing call legal names and plain paths, in terms of their characters. *)
Definition occurs (c : ascii) (s : string) : Prop := exists a b, s = a ++ String c b.
Lemma occurs_cons : forall c x r, occurs c (String x r) <-> c = x \/ occurs c r.
Proof.
  intros c x r. split.
  - intros [a [b E]]. destruct a as [|y a]; cbn in E; injection E as E1 E2; [left; congruence|right; exists a, b; exact E2].
  - intros [ -> |[a [b -> ]]]; [exists "", r; reflexivity|exists (String x a), b; reflexivity].
Qed.
Lemma occurs_nil : forall c, ~ occurs c "".
Proof. intros c [[|? ?] [b E]]; discriminate E. Qed.
Lemma control_spec : forall s, has_control s = true <-> exists c, occurs c s /\ ((N_of_ascii c < 32)%N \/ N_of_ascii c = 127%N).
Proof.
  induction s as [|x r IH]; cbn [has_control].
  - split; [discriminate|]. intros [c [O _]]. now apply occurs_nil in O.
  - rewrite Bool.orb_true_iff, IH. unfold is_control. rewrite Bool.orb_true_iff, N.ltb_lt, N.eqb_eq. split.
    + intros [H|[c [O H]]]; [exists x|exists c]; (split; [apply occurs_cons; auto|exact H]).
    + intros [c [O H]]. apply occurs_cons in O as [ -> |O]; [now left|right; eauto].
Qed.
Theorem C47_characters : forall s,
  (has_control s = true <-> exists c, occurs c s /\ ((N_of_ascii c < 32)%N \/ N_of_ascii c = 127%N))
  /\ (plain s <-> ~ occurs "009" s /\ ~ occurs "010" s /\ ~ occurs "013" s)
  /\ (has_char "/" s = true <-> occurs "/" s).
Proof.
  intros s. split; [apply control_spec|]. split.
  - induction s as [|x r IH]; cbn [plain]; [split; [intros _; repeat split; apply occurs_nil|auto]|]. rewrite IH, !occurs_cons.
    unfold tab_or_newline. cbn [existsb]. rewrite !Bool.orb_false_iff, !Ascii.eqb_neq. intuition congruence.
  - induction s as [|x r IH]; cbn [has_char]; [split; [discriminate|intros O; now apply occurs_nil in O]|]. rewrite Bool.orb_true_iff, IH, occurs_cons, Ascii.eqb_eq. intuition congruence.
Qed.
Print Assumptions C47_characters.
Example C47_characters_case : has_control "ab" = false /\ has_control (String "a" (String "127" "")) = true /\ plain "a b" /\ ~ plain (String "a" (String "009" "")).
Proof. repeat split; try reflexivity. intros [_ [H _]]. discriminate H. Qed.
