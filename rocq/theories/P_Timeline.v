(** Property theorems C01-C08 and C53-C54: instants, timestamps, timeline, windows. *)
From Verif Require Import Base Str M_Time M_Instant M_Timeline S_Time S_Timeline L_Time L_Instant L_Timeline.
From Coq Require Import Sorting.Sorted.
Local Open Scope string_scope.

(** Concrete values for the examples. *)
Definition no_local : ndt -> option ndt := fun _ => None.
Definition c_a := {| c_year := 2024; c_month := 2; c_day := 29; c_hour := 23; c_min := 59; c_sec := 59; c_ms := Some 999%Z |}.
Definition c_b := {| c_year := 2024; c_month := 3; c_day := 1; c_hour := 0; c_min := 0; c_sec := 0; c_ms := None |}.
Lemma valid_a : valid_civil c_a.
Proof.
  repeat split; cbn; try lia. exists 29%Z. split; [|lia]. constructor. split; [exists 506%Z; lia|].
  left. intros [k Hk]. lia.
Qed.
Lemma valid_b : valid_civil c_b.
Proof. repeat split; cbn; try lia. exists 31%Z. split; [constructor; cbn; tauto|lia]. Qed.

(** ** C01 *)
(** Every instant whose timestamp has 14 or 17 characters and is accepted round-trips through its
    file name, in every time zone. *)
Theorem C01_file_name_round_trip : forall L tz i dt,
  String.length (i_timestamp i) = 14%nat \/ String.length (i_timestamp i) = 17%nat ->
  parse_datetime L (i_timestamp i) tz = Ok dt -> i_epoch i = epoch_millis dt ->
  try_from_file_name_and_timezone L (file_name i) tz = Ok i.
Proof. exact file_name_round_trip. Qed.
Print Assumptions C01_file_name_round_trip.
Example C01_example :
  try_from_file_name_and_timezone no_local "20240229235959999.deltacommit.inflight" "UTC"
  = Ok {| i_timestamp := "20240229235959999"; i_action := DeltaCommit; i_state := Inflight;
          i_epoch := 1709251199999%Z |}.
Proof. vm_compute. reflexivity. Qed.

(** An instant obtained by parsing any name is reproduced by parsing its printed name. *)
Theorem C01_parsed_round_trip : forall L tz name i,
  try_from_file_name_and_timezone L name tz = Ok i ->
  try_from_file_name_and_timezone L (file_name i) tz = Ok i.
Proof. exact parsed_round_trip. Qed.
Print Assumptions C01_parsed_round_trip.

(** Different parsed instants never share a file name. *)
Theorem C01_file_names_injective : forall L tz n1 n2 i1 i2,
  try_from_file_name_and_timezone L n1 tz = Ok i1 ->
  try_from_file_name_and_timezone L n2 tz = Ok i2 ->
  file_name i1 = file_name i2 -> i1 = i2.
Proof. exact parsed_injective. Qed.
Print Assumptions C01_file_names_injective.

(** The printed names are the ones of the hudi timeline layout. *)
Theorem C01_file_name_layout : forall i,
  file_name i = timeline_name (i_timestamp i) (i_action i) (i_state i).
Proof. exact file_name_spec. Qed.
Print Assumptions C01_file_name_layout.

(** ** C53: calendar correctness *)
(** The name of an instant at a real calendar date and time is accepted, and the epoch recorded is
    the number of milliseconds obtained by counting days one by one from 1970-01-01. *)
Theorem C53_epoch_is_calendar_time : forall L c tz a s, valid_civil c -> is_utc tz ->
  exists i, try_from_file_name_and_timezone L (timeline_name (render c) a s) tz = Ok i
    /\ i_timestamp i = render c /\ i_action i = a /\ i_state i = s /\ denotes_millis c (i_epoch i)
    /\ file_name i = timeline_name (render c) a s.
Proof. exact parse_render_name. Qed.
Print Assumptions C53_epoch_is_calendar_time.
(** Instants read from their text alone are in UTC. *)
Theorem C53_from_text : forall L c a s, valid_civil c -> exists i, instant_from_str L (timeline_name (render c) a s) = Ok i
  /\ i_timestamp i = render c /\ i_action i = a /\ i_state i = s /\ denotes_millis c (i_epoch i).
Proof. intros L c a s V. destruct (parse_render_name L c "UTC" a s V eq_refl) as [i [A [B [C [D [E _]]]]]]. exists i. auto. Qed.
Print Assumptions C53_from_text.
Example C53_example : valid_civil c_a /\ is_utc "UTC" /\ render c_a = "20240229235959999".
Proof. split; [exact valid_a|split; vm_compute; reflexivity]. Qed.

(** ** C02 *)
Theorem C02_string_order_agrees_with_time : forall c1 c2 t1 t2,
  valid_civil c1 -> valid_civil c2 -> denotes_millis c1 t1 -> denotes_millis c2 t2 ->
  sle (render c1) (render c2) -> (t1 <= t2)%Z.
Proof.
  intros c1 c2 t1 t2 V1 V2 D1 D2. rewrite (denotes_unique c1 t1 V1 D1), (denotes_unique c2 t2 V2 D2).
  exact (render_order c1 c2 V1 V2).
Qed.
Print Assumptions C02_string_order_agrees_with_time.
Example C02_example : sle (render c_a) (render c_b) /\ slt (render c_a) (render c_b).
Proof. split; vm_compute; congruence. Qed.

(** Between timestamps of the same width the two orders coincide. *)
Theorem C02_same_width_orders_coincide : forall c1 c2 t1 t2,
  valid_civil c1 -> valid_civil c2 -> denotes_millis c1 t1 -> denotes_millis c2 t2 ->
  String.length (render c1) = String.length (render c2) ->
  scmp (render c1) (render c2) = (t1 ?= t2)%Z.
Proof.
  intros c1 c2 t1 t2 V1 V2 D1 D2 W. rewrite (denotes_unique c1 t1 V1 D1), (denotes_unique c2 t2 V2 D2).
  exact (render_order_same_width c1 c2 V1 V2 W).
Qed.
Print Assumptions C02_same_width_orders_coincide.

(** The restriction to real seconds (<= 59) is needed: the parser accepts second 60, for which the
    17-character string order contradicts the time order. *)
Theorem C02_leap_second_refuted : forall L, exists s1 s2 d1 d2,
  String.length s1 = 17%nat /\ String.length s2 = 17%nat
  /\ parse_datetime L s1 "UTC" = Ok d1 /\ parse_datetime L s2 "UTC" = Ok d2
  /\ slt s1 s2 /\ (epoch_millis d2 < epoch_millis d1)%Z.
Proof.
  intros L. exists "20240229235959999", "20240229235960500". eexists. eexists.
  split; [reflexivity|]. split; [reflexivity|].
  split; [vm_compute; reflexivity|]. split; [vm_compute; reflexivity|].
  split; vm_compute; reflexivity.
Qed.
Print Assumptions C02_leap_second_refuted.

(** ** C03 *)
(** False: a name with a prefix shorter than 14 bytes before ".commit" panics. *)
Theorem C03_unrelated_names_ignored_refuted : exists name : string, forall L f tz,
  new_timeline L f tz ["20240101000000.commit"; name] = Panic
  /\ (forall i, ~ denotes_completed L tz [Commit; DeltaCommit; ReplaceCommit] name i).
Proof.
  exists "x.commit". intros L f tz. split.
  - apply new_timeline_panic_iff. exists "x.commit", "x", Commit. repeat split; auto. right. now left.
  - intros i [ts [a [dt [Hd [Hn [_ [Hp _]]]]]]].
    assert (E : split_once "." "x.commit" = Some (ts, action_str a) \/ split_once "." "x.commit" = Some (ts, (action_str a ++ ".")%string)).
    { destruct Hn as [-> | ->]; [left|right]; now apply L_Str.split_once_app. }
    cbn in E. assert (ts = "x") by (destruct E as [E|E]; injection E; auto). subst ts. discriminate.
Qed.
Print Assumptions C03_unrelated_names_ignored_refuted.

(** What holds: names without a dot or with an unrelated suffix have no effect whatever their position. *)
Theorem C03_unrelated_names_ignored_partial : forall L f tz names1 n names2, unrelated_name n ->
  new_timeline L f tz (names1 ++ n :: names2)%list = new_timeline L f tz (names1 ++ names2)%list.
Proof. exact noise_ignored. Qed.
Print Assumptions C03_unrelated_names_ignored_partial.
Example C03_example : unrelated_name "hoodie.properties" /\ unrelated_name ".aux" /\ unrelated_name "20240101000000.clean.requested".
Proof.
  split; [|split]; right.
  - exists "hoodie", "properties". repeat split. intros H. cbn in H. intuition discriminate.
  - exists "", "aux". repeat split. intros H. cbn in H. intuition discriminate.
  - exists "20240101000000", "clean.requested". repeat split. intros H. cbn in H. intuition discriminate.
Qed.

(** Loading never returns an error because of names, and the panic condition is exactly this one. *)
Theorem C03_panic_condition_partial : forall L f tz names,
  new_timeline L f tz names = Panic <->
  exists n ts a, In n names /\ has_char "." ts = false /\ is_char_boundary ts 14 = false
    /\ (n = ts ++ "." ++ action_str a \/ n = ts ++ "." ++ action_str a ++ ".").
Proof. exact new_timeline_panic_iff. Qed.
Print Assumptions C03_panic_condition_partial.

(** ** C04 *)
Theorem C04_timeline_is_completed_instants : forall L f tz names l,
  sorts f -> new_timeline L f tz names = Ok l ->
  exists l0, denoted_instants (denotes_completed L tz [Commit; DeltaCommit; ReplaceCommit]) names l0
    /\ Permutation l0 l /\ StronglySorted instant_le l.
Proof. exact new_timeline_exact. Qed.
Print Assumptions C04_timeline_is_completed_instants.

(** For listings made of well-formed instant files and unrelated files, loading succeeds and
    returns one instant per completed file, in calendar order. *)
Theorem C04_timeline_of_entries : forall L f tz entries, sorts f -> is_utc tz -> Forall valid_entry entries ->
  exists l0 l, new_timeline L f tz (map entry_name entries) = Ok l
    /\ Forall2 entry_instant (filter is_completed_entry entries) l0
    /\ Permutation l0 l
    /\ StronglySorted (fun a c => (i_epoch a <= i_epoch c)%Z) l.
Proof. exact new_timeline_entries. Qed.
Print Assumptions C04_timeline_of_entries.
Example C04_example :
  sorts isort
  /\ Forall valid_entry [EInstant c_b ReplaceCommit Completed; EInstant c_b Commit Inflight;
                         EOther "hoodie.properties"; EInstant c_a DeltaCommit Completed]
  /\ (let* l := new_timeline no_local isort "UTC"
        (map entry_name [EInstant c_b ReplaceCommit Completed; EInstant c_b Commit Inflight;
                         EOther "hoodie.properties"; EInstant c_a DeltaCommit Completed]) in Ok (map i_timestamp l))
     = Ok ["20240229235959999"; "20240301000000"].
Proof.
  split; [exact isort_sorts|]. split; [|vm_compute; reflexivity].
  constructor; [exact valid_b|]. constructor; [exact valid_b|].
  constructor; [exact (proj1 C03_example)|]. constructor; [exact valid_a|constructor].
Qed.

(** Listing order is irrelevant, up to the order of equal instants. *)
Theorem C04_listing_order_irrelevant : forall L f g tz names1 names2 l1, sorts f -> sorts g ->
  Permutation names1 names2 -> new_timeline L f tz names1 = Ok l1 ->
  exists l2, new_timeline L g tz names2 = Ok l2 /\ Permutation l1 l2.
Proof. exact new_timeline_perm. Qed.
Print Assumptions C04_listing_order_irrelevant.

(** ** C05 *)
Theorem C05_select_exact : forall L actions tz cs ce ts te l, is_utc tz ->
  denotes_opt cs ts -> denotes_opt ce te -> StronglySorted instant_le l ->
  exists sel, completed_actions_in_range L actions tz (option_map render cs) (option_map render ce) = Ok sel
    /\ select sel l = filter (fun i => in_window ts te (i_epoch i)
         && (match actions with [] => true | _ => existsb (action_eqb (i_action i)) actions end)
         && state_eqb (i_state i) Completed) l.
Proof. exact select_civil. Qed.
Print Assumptions C05_select_exact.

(** The same for arbitrary accepted bounds in any time zone. *)
Theorem C05_select_exact_any_bounds : forall L actions tz start stop sel l,
  completed_actions_in_range L actions tz start stop = Ok sel ->
  StronglySorted instant_le l ->
  exists st en, opt_traverse (fun ts => parse_datetime L ts tz) start = Ok st
    /\ opt_traverse (fun ts => parse_datetime L ts tz) stop = Ok en
    /\ select sel l = filter (fun i => in_window (option_map epoch_millis st) (option_map epoch_millis en) (i_epoch i)
         && (match actions with [] => true | _ => existsb (action_eqb (i_action i)) actions end)
         && state_eqb (i_state i) Completed) l.
Proof. exact select_exact. Qed.
Print Assumptions C05_select_exact_any_bounds.
Example C05_example :
  (let* l := new_timeline no_local isort "utc"
     ["20240101000000.commit"; "20240102000000.deltacommit"; "20240103000000.commit"; "20240104000000.replacecommit"] in
   let* sel := completed_actions_in_range no_local [Commit; DeltaCommit] "utc" (Some "20240101000000") (Some "20240103000000") in
   Ok (map i_timestamp (select sel l))) = Ok ["20240102000000"; "20240103000000"].
Proof. vm_compute. reflexivity. Qed.

(** Any selector, with or without actions, states and bounds: an empty list of actions or states means all. *)
Theorem C05_any_selector : forall sel l i, StronglySorted instant_le l ->
  (In i (select sel l) <-> In i l
     /\ in_window (option_map epoch_millis (sel_start sel)) (option_map epoch_millis (sel_end sel)) (i_epoch i) = true
     /\ (sel_actions sel = [] \/ In (i_action i) (sel_actions sel)) /\ (sel_states sel = [] \/ In (i_state i) (sel_states sel))).
Proof.
  intros sel l i S. rewrite select_filter by exact S. rewrite filter_In, Bool.andb_true_iff. unfold wanted. rewrite Bool.andb_true_iff, included_action, included_state. reflexivity.
Qed.
Print Assumptions C05_any_selector.
Example C05_selector_example :
  let i1 := {| i_timestamp := "20240101000000"; i_action := Commit; i_state := Inflight; i_epoch := 1704067200000 |} in
  let i2 := {| i_timestamp := "20240102000000"; i_action := DeltaCommit; i_state := Completed; i_epoch := 1704153600000 |} in
  StronglySorted instant_le [i1; i2]
  /\ select {| sel_timezone := "utc"; sel_start := None; sel_end := None; sel_states := []; sel_actions := [Commit] |} [i1; i2] = [i1]
  /\ select {| sel_timezone := "utc"; sel_start := None; sel_end := None; sel_states := [Completed]; sel_actions := [] |} [i1; i2] = [i2].
Proof. repeat split; try reflexivity. repeat constructor; unfold instant_le; cbn; discriminate. Qed.
(** Names in the timeline directory under any selector.  (Here the bounds are those of [start, stop), unlike those of (start, stop] above; the crate itself
    only uses selectors without bounds for this.) *)
Theorem C05_created : forall L sel ts a s i, has_char "." ts = false ->
  (try_create_instant L sel (timeline_name ts a s) = Ok i <->
     (sel_actions sel = [] \/ In a (sel_actions sel)) /\ (sel_states sel = [] \/ In s (sel_states sel))
     /\ exists dt, parse_datetime L ts (sel_timezone sel) = Ok dt
          /\ (forall st, sel_start sel = Some st -> dt_lt dt st = false) /\ (forall en, sel_end sel = Some en -> dt_lt dt en = true)
          /\ i = {| i_timestamp := ts; i_action := a; i_state := s; i_epoch := epoch_millis dt |}).
Proof. exact created. Qed.
Print Assumptions C05_created.
Example C05_created_example : let sel := {| sel_timezone := "utc"; sel_start := None; sel_end := None; sel_states := []; sel_actions := [Commit] |} in
  (let* i := try_create_instant no_local sel "20240101000000.inflight" in Ok (i_state i)) = Ok Inflight
  /\ try_create_instant no_local sel "20240101000000.deltacommit" = Err ETimeline.
Proof. split; vm_compute; reflexivity. Qed.

(** ** C06 *)
Theorem C06_windows_compose : forall L actions tz start mid stop s1 s2 s3 l m st en,
  completed_actions_in_range L actions tz start (Some mid) = Ok s1 ->
  completed_actions_in_range L actions tz (Some mid) stop = Ok s2 ->
  completed_actions_in_range L actions tz start stop = Ok s3 ->
  parse_datetime L mid tz = Ok m ->
  opt_traverse (fun ts => parse_datetime L ts tz) start = Ok st ->
  opt_traverse (fun ts => parse_datetime L ts tz) stop = Ok en ->
  (match st with Some s => (epoch_millis s <= epoch_millis m)%Z | None => True end) ->
  (match en with Some e => (epoch_millis m <= epoch_millis e)%Z | None => True end) ->
  StronglySorted instant_le l ->
  (select s1 l ++ select s2 l)%list = select s3 l.
Proof. exact windows_compose. Qed.
Print Assumptions C06_windows_compose.
Example C06_example :
  (let* l := new_timeline no_local isort "utc"
     ["20240103000000.commit"; "20240101000000.commit"; "20240102000000.deltacommit"; "20240104000000.replacecommit"] in
   let* s1 := completed_actions_in_range no_local [] "utc" None (Some "20240102000000") in
   let* s2 := completed_actions_in_range no_local [] "utc" (Some "20240102000000") None in
   Ok (List.length (select s1 l), List.length (select s2 l))) = Ok (2, 2)%nat.
Proof. vm_compute. reflexivity. Qed.

(** ** C07 *)
Theorem C07_latest_commit_is_maximum : forall L f tz names l, sorts f -> new_timeline L f tz names = Ok l ->
  match latest_commit_timestamp l with
  | Some ts => exists i, In i l /\ i_timestamp i = ts /\ i_state i = Completed
                /\ forall j, In j l -> (i_epoch j <= i_epoch i)%Z
  | None => forall n i, In n names -> ~ denotes_completed L tz [Commit; DeltaCommit; ReplaceCommit] n i
  end.
Proof. exact latest_spec. Qed.
Print Assumptions C07_latest_commit_is_maximum.
Example C07_example :
  (let* l := new_timeline no_local isort "utc" ["20240103000000.commit"; "20240101000000.commit"; "20250102000000.inflight"] in
   Ok (latest_commit_timestamp l)) = Ok (Some "20240103000000").
Proof. vm_compute. reflexivity. Qed.

(** ** C08 *)
Theorem C08_up_to_partial : forall L e tz tz' t te tt, is_utc tz -> is_utc tz' -> valid_civil e -> valid_civil t ->
  denotes_millis e te -> denotes_millis t tt ->
  is_in_range L (up_to (render e) tz) (render t) tz' = Ok (Z.leb tt te).
Proof.
  intros L e tz tz' t te tt Hz Hz' Ve Vt De Dt.
  rewrite (denotes_unique e te Ve De), (denotes_unique t tt Vt Dt).
  exact (is_in_range_civil L None (Some e) false true tz tz' t Hz Hz' Vt I Ve).
Qed.
Print Assumptions C08_up_to_partial.

Theorem C08_within_partial : forall L s e tz tz' t ts te tt, is_utc tz -> is_utc tz' ->
  valid_civil s -> valid_civil e -> valid_civil t ->
  denotes_millis s ts -> denotes_millis e te -> denotes_millis t tt ->
  is_in_range L (within (render s) (render e) tz) (render t) tz' = Ok (Z.ltb ts tt && Z.ltb tt te)%bool.
Proof.
  intros L s e tz tz' t ts te tt Hz Hz' Vs Ve Vt Ds De Dt.
  rewrite (denotes_unique s ts Vs Ds), (denotes_unique e te Ve De), (denotes_unique t tt Vt Dt).
  exact (is_in_range_civil L (Some s) (Some e) false false tz tz' t Hz Hz' Vt Vs Ve).
Qed.
Print Assumptions C08_within_partial.

Theorem C08_within_open_closed_partial : forall L s e tz tz' t ts te tt, is_utc tz -> is_utc tz' ->
  valid_civil s -> valid_civil e -> valid_civil t ->
  denotes_millis s ts -> denotes_millis e te -> denotes_millis t tt ->
  is_in_range L (within_open_closed (render s) (render e) tz) (render t) tz' = Ok (Z.ltb ts tt && Z.leb tt te)%bool.
Proof.
  intros L s e tz tz' t ts te tt Hz Hz' Vs Ve Vt Ds De Dt.
  rewrite (denotes_unique s ts Vs Ds), (denotes_unique e te Ve De), (denotes_unique t tt Vt Dt).
  exact (is_in_range_civil L (Some s) (Some e) false true tz tz' t Hz Hz' Vt Vs Ve).
Qed.
Print Assumptions C08_within_open_closed_partial.

Theorem C08_not_in_range_is_complement : forall L r ts tz b,
  is_in_range L r ts tz = Ok b <-> not_in_range L r ts tz = Ok (negb b).
Proof. exact not_in_range_complement. Qed.
Print Assumptions C08_not_in_range_is_complement.

(** A probe that does not parse is never answered. *)
Theorem C08_bad_probe_never_answered : forall L r ts tz, (forall dt, parse_datetime L ts tz <> Ok dt) ->
  forall b, is_in_range L r ts tz <> Ok b /\ not_in_range L r ts tz <> Ok b.
Proof. exact bad_probe. Qed.
Print Assumptions C08_bad_probe_never_answered.

(** ... but the failure is a panic, not an error, when the probe is shorter than 14 bytes; and a
    malformed end bound goes unnoticed when the probe is below the start. *)
Theorem C08_bad_timestamp_is_error_refuted :
  (exists ts, forall L r tz, is_in_range L r ts tz = Panic)
  /\ (exists s e ts, forall L, (forall dt, parse_datetime L e "utc" <> Ok dt)
        /\ is_in_range L (within s e "utc") ts "utc" = Ok false).
Proof.
  split.
  - exists "2024". intros L r tz. reflexivity.
  - exists "20240102000000", "not-a-timestamp", "20240101000000". intros L.
    split; [intros dt; vm_compute; discriminate|vm_compute; reflexivity].
Qed.
Print Assumptions C08_bad_timestamp_is_error_refuted.
Example C08_example :
  is_in_range no_local (within_open_closed "20240101000000" "20240301000000" "utc") "20240301000000000" "UTC" = Ok true
  /\ is_in_range no_local (within "20240101000000" "20240301000000" "utc") "20240301000000000" "UTC" = Ok false.
Proof. split; vm_compute; reflexivity. Qed.

(** ** C54: metadata is read back from the listed file *)
Theorem C54_metadata_path_is_listed_file_partial : forall L tz actions name i,
  denotes_completed L tz actions name i -> ends_with "." name = false ->
  instant_relative_path i = ".hoodie/" ++ name.
Proof.
  intros L tz actions name i H E. unfold instant_relative_path.
  destruct (denotes_file_name L tz actions name i H) as [-> | ->]; [reflexivity|].
  assert (X : ends_with "." (file_name i ++ ".") = true) by (apply L_Str.ends_with_spec; eexists; reflexivity).
  congruence.
Qed.
Print Assumptions C54_metadata_path_is_listed_file_partial.

(** A name with a dangling dot is loaded as an instant, but its metadata is looked up elsewhere. *)
Theorem C54_dangling_dot_refuted : exists name i, forall L,
  denotes_completed L "utc" [Commit] name i /\ instant_relative_path i <> ".hoodie/" ++ name.
Proof.
  exists "20240103000000.commit.",
    {| i_timestamp := "20240103000000"; i_action := Commit; i_state := Completed; i_epoch := 1704240000000%Z |}.
  intros L. split; [|vm_compute; discriminate].
  exists "20240103000000", Commit. eexists. split; [reflexivity|]. split; [right; reflexivity|].
  split; [now left|]. split; [vm_compute; reflexivity|]. vm_compute. reflexivity.
Qed.
Print Assumptions C54_dangling_dot_refuted.
Example C54_example :
  (let* l := new_timeline no_local isort "utc" ["20240103000000.commit"] in Ok (map instant_relative_path l))
  = Ok [".hoodie/20240103000000.commit"].
Proof. vm_compute. reflexivity. Qed.
