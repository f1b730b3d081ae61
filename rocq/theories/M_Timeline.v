(** Model of crates/core/src/timeline/selector.rs and the loading part of
    crates/core/src/timeline/mod.rs. *)
From Verif Require Import Base Str M_Time M_Instant.
Local Open Scope string_scope.

(** ** InstantRange, selector.rs:28-134 *)
Record instant_range := {
  r_timezone : string;
  r_start : option string;
  r_end : option string;
  r_start_incl : bool;
  r_end_incl : bool
}.

(** selector.rs:56-64 *)
Definition up_to (e tz : string) : instant_range :=
  {| r_timezone := tz; r_start := None; r_end := Some e; r_start_incl := false; r_end_incl := true |}.
(** selector.rs:67-75 *)
Definition within (s e tz : string) : instant_range :=
  {| r_timezone := tz; r_start := Some s; r_end := Some e; r_start_incl := false; r_end_incl := false |}.
(** selector.rs:78-86 *)
Definition within_open_closed (s e tz : string) : instant_range :=
  {| r_timezone := tz; r_start := Some s; r_end := Some e; r_start_incl := false; r_end_incl := true |}.

(** timeline/mod.rs:50-52 *)
Definition EARLIEST_START_TIMESTAMP : string := "19700101000000000".
Definition DEFAULT_LOADING_ACTIONS : list action := [Commit; DeltaCommit; ReplaceCommit].

(** [Option::map(f).transpose()] for a fallible [f] *)
Definition opt_traverse {A B} (f : A -> outcome B) (o : option A) : outcome (option B) :=
  match o with
  | None => Ok None
  | Some a => let* b := f a in Ok (Some b)
  end.

(** ** TimelineSelector, selector.rs:138-145.  [include_archived] is never read and is left out. *)
Record selector := {
  sel_timezone : string;
  sel_start : option ndt;
  sel_end : option ndt;
  sel_states : list state;
  sel_actions : list action
}.

(** selector.rs:204-206 *)
Definition should_include_action (sel : selector) (a : action) : bool :=
  match sel_actions sel with [] => true | l => existsb (action_eqb a) l end.
(** selector.rs:208-210 *)
Definition should_include_state (sel : selector) (s : state) : bool :=
  match sel_states sel with [] => true | l => existsb (state_eqb s) l end.

(** [slice::partition_point(pred)] of the Rust standard library, as a bisection on [lo, hi):
    [size] halves at each step.  [fuel] bounds the number of halvings; it is instantiated with
    the length and never runs out (proved in L_Timeline). *)
Fixpoint bisect {A} (p : A -> bool) (l : list A) (fuel lo size : nat) : nat :=
  match fuel with
  | O => lo
  | S f =>
      match size with
      | O => lo
      | _ =>
          let half := Nat.div2 size in
          let mid := (lo + half)%nat in
          match nth_error l mid with
          | None => lo
          | Some x => if p x then bisect p l f (S mid) (size - half - 1)
                      else bisect p l f lo half
          end
      end
  end.
Definition partition_point {A} (p : A -> bool) (l : list A) : nat :=
  bisect p l (S (List.length l)) 0 (List.length l).

Section WithLocal.
Variable local_to_utc : ndt -> option ndt.

(** selector.rs:92-104 *)
Definition range_start (r : instant_range) : outcome (option ndt) :=
  opt_traverse (fun ts => parse_datetime local_to_utc ts (r_timezone r)) (r_start r).
Definition range_end (r : instant_range) : outcome (option ndt) :=
  opt_traverse (fun ts => parse_datetime local_to_utc ts (r_timezone r)) (r_end r).

(** selector.rs:106-129 [InstantRange::is_in_range]; note the early return: an out-of-range start
    answers [false] before the end bound is parsed. *)
Definition is_in_range (r : instant_range) (ts tz : string) : outcome bool :=
  let* t := parse_datetime local_to_utc ts tz in
  let* s := range_start r in
  let below := match s with
               | Some s => if r_start_incl r then dt_lt t s else dt_le t s
               | None => false
               end in
  if below then Ok false
  else
    let* e := range_end r in
    let above := match e with
                 | Some e => if r_end_incl r then dt_lt e t else dt_le e t
                 | None => false
                 end in
    if above then Ok false else Ok true.

(** selector.rs:131-133 *)
Definition not_in_range (r : instant_range) (ts tz : string) : outcome bool :=
  let* x := is_in_range r ts tz in Ok (negb x).

(** selector.rs:161-178 [completed_actions_in_range]; the timezone comes from the table configs. *)
Definition completed_actions_in_range (actions : list action) (tz : string)
    (start stop : option string) : outcome selector :=
  let* s := opt_traverse (fun ts => parse_datetime local_to_utc ts tz) start in
  let* e := opt_traverse (fun ts => parse_datetime local_to_utc ts tz) stop in
  Ok {| sel_timezone := tz; sel_start := s; sel_end := e;
        sel_states := [Completed]; sel_actions := actions |}.

(** selector.rs:180-202 *)
Definition completed_commits_in_range := completed_actions_in_range [Commit].
Definition completed_deltacommits_in_range := completed_actions_in_range [DeltaCommit].
Definition completed_replacecommits_in_range := completed_actions_in_range [ReplaceCommit].

(** selector.rs:212-258 [TimelineSelector::try_create_instant]; unlike
    [Instant::try_from_file_name_and_timezone] it does not validate the timestamp length. *)
Definition try_create_instant (sel : selector) (name : string) : outcome instant :=
  let* (ts, suffix) := ok_or (split_once "." name) ETimeline in
  let* (a, s) := parse_action_and_state suffix in
  if negb (should_include_action sel a) then Err ETimeline else
  if negb (should_include_state sel s) then Err ETimeline else
  let* dt := parse_datetime local_to_utc ts (sel_timezone sel) in
  if match sel_start sel with Some st => dt_lt dt st | None => false end then Err ETimeline else
  if match sel_end sel with Some en => dt_le en dt | None => false end then Err ETimeline else
  Ok {| i_timestamp := ts; i_action := a; i_state := s; i_epoch := epoch_millis dt |}.

(** timeline/mod.rs:100-111: the loop keeps the instants that parse and drops errors; a panic in
    [try_create_instant] aborts. *)
Fixpoint collect_instants (sel : selector) (names : list string) : outcome (list instant) :=
  match names with
  | [] => Ok []
  | n :: ns =>
      match try_create_instant sel n with
      | Ok i => let* r := collect_instants sel ns in Ok (i :: r)
      | Err _ => collect_instants sel ns
      | Panic => Panic
      end
  end.

Section WithSort.
(** [slice::sort_unstable] on instants: any function returning a sorted permutation (the order of
    elements that compare equal is unspecified). *)
Variable sort_unstable : list instant -> list instant.

(** timeline/mod.rs:88-124 [Timeline::load_instants] on the names listed in [.hoodie]. *)
Definition load_instants (sel : selector) (names : list string) (desc : bool) : outcome (list instant) :=
  let* l := collect_instants sel names in
  let s := sort_unstable l in
  Ok (if desc then rev s else s).

(** timeline/mod.rs:69-86 [Timeline::new_from_storage]: the [completed_commits] field. *)
Definition new_timeline (tz : string) (names : list string) : outcome (list instant) :=
  let* sel := completed_actions_in_range DEFAULT_LOADING_ACTIONS tz None None in
  load_instants sel names false.

(** timeline/mod.rs:134-168 *)
Definition get_completed_commits (tz : string) (names : list string) (desc : bool) :=
  let* sel := completed_commits_in_range tz None None in load_instants sel names desc.
Definition get_completed_deltacommits (tz : string) (names : list string) (desc : bool) :=
  let* sel := completed_deltacommits_in_range tz None None in load_instants sel names desc.
Definition get_completed_replacecommits (tz : string) (names : list string) (desc : bool) :=
  let* sel := completed_replacecommits_in_range tz None None in load_instants sel names desc.
End WithSort.
End WithLocal.

(** selector.rs:263-301 [TimelineSelector::select] on the loaded instants.  The slices of a vector
    are [skipn]/[firstn]; the indices are within bounds (partition_point <= length). *)
Definition select (sel : selector) (commits : list instant) : list instant :=
  let pruned :=
    match sel_start sel with
    | Some start =>
        let start_pos := partition_point (fun i => Z.leb (i_epoch i) (epoch_millis start)) commits in
        let tail := skipn start_pos commits in
        match sel_end sel with
        | Some stop =>
            let end_pos := partition_point (fun i => Z.leb (i_epoch i) (epoch_millis stop)) tail in
            firstn end_pos tail
        | None => tail
        end
    | None =>
        match sel_end sel with
        | Some stop =>
            let end_pos := partition_point (fun i => Z.leb (i_epoch i) (epoch_millis stop)) commits in
            firstn end_pos commits
        | None => commits
        end
    end in
  filter (fun i => should_include_action sel (i_action i) && should_include_state sel (i_state i)) pruned.

(** timeline/mod.rs:221-226 [get_latest_commit_timestamp_as_option] *)
Definition latest_commit_timestamp (commits : list instant) : option string :=
  option_map i_timestamp (last_opt commits).
(** timeline/mod.rs:231-236 *)
Definition get_latest_commit_timestamp (commits : list instant) : outcome string :=
  ok_or (latest_commit_timestamp commits) ETimeline.
