(** Model of crates/core/src/timeline/instant.rs: actions, states, instants and file names. *)
From Verif Require Import Base Str M_Time.
Local Open Scope string_scope.

(** instant.rs:29-34 *)
Inductive action := Commit | DeltaCommit | ReplaceCommit.
(** instant.rs:68-72; declaration order gives the derived [Ord]. *)
Inductive state := Requested | Inflight | Completed.

(** instant.rs:39-46 [Action::from_str] *)
Definition action_from_str (s : string) : outcome action :=
  if String.eqb s "commit" then Ok Commit
  else if String.eqb s "deltacommit" then Ok DeltaCommit
  else if String.eqb s "replacecommit" then Ok ReplaceCommit
  else Err ETimeline.

(** instant.rs:49-57 [Action::as_ref] *)
Definition action_str (a : action) : string :=
  match a with
  | Commit => "commit"
  | DeltaCommit => "deltacommit"
  | ReplaceCommit => "replacecommit"
  end.

Definition action_eqb (a c : action) : bool :=
  match a, c with
  | Commit, Commit | DeltaCommit, DeltaCommit | ReplaceCommit, ReplaceCommit => true
  | _, _ => false
  end.

(** instant.rs:60-62 *)
Definition action_is_replacecommit (a : action) : bool := action_eqb a ReplaceCommit.

(** instant.rs:77-87 [State::from_str] *)
Definition state_from_str (s : string) : outcome state :=
  if String.eqb s "requested" then Ok Requested
  else if String.eqb s "inflight" then Ok Inflight
  else if String.eqb s "" then Ok Completed
  else Err ETimeline.

(** instant.rs:90-98 [State::as_ref] *)
Definition state_str (s : state) : string :=
  match s with
  | Requested => "requested"
  | Inflight => "inflight"
  | Completed => ""
  end.

Definition state_rank (s : state) : Z :=
  match s with Requested => 0 | Inflight => 1 | Completed => 2 end.
Definition state_eqb (a c : state) : bool := Z.eqb (state_rank a) (state_rank c).

(** instant.rs:103-108 *)
Record instant := {
  i_timestamp : string;
  i_action : action;
  i_state : state;
  i_epoch : Z
}.

(** instant.rs:116-122 [Ord for Instant]: epoch milliseconds, then state. *)
Definition instant_cmp (a c : instant) : comparison :=
  match Z.compare (i_epoch a) (i_epoch c) with
  | Eq => Z.compare (state_rank (i_state a)) (state_rank (i_state c))
  | r => r
  end.
Definition instant_le (a c : instant) : Prop := instant_cmp a c <> Gt.

(** instant.rs:150-158 [Instant::validate_timestamp] *)
Definition validate_timestamp (ts : string) : outcome unit :=
  let n := String.length ts in
  if Nat.eqb n 14 || Nat.eqb n 17 then Ok tt else Err ETimeline.

(** instant.rs:192-202 [Instant::parse_action_and_state] *)
Definition parse_action_and_state (suffix : string) : outcome (action * state) :=
  match split_once "." suffix with
  | Some (a, s) =>
      let* a' := action_from_str a in
      let* s' := state_from_str s in
      Ok (a', s')
  | None =>
      if String.eqb suffix "inflight" then Ok (Commit, Inflight)
      else let* a' := action_from_str suffix in Ok (a', Completed)
  end.

(** instant.rs:204-217 [Instant::file_name] *)
Definition file_name (i : instant) : string :=
  match i_action i, i_state i with
  | a, Completed => i_timestamp i ++ "." ++ action_str a
  | Commit, Inflight => i_timestamp i ++ "." ++ state_str Inflight
  | a, s => i_timestamp i ++ "." ++ action_str a ++ "." ++ state_str s
  end.

(** instant.rs:219-230 [Instant::relative_path].  [PathBuf::push] of a non-absolute component
    appends it after a separator; an instant file name starting with '/' cannot come from a
    parsed timestamp (the first byte of an accepted timestamp is a digit, a sign or white space). *)
Definition instant_relative_path (i : instant) : string := ".hoodie/" ++ file_name i.

(** instant.rs:232-234 *)
Definition is_replacecommit (i : instant) : bool := action_is_replacecommit (i_action i).

Section WithLocal.
Variable local_to_utc : ndt -> option ndt.

(** instant.rs:134-148 [Instant::try_from_file_name_and_timezone] *)
Definition try_from_file_name_and_timezone (name tz : string) : outcome instant :=
  let* (ts, suffix) := ok_or (split_once "." name) ETimeline in
  let* _ := validate_timestamp ts in
  let* dt := parse_datetime local_to_utc ts tz in
  let* (a, s) := parse_action_and_state suffix in
  Ok {| i_timestamp := ts; i_action := a; i_state := s; i_epoch := epoch_millis dt |}.

(** instant.rs:124-131 [FromStr for Instant]: UTC. *)
Definition instant_from_str (name : string) : outcome instant :=
  try_from_file_name_and_timezone name "UTC".
End WithLocal.
