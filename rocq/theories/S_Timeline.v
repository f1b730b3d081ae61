(** Specification of timeline file names, of a loaded timeline and of time windows. *)
From Verif Require Import Base Str M_Time M_Instant S_Time.
From Coq Require Import Sorting.Sorted.
Local Open Scope string_scope.

(** An order-based description of "a sort": the result is a permutation and is sorted.  Nothing
    is said about the relative order of elements that compare equal. *)
Definition sorts (f : list instant -> list instant) : Prop :=
  forall l, Permutation l (f l) /\ StronglySorted instant_le (f l).

(** A name in [.hoodie] denotes a completed instant: the time stamp, a dot and the action word
    (a dangling final dot is also accepted by the code). *)
Definition denotes_completed (L : ndt -> option ndt) (tz : string) (actions : list action)
    (name : string) (i : instant) : Prop :=
  exists ts a dt,
    has_char "." ts = false
    /\ (name = ts ++ "." ++ action_str a \/ name = ts ++ "." ++ action_str a ++ ".")
    /\ In a actions
    /\ parse_datetime L ts tz = Ok dt
    /\ i = {| i_timestamp := ts; i_action := a; i_state := Completed; i_epoch := epoch_millis dt |}.

(** The instants denoted by a listing, in listing order. *)
Inductive denoted_instants (P : string -> instant -> Prop) : list string -> list instant -> Prop :=
| den_nil : denoted_instants P [] []
| den_take : forall n ns i is, P n i -> denoted_instants P ns is -> denoted_instants P (n :: ns) (i :: is)
| den_skip : forall n ns is, (forall i, ~ P n i) -> denoted_instants P ns is -> denoted_instants P (n :: ns) is.

(** The file names hudi writers use. *)
Definition timeline_name (ts : string) (a : action) (s : state) : string :=
  match s, a with
  | Completed, Commit => ts ++ ".commit"
  | Completed, DeltaCommit => ts ++ ".deltacommit"
  | Completed, ReplaceCommit => ts ++ ".replacecommit"
  | Inflight, Commit => ts ++ ".inflight"
  | Inflight, DeltaCommit => ts ++ ".deltacommit.inflight"
  | Inflight, ReplaceCommit => ts ++ ".replacecommit.inflight"
  | Requested, Commit => ts ++ ".commit.requested"
  | Requested, DeltaCommit => ts ++ ".deltacommit.requested"
  | Requested, ReplaceCommit => ts ++ ".replacecommit.requested"
  end.

(** Membership of a time in the window (start, stop], either bound optional. *)
Definition in_window (start stop : option Z) (t : Z) : bool :=
  (match start with Some s => Z.ltb s t | None => true end)
  && (match stop with Some e => Z.leb t e | None => true end).

(** A concrete sort satisfying [sorts] (insertion sort), used in examples only. *)
Fixpoint ins (x : instant) (l : list instant) : list instant :=
  match l with
  | [] => [x]
  | y :: ys => match instant_cmp x y with Gt => y :: ins x ys | _ => x :: y :: ys end
  end.
Fixpoint isort (l : list instant) : list instant :=
  match l with [] => [] | x :: xs => ins x (isort xs) end.

(** The suffixes (after the first dot) that make a name an instant, in any state. *)
Definition instant_suffixes : list string :=
  ["commit"; "deltacommit"; "replacecommit";
   "commit."; "deltacommit."; "replacecommit.";
   "inflight"; "commit.inflight"; "deltacommit.inflight"; "replacecommit.inflight";
   "commit.requested"; "deltacommit.requested"; "replacecommit.requested"].

(** A name that is not an instant because it has no dot or an unrelated suffix. *)
Definition unrelated_name (name : string) : Prop :=
  has_char "." name = false
  \/ exists p q, name = p ++ "." ++ q /\ has_char "." p = false /\ ~ In q instant_suffixes.

(** One entry of a directory listing made of well-formed instants and unrelated files. *)
Inductive entry := EInstant (c : civil) (a : action) (s : state) | EOther (name : string).
Definition entry_name (e : entry) : string :=
  match e with EInstant c a s => timeline_name (render c) a s | EOther n => n end.
Definition valid_entry (e : entry) : Prop :=
  match e with EInstant c _ _ => valid_civil c | EOther n => unrelated_name n end.

(** The instant [i] is what a completed entry [e] stands for. *)
Definition entry_instant (e : entry) (i : instant) : Prop :=
  match e with
  | EInstant c a Completed =>
      i_timestamp i = render c /\ i_action i = a /\ i_state i = Completed /\ denotes_millis c (i_epoch i)
  | _ => False
  end.
Definition is_completed_entry (e : entry) : bool :=
  match e with EInstant _ _ Completed => true | _ => false end.

(** The configured time zone is UTC (in any letter case, as the configuration allows). *)
Definition is_utc (tz : string) : Prop := to_ascii_lowercase tz = "utc".

(** An optional bound given as a well-formed timestamp, and the time it denotes. *)
Definition denotes_opt (c : option civil) (t : option Z) : Prop :=
  match c, t with
  | Some c, Some t => valid_civil c /\ denotes_millis c t
  | None, None => True
  | _, _ => False
  end.

