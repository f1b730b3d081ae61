(** Specification of file groups: what a group contains, which groups can arise. *)
From Verif Require Import Base Str M_FileGroup.
Local Open Scope string_scope.

(** The slices of a group. *)
Definition slices (g : file_group) : list file_slice := map snd (fg_slices g).

(** Groups that can arise by creating an empty group, adding files and merging. *)
Inductive reachable : file_group -> Prop :=
| r_new : forall id p, reachable (new_group id p)
| r_base : forall g b g', reachable g -> add_base_file g b = (g', Ok tt) -> reachable g'
| r_log : forall g l g', reachable g -> add_log_file g l = (g', Ok tt) -> reachable g'
| r_merge : forall g h g', reachable g -> reachable h -> merge_group g h = (g', Ok tt) -> reachable g'.

(** A history of additions. *)
Inductive op := AddBase (b : base_file) | AddLog (l : log_file).
Definition apply_op (g : file_group) (o : op) : file_group * outcome unit :=
  match o with AddBase b => add_base_file g b | AddLog l => add_log_file g l end.
Fixpoint run (g : file_group) (ops : list op) : option file_group :=
  match ops with
  | [] => Some g
  | o :: os => match apply_op g o with (g', Ok _) => run g' os | _ => None end
  end.
Definition bases_of (ops : list op) : list base_file :=
  flat_map (fun o => match o with AddBase b => [b] | AddLog _ => [] end) ops.
Definition logs_of (ops : list op) : list log_file :=
  flat_map (fun o => match o with AddBase _ => [] | AddLog l => [l] end) ops.

(** Observable contents: which base file name the group has at a commit time, and which log files
    (by version and write token) it has for a base commit time. *)
Definition has_base (g : file_group) (commit name : string) : Prop :=
  exists s, In s (slices g) /\ bf_commit (fs_base s) = commit /\ base_file_name (fs_base s) = name.
Definition has_log (g : file_group) (commit version token : string) : Prop :=
  exists s l, In s (slices g) /\ bf_commit (fs_base s) = commit /\ In l (fs_logs s)
    /\ lf_version l = version /\ lf_write_token l = token.
Definition same_contents (g h : file_group) : Prop :=
  fg_id g = fg_id h /\ fg_partition g = fg_partition h
  /\ (forall c n, has_base g c n <-> has_base h c n)
  /\ (forall c v t, has_log g c v t <-> has_log h c v t).

(** Log files that belong together: same file id and extension; one file per name. *)
Definition uniform_logs (ls : list log_file) : Prop :=
  forall a c, In a ls -> In c ls ->
    lf_file_id a = lf_file_id c /\ lf_ext a = lf_ext c
    /\ (log_file_name a = log_file_name c -> a = c).

(** Numeric value of a decimal version. *)
Fixpoint dec_val (acc : Z) (s : string) : Z :=
  match s with
  | "" => acc
  | String c r => dec_val (acc * 10 + (Z.of_N (N_of_ascii c) - 48)) r
  end.
Fixpoint all_digits (s : string) : Prop :=
  match s with
  | "" => True
  | String c r => (48 <= N_of_ascii c <= 57)%N /\ all_digits r
  end.
