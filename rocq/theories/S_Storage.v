(** Specification of addressing: keys of objects and relative paths. *)
From Verif Require Import Base Str M_Utf8 M_Expr S_Expr M_Storage.
Local Open Scope string_scope.

(** A name of an object or directory: not empty, no slash, no control character, not a dot segment. *)
Definition legal (name : string) : Prop :=
  name <> "" /\ has_char "/" name = false /\ name <> "." /\ name <> ".." /\ has_control name = false /\ utf8_valid name = true.
(** Keys of objects. *)
Definition key_of (names : list string) : string := join "/" names.
(** The directory of the table: the names on the path of its URL, percent-encoded in any way; a slash
    may follow.  With [file] URLs it is not the root directory. *)
Definition leading (names : list string) : string := fold_right (fun n r => "/" ++ n ++ r) "" names.
Definition located (base : url) (names : list string) : Prop :=
  u_opaque base = false /\ Forall legal names /\ (u_file base = true -> names <> [])
  /\ exists p, encodes (leading names) p /\ ends_with "/" p = false /\ (u_path base = p \/ u_path base = p ++ "/").

(** The names of a relative path: its pieces, without empty ones and dot segments. *)
Inductive names_of : list string -> list string -> Prop :=
| no_names : names_of [] []
| name_skip : forall p ps ns, In p [""; "."; ".."] -> names_of ps ns -> names_of (p :: ps) ns
| name_keep : forall p ps ns, ~ In p [""; "."; ".."] -> names_of ps ns -> names_of (p :: ps) (p :: ns).
Definition path_names (relative : string) (names : list string) : Prop := names_of (split "/" relative) names.
(** Tabs and line ends. *)
Fixpoint plain (s : string) : Prop := match s with "" => True | String c r => tab_or_newline c = false /\ plain r end.

(** The objects of a store: each key is a non-empty list of names. *)
Definition proper_keys (keys : list string) : Prop := Forall (fun k => exists names, names <> [] /\ Forall legal names /\ k = key_of names) keys.
