(** Specification of what the texts of options stand for. *)
From Verif Require Import Base Str M_Config S_Config.
Local Open Scope string_scope.

(** A switch is on or off; anything else, and no text, leaves the default. *)
Definition switch (default : bool) (o : option string) : bool :=
  match o with
  | Some v => if String.eqb v "true" then true else if String.eqb v "false" then false else default
  | None => default
  end.
(** A number; anything else, and no text, leaves the default. *)
Definition count (default : Z) (o : option string) (n : Z) : Prop :=
  match o with
  | Some v => unsigned_text v n \/ ((forall x, ~ unsigned_text v x) /\ n = default)
  | None => n = default
  end.
(** Names between commas. *)
Inductive names : string -> list string -> Prop :=
| nm_one : forall x, has_char "," x = false -> names x [x]
| nm_more : forall x r l, has_char "," x = false -> names r l -> names (x ++ "," ++ r) (x :: l).
Definition columns (o : option string) (l : list string) : Prop :=
  match o with Some v => names v l | None => l = [] end.
(** A word in any case. *)
Definition word (w : string) (o : option string) : Prop := exists v, o = Some v /\ to_ascii_lowercase v = w.
(** Merging replaces older records of a key if the options say so, and without such an option if there are record
    keys and an ordering column. *)
Definition replaces (m : options) : Prop :=
  let o := oget "hoodie.table.record.merge.strategy" m in
  word "overwrite_with_latest" o
  \/ (~ word "append_only" o /\ switch true (oget "hoodie.populate.meta.fields" m) = true /\ exists c, oget "hoodie.table.precombine.field" m = Some c).
(** A table that keeps updates in log files. *)
Definition merge_on_read (v : string) : Prop := In (to_ascii_lowercase v) ["merge_on_read"; "merge-on-read"; "mor"].
Definition copy_on_write (v : string) : Prop := In (to_ascii_lowercase v) ["copy_on_write"; "copy-on-write"; "cow"].
