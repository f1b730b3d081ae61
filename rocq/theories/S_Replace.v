(** Specification of replacecommits: clustering, which moves records to other file groups, and overwriting, which
    replaces a part of a table. *)
From Verif Require Import Base Str M_Time M_FileGroup M_Reader S_Time S_FileGroup S_Reader S_History S_Whole.
Local Open Scope string_scope.

Section Replace.
Variable k p s : nat.
(** The file groups of the table at [t0] and those at [t1], and what was ever written to each. *)
Variable of0 of1 : string * string -> Prop.
Variable hist : string * string -> group.
Variable t0 t1 : string.
(** The file groups have the version [r], of the write at [x], at [t]. *)
Definition version (of : string * string -> Prop) (t x : string) (r : list cell) : Prop := exists g, of g /\ In (x, r) (g_versions (hist g)) /\ sle x t.
(** Records were only moved, as clustering does: every version that the file groups of [t1] have was there at [t0]; and
    the newest version of every key at [t0] is still there.  Older versions may be dropped. *)
Record only_moved : Prop := {
  om_nothing_new : forall x r, version of1 t1 x r -> version of0 t0 x r;
  om_nothing_lost : forall x r, version of0 t0 x r -> (forall x' r', version of0 t0 x' r' -> key_at k r' = key_at k r -> ~ newer p s r' r) -> exists x', version of1 t1 x' r
}.
(** A part of the table was replaced, as "insert overwrite" and "delete partition" do: the file groups of [t0] inside
    that part are gone; those outside are the same, and nothing was written to them. *)
Variable inside : string * string -> bool.
Record part_replaced : Prop := {
  pr_gone : forall g, inside g = true -> of0 g -> ~ of1 g;
  pr_same : forall g, inside g = false -> (of0 g <-> of1 g);
  pr_still : forall g x r, inside g = false -> of1 g -> In (x, r) (g_versions (hist g)) -> sle x t1 -> sle x t0
}.
(** The file groups of a part. *)
Definition part (of : string * string -> Prop) (b : bool) (g : string * string) : Prop := of g /\ inside g = b.
End Replace.
