(** Specification of the storage of readers (C84). *)
From Verif Require Import Base Str M_Storage M_Objects M_Config S_Config.
Local Open Scope string_scope.

(** The store for a URL depends on the values of the storage options only. *)
Definition by_value (stores : url -> options -> outcome (list object)) : Prop :=
  forall u a b, (forall k, oget k a = oget k b) -> stores u a = stores u b.
(** Options for a reader that are not for its storage: their names begin like those of the table's options, and the place
    of the table is not among them. *)
Definition reading_options (opts : list (string * string)) : Prop :=
  forall k v, In (k, v) opts -> (exists r, k = "hoodie." ++ r) /\ k <> "hoodie.base.path".
(** No option of the table among the storage options. *)
Definition storage_only (m : options) : Prop := one_per_key m /\ forall k v r, In (k, v) m -> k <> "hoodie." ++ r.
