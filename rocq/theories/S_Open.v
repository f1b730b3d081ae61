(** Specification of opening a table: where each option comes from, and the names in the timeline
    directory that cannot be loaded. *)
From Verif Require Import Base Str M_Time M_Instant M_Config S_Config.
Local Open Scope string_scope.

(** The value of an option: from the properties of the table, from the caller, from the global file. *)
Definition option_value (props : options) (b : builder) (g : outcome string) (k : string) : option string :=
  first_given [oget k props;
               if String.eqb "hoodie.base.path" k then Some (b_base b) else oget k (b_hudi b);
               when (starts_with "hoodie." k) (oget k (b_options b));
               when (starts_with "hoodie." k) (oget k (global_options g))].
(** The value of a storage option: from the caller, from the environment. *)
Definition storage_value (env : list (string * string)) (b : builder) (k : string) : option string :=
  first_given [oget k (b_storage b); when (negb (starts_with "hoodie." k)) (oget k (b_options b)); env_value env k].
(** A short name, or one cut inside a character, before an action (see C03). *)
Definition bad_instant (n : string) : Prop := exists ts a, has_char "." ts = false /\ is_char_boundary ts 14 = false /\ (n = ts ++ "." ++ action_str a \/ n = ts ++ "." ++ action_str a ++ ".").
