(** Specification of calls on a builder: the last value given counts, in each category by itself. *)
From Verif Require Import Base Str M_Instant M_Config M_Table M_Storage M_Objects M_Calls S_Config.
Local Open Scope string_scope.

Definition same_category (a b : category) : bool :=
  match a, b with Hudi, Hudi | Storage, Storage | Generic, Generic => true | _, _ => false end.
(** What was given in a category, in the order of the calls. *)
Definition given_in (c : category) (calls : list call) : list (string * string) :=
  flat_map (fun x => match x with
                     | One c' k v => if same_category c c' then [(k, v)] else []
                     | Many c' kvs => if same_category c c' then kvs else []
                     end) calls.
(** The last value given for a key. *)
Definition given (c : category) (calls : list call) (k : string) : option string := last_value (given_in c calls) k.

(** The options of a table opened at [uri] after these calls: first the properties of the table, then what was
    given. *)
Definition hudi_after (props : options) (uri : string) (calls : list call) (g : outcome string) (k : string) : option string :=
  first_given [oget k props;
               if String.eqb "hoodie.base.path" k then Some uri else given Hudi calls k;
               when (starts_with "hoodie." k) (given Generic calls k);
               when (starts_with "hoodie." k) (oget k (global_options g))].
Definition storage_after (env : list (string * string)) (calls : list call) (k : string) : option string :=
  first_given [given Storage calls k; when (negb (starts_with "hoodie." k)) (given Generic calls k); env_value env k].

(** The same result of opening: the same table (the options as maps), or the same failure. *)
Definition same_map (m m' : options) : Prop := forall k, oget k m = oget k m'.
Definition same_table (a b : table) : Prop :=
  same_map (t_configs a) (t_configs b) /\ same_map (t_storage a) (t_storage b) /\ t_commits a = t_commits b.
Definition same_opening (a b : outcome (table * url * list object)) : Prop :=
  match a, b with
  | Ok (ta, ua, oa), Ok (tb, ub, ob) => same_table ta tb /\ ua = ub /\ oa = ob
  | Err e, Err e' => e = e'
  | Panic, Panic => True
  | _, _ => False
  end.
(** A store looks at options as a map. *)
Definition map_like (stores : url -> options -> outcome (list object)) : Prop :=
  forall u s s', same_map s s' -> stores u s = stores u s'.
(** The properties of the table at a location are read through these storage options. *)
Definition properties_at (parse : string -> option url) (stores : url -> options -> outcome (list object)) (uri : string) (storage : string -> option string) (props : options) : Prop :=
  exists u m objs data, parse_uri parse uri = Ok u /\ (forall k, oget k m = storage k) /\ stores u m = Ok objs
    /\ get_file_data objs u ".hoodie/hoodie.properties" = Ok data /\ parse_data "=" data = Ok props.
