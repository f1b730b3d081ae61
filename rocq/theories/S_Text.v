(** Specification for C95: the strings in values that are read. *)
From Verif Require Import Base Str M_Builder M_Avro.
Local Open Scope string_scope.

(** [x] is a string in an Avro value, or a key of a map in it. *)
Inductive avro_string (x : string) : value -> Prop :=
| as_string : avro_string x (AvString x)
| as_union : forall i v, avro_string x v -> avro_string x (AvUnion i v)
| as_array : forall l v, In v l -> avro_string x v -> avro_string x (AvArray l)
| as_key : forall l v, In (x, v) l -> avro_string x (AvMap l)
| as_value : forall l k v, In (k, v) l -> avro_string x v -> avro_string x (AvMap l)
| as_field : forall l n v, In (n, v) l -> avro_string x v -> avro_string x (AvRecord l).
(** [x] is a string in a JSON value, or a name in it. *)
Inductive json_string (x : string) : json -> Prop :=
| js_string : json_string x (JStr x)
| js_array : forall l v, In v l -> json_string x v -> json_string x (JArr l)
| js_name : forall l v, In (x, v) l -> json_string x (JObj l)
| js_member : forall l k v, In (k, v) l -> json_string x v -> json_string x (JObj l).
