(** * Which values a column of bytes shows, and simple Avro types *)
From Verif Require Import Base Str M_Avro S_Avro.
Local Open Scope string_scope.
(** A column of bytes may also get text and lists of numbers.  A list is shown if its items are bytes; but of longs only the
    low 32 bits count: a long that is no byte may be shown as one. *)
Definition byte_item (v : value) (c : ascii) : Prop :=
  let n := Z.of_N (N_of_ascii c) in v = AvInt n \/ exists k, v = AvLong (n + k * 4294967296).
Definition bytes_value (v : value) (s : string) : Prop :=
  exists w, (v = w /\ (forall i x, v <> AvUnion i x) \/ exists i, v = AvUnion i w)
    /\ (w = AvBytes s \/ w = AvString s \/ exists items, w = AvArray items /\ Forall2 byte_item items (list_ascii_of_string s)).
(** The simple types without a name. *)
Definition simple_type (s : avro) : Prop := In s [ScNull; ScBoolean; ScInt; ScLong; ScFloat; ScDouble; ScBytes; ScString].
