(** Specification of the lists of instants of an action and of what commit metadata tells. *)
From Coq Require Import Sorted.
From Verif Require Import Base Str M_Time M_Instant M_Builder S_Time S_Timeline.
Local Open Scope string_scope.

(** The instants of a listing with an action, oldest first or newest first. *)
Definition listed_instants (L : ndt -> option ndt) (tz : string) (names : list string) (a : action) (desc : bool) (l : list instant) : Prop :=
  exists l0, denoted_instants (denotes_completed L tz [a]) names l0 /\ Permutation l0 l
    /\ StronglySorted instant_le (if desc then rev l else l).

(** The elements for which [P] holds, in order. *)
Inductive kept {A} (P : A -> Prop) : list A -> list A -> Prop :=
| kept_nil : kept P [] []
| kept_yes : forall x l l', P x -> kept P l l' -> kept P (x :: l) (x :: l')
| kept_no : forall x l l', ~ P x -> kept P l l' -> kept P (x :: l) l'.

(** The file of a completed instant under the table directory. *)
Definition instant_file (i : instant) : string := ".hoodie/" ++ file_name i.
(** The metadata of the instant says which operation wrote it. *)
Definition written_by (read : string -> outcome (list (string * json))) (i : instant) (op : string) : Prop :=
  exists md, read (instant_file i) = Ok md /\ jget "operationType" md = Some (JStr op).
(** The metadata records this Avro schema. *)
Definition records_schema (md : list (string * json)) (s : string) : Prop :=
  exists extra, jget "extraMetadata" md = Some (JObj extra) /\ jget "schema" extra = Some (JStr s).
