(** What the metadata of the columns of an Avro schema is to be. *)
From Verif Require Import Base Str M_Avro M_Docs.
Local Open Scope string_scope.

(** Without the documentation. *)
Fixpoint undocumented (s : mschema) : avro :=
  match s with
  | MsOther a => a
  | MsArray i => ScArray (undocumented i)
  | MsMap v => ScMap (undocumented v)
  | MsUnion vs => ScUnion (map undocumented vs)
  | MsRecord _ fields => ScRecord (map (fun f => match f with (name, aliases, _, s) => (name, aliases, undocumented s) end) fields)
  | MsEnum _ symbols => ScEnum symbols
  | MsFixed _ size => ScFixed size
  end.
Definition without_metadata (f : mfield) : field := match f with (name, t, nullable, _) => (name, erase_type t, nullable) end.

(** The field of a record within [s], by positions of fields and of variants, through arrays, maps and optional types, and
    its documentation. *)
Inductive field_doc : mschema -> list nat -> option string -> Prop :=
| fd_here : forall n fields i name aliases doc s, nth_error fields i = Some (name, aliases, doc, s) -> field_doc (MsRecord n fields) [i] doc
| fd_in : forall n fields i name aliases d s path doc, nth_error fields i = Some (name, aliases, d, s) -> field_doc s path doc -> field_doc (MsRecord n fields) (i :: path) doc
| fd_array : forall s path doc, field_doc s path doc -> field_doc (MsArray s) path doc
| fd_map : forall s path doc, field_doc s path doc -> field_doc (MsMap s) path doc
| fd_first : forall s path doc, s <> MsOther ScNull -> field_doc s path doc -> field_doc (MsUnion [s; MsOther ScNull]) path doc
| fd_second : forall s path doc, s <> MsOther ScNull -> field_doc s path doc -> field_doc (MsUnion [MsOther ScNull; s]) path doc
| fd_variant : forall vs i s path doc, ~ (List.length vs = 2%nat /\ In (MsOther ScNull) vs) -> nth_error vs i = Some s -> field_doc s path doc -> field_doc (MsUnion vs) (i :: path) doc.
(** The metadata of the fields within an Arrow type, by the same positions. *)
Inductive field_meta : mtype -> list nat -> meta -> Prop :=
| fm_here : forall fs i name t nullable m, nth_error fs i = Some (name, t, nullable, m) -> field_meta (MtStruct fs) [i] m
| fm_in : forall fs i name t nullable m' path m, nth_error fs i = Some (name, t, nullable, m') -> field_meta t path m -> field_meta (MtStruct fs) (i :: path) m
| fm_list : forall name t nullable m' path m, field_meta t path m -> field_meta (MtList name t nullable m') path m
| fm_map : forall key t path m, field_meta t path m -> field_meta (MtDict key t) path m
| fm_variant : forall fs i name t nullable m' path m, nth_error fs i = Some (name, t, nullable, m') -> field_meta t path m -> field_meta (MtUnion fs) (i :: path) m.
Definition doc_only (doc : option string) (m : meta) : Prop :=
  match doc with Some d => m = [("avro::doc", d)] | None => m = [] end.

(** The full name of an alias: in its own namespace, or else in that of the type. *)
Definition full_name (namespace : option string) (alias : option string * string) : string :=
  match fst alias, namespace with
  | Some ns, _ => ns ++ "." ++ snd alias
  | None, Some ns => ns ++ "." ++ snd alias
  | None, None => snd alias
  end.
(** Namespaces that are given are not empty, and names have no dots; so [apache_avro] splits them. *)
Definition names_split (n : named) : Prop :=
  forall al a, n_aliases n = Some al -> In a al -> has_char "." (snd a) = false /\ fst a <> Some "".
(** The metadata of a column: the documentation and the aliases of its type. *)
Definition of_type (s : mschema) (n : named) : Prop := (exists fields, s = MsRecord n fields) \/ (exists symbols, s = MsEnum n symbols) \/ exists size, s = MsFixed n size.
Definition describes (s : mschema) (m : meta) : Prop :=
  NoDup (map fst m)
  /\ forall key v, In (key, v) m <->
       (key = "avro::doc" /\ exists n, of_type s n /\ n_doc n = Some v)
       \/ (key = "avro::aliases" /\ exists n al, of_type s n /\ n_aliases n = Some al /\ v = "[" ++ join "," (map (full_name (n_namespace n)) al) ++ "]").
