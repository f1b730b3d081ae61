(** Model of crates/core/src/avro_to_arrow/schema.rs: the metadata of Arrow fields.  M_Avro has the same functions without
    it. *)
From Verif Require Import Base Str M_Avro.
Local Open Scope string_scope.

(** [apache_avro] 0.17: what a named type has besides its own name: the namespace, the aliases (a namespace and a name
    each) and the documentation. *)
Record named := { n_namespace : option string; n_aliases : option (list (option string * string)); n_doc : option string }.
(** [apache_avro::Schema] with documentation.  A record field is its name, its aliases, its documentation and its schema.
    [MsOther] stands for the schemas without documentation in them, as those without parts. *)
Inductive mschema :=
| MsOther (s : avro)
| MsArray (items : mschema) | MsMap (values : mschema) | MsUnion (variants : list mschema)
| MsRecord (n : named) (fields : list (string * list string * option string * mschema))
| MsEnum (n : named) (symbols : list string) | MsFixed (n : named) (size : nat).
(** The metadata of a field, a [HashMap] with at most two keys. *)
Definition meta := list (string * string).
(** Arrow types, with the metadata of the fields in them. *)
Inductive mtype :=
| MtPlain (d : dtype)
| MtList (name : string) (item : mtype) (nullable : bool) (m : meta)
| MtDict (key : dtype) (val : mtype)
| MtStruct (fields : list (string * mtype * bool * meta))
| MtUnion (fields : list (string * mtype * bool * meta)).
Definition mfield : Type := string * mtype * bool * meta.

(** [Name::fullname], [Alias::fullname] of [apache_avro]: a name with a dot is full *)
Definition fullname (namespace : option string) (name : string) : string :=
  if has_char "." name then name else match namespace with Some ns => if String.eqb ns "" then name else ns ++ "." ++ name | None => name end.
(** schema.rs:276-287 [aliased] *)
Definition aliased (alias : option string * string) (namespace default : option string) : string :=
  match fst alias with
  | Some _ => fullname (fst alias) (snd alias)
  | None => match (match namespace with Some ns => Some ns | None => default end) with
            | Some ns => ns ++ "." ++ snd alias
            | None => fullname (fst alias) (snd alias)
            end
  end.
Definition named_of (s : mschema) : option named :=
  match s with MsRecord n _ | MsEnum n _ | MsFixed n _ => Some n | _ => None end.
(** schema.rs:229-273 [external_props] *)
Definition external_props (s : mschema) : meta :=
  match named_of s with
  | None => []
  | Some n =>
      ((match n_doc n with Some d => [("avro::doc", d)] | None => [] end)
       ++ (match n_aliases n with
           | Some al => [("avro::aliases", ("[" ++ join "," (map (fun a => aliased a (n_namespace n) None) al) ++ "]")%string)]
           | None => []
           end))%list
  end.

Definition is_null (s : mschema) : bool := match s with MsOther a => is_null_schema a | _ => false end.
Definition any_null (variants : list mschema) : bool := existsb is_null variants.
Fixpoint erase_type (t : mtype) : dtype :=
  match t with
  | MtPlain d => d
  | MtList name item nullable _ => DList name (erase_type item) nullable
  | MtDict key val => DDict key (erase_type val)
  | MtStruct fs => DStruct (map (fun f => match f with (name, t, nullable, _) => (name, erase_type t, nullable) end) fs)
  | MtUnion fs => DUnion (map (fun f => match f with (name, t, nullable, _) => (name, erase_type t, nullable) end) fs)
  end.
(** schema.rs:102-117: the properties of a field of a nested record *)
Definition field_props (doc : option string) : meta := match doc with Some d => [("avro::doc", d)] | None => [] end.
(** schema.rs:56-139 [schema_to_field_with_props]: the type and the nullability; the metadata is what the caller passes *)
Fixpoint to_mtype (s : mschema) (nullable : bool) {struct s} : outcome (mtype * bool) :=
  match s with
  | MsOther a => let* (d, n) := to_type a nullable in Ok (MtPlain d, n)
  | MsArray items => let* (t, n) := to_mtype items false in Ok (MtList "element" t n [], nullable)
  | MsMap values => let* (t, _) := to_mtype values false in Ok (MtDict DUtf8 t, nullable)
  | MsUnion vs =>
      if any_null vs && Nat.eqb (List.length vs) 2 then
        (fix first (l : list mschema) : outcome (mtype * bool) :=
           match l with
           | [] => Err EAvro
           | s :: r => if is_null s then first r else let* (t, _) := to_mtype s (any_null vs) in Ok (t, true)
           end) vs
      else
        let* fs := (fix all (l : list mschema) : outcome (list mfield) :=
           match l with
           | [] => Ok []
           | s :: r => let* (t, n) := to_mtype s (any_null vs) in let* fs := all r in Ok ((default_field_name (erase_type t), t, n, []) :: fs)
           end) vs in
        Ok (MtUnion fs, nullable)
  | MsRecord _ fields =>
      let* fs := (fix all (l : list (string * list string * option string * mschema)) : outcome (list mfield) :=
         match l with
         | [] => Ok []
         | (name, _, doc, s) :: r => let* (t, n) := to_mtype s false in let* fs := all r in Ok ((name, t, n, field_props doc) :: fs)
         end) fields in
      Ok (MtStruct fs, nullable)
  | MsEnum _ _ => Ok (MtPlain DUtf8, nullable)
  | MsFixed _ size => Ok (MtPlain (DFixed size), nullable)
  end.
Definition may_be_null (s : mschema) : bool := match s with MsUnion vs => any_null vs | MsOther a => is_nullable a | _ => false end.
(** schema.rs:28-46 [to_arrow_schema]; 48-54 [schema_to_field] *)
Definition to_documented (s : mschema) : outcome (list mfield) :=
  match s with
  | MsRecord _ fields =>
      mapM (fun f => match f with (name, _, _, s) => let* (t, n) := to_mtype s (may_be_null s) in Ok (name, t, n, external_props s) end) fields
  | MsOther a => let* fs := to_arrow_schema a in Ok (map (fun f => (fname f, MtPlain (ftype f), fnull f, [])) fs)
  | _ => let* (t, n) := to_mtype s false in Ok [("", t, n, [])]
  end.
