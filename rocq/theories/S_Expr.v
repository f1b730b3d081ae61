(** Specification of filters, partition naming and query-engine predicates. *)
From Verif Require Import Base Str M_Utf8 M_Expr.
Local Open Scope string_scope.

(** What an operator says about the comparison of a value with the filter's value. *)
Definition op_meaning (o : operator) (c : comparison) : Prop :=
  match o with
  | OEq => c = Eq | ONe => c <> Eq
  | OLt => c = Lt | OLte => c = Lt \/ c = Eq
  | OGt => c = Gt | OGte => c = Gt \/ c = Eq
  end.

(** [e] is a percent-encoding of [v]: every byte is written as itself or as [%XX]; the percent sign
    is never written as itself.  Any set of escaped characters is allowed. *)
Inductive encodes : string -> string -> Prop :=
| enc_nil : encodes "" ""
| enc_plain : forall c v e, c <> "%"%char -> encodes v e -> encodes (String c v) (String c e)
| enc_pct : forall c h l x y v e, hex_val h = Some x -> hex_val l = Some y -> ascii_of_N (x * 16 + y) = c ->
    encodes v e -> encodes (String c v) (String "%" (String h (String l e))).

(** The directory of a partition: one segment per field, in order; hive-style segments carry the
    field name; values are percent-encoded if the table says so. *)
Definition segment (hive : bool) (name e : string) : string := if hive then name ++ "=" ++ e else e.
Definition named {dtype} (hive url : bool) (fields : list (string * dtype)) (values : list string) (path : string) : Prop :=
  exists encs, Forall2 (fun v e => if url then encodes v e else v = e) values encs
    /\ path = join "/" (map (fun x => segment hive (fst (fst x)) (snd x)) (combine fields encs)).

(** Field names of a partition: distinct, without the characters that have a meaning in paths. *)
Definition wf_fields {dtype} (fields : list (string * dtype)) : Prop :=
  NoDup (map fst fields)
  /\ forall n, In n (map fst fields) -> has_char "=" n = false /\ has_char "/" n = false /\ has_char "%" n = false.

Section Sat.
Variable dtype value : Type.
Variable cast : dtype -> string -> option value.
Variable cmp : value -> value -> option comparison.

(** The partition with these values of the fields can be compared with a filter / satisfies it. *)
Definition compares (fields : list (string * dtype)) (values : list string) (f : filter_expr) (c : comparison) : Prop :=
  exists ty v x w, In ((fe_field f, ty), v) (combine fields values)
    /\ cast ty v = Some x /\ cast ty (fe_value f) = Some w /\ cmp x w = Some c.
Definition satisfies (fields : list (string * dtype)) (values : list string) (f : filter_expr) : Prop :=
  exists c, compares fields values f c /\ op_meaning (fe_op f) c.
End Sat.

(** [l] is a subsequence of [m]. *)
Inductive subseq {A} : list A -> list A -> Prop :=
| sub_nil : forall m, subseq [] m
| sub_take : forall x l m, subseq l m -> subseq (x :: l) (x :: m)
| sub_skip : forall x l m, subseq l m -> subseq l (x :: m).

(** ** Truth of a predicate on a row, with SQL's unknown as [None] *)
Section Truth.
Variable lit value : Type.
Variable lit_value : lit -> option value.                    (* [None]: NULL *)
Variable cmp : value -> value -> option comparison.
Variable row : string -> option value.                       (* [None]: NULL *)
(** Truth of the expressions outside the fragment. *)
Variable opaque : df_expr lit -> option bool.

Definition operand (e : df_expr lit) : option (option value) :=
  match e with
  | XCol c => Some (row c)
  | XLit l => Some (lit_value l)
  | _ => None
  end.
Definition df_test (o : df_op) (c : comparison) : option bool :=
  match o with
  | DEq => Some (match c with Eq => true | _ => false end)
  | DNotEq => Some (match c with Eq => false | _ => true end)
  | DLt => Some (match c with Lt => true | _ => false end)
  | DLtEq => Some (match c with Gt => false | _ => true end)
  | DGt => Some (match c with Gt => true | _ => false end)
  | DGtEq => Some (match c with Lt => false | _ => true end)
  | DOther _ => None
  end.
Fixpoint truth (e : df_expr lit) : option bool :=
  match e with
  | XBin l o r =>
      match operand l, operand r, o with
      | _, _, DOther _ => opaque e
      | Some (Some a), Some (Some b), _ => match cmp a b with Some c => df_test o c | None => None end
      | Some _, Some _, _ => None
      | _, _, _ => opaque e
      end
  | XNot n => match truth n with Some b => Some (negb b) | None => None end
  | _ => opaque e
  end.
End Truth.

(** The expression compares a column with a literal, possibly under one NOT. *)
Definition compared {lit} (e : df_expr lit) (c : string) (l : lit) : Prop :=
  exists o b, (b = XBin (XCol c) o (XLit l) \/ b = XBin (XLit l) o (XCol c)) /\ (e = b \/ e = XNot b).
(** The text of its literal, read back as a value of the column, is the value of the literal. *)
Definition literal_text_ok {dtype value lit} (cast : dtype -> string -> option value) (lit_display : lit -> string) (lit_value : lit -> option value)
    (coltype : string -> dtype) (e : df_expr lit) : Prop :=
  forall c l v, compared e c l -> lit_value l = Some v -> cast (coltype c) (lit_display l) = Some v.

(** The conjuncts whose translation is right: the literal is on the right, or the operator is
    symmetric. *)
Definition literal_side_ok {lit} (e : df_expr lit) : Prop :=
  let ok x := match x with
              | XBin (XLit _) o (XCol _) => o = DEq \/ o = DNotEq \/ exists n, o = DOther n
              | _ => True
              end in
  match e with XNot n => ok n | _ => ok e end.
