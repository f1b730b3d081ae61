(** Specification of SQL queries over the objects of a table. *)
From Verif Require Import Base M_Expr S_Expr.
Local Open Scope string_scope.

(** The conjunct compares a column with a literal by one of [=, <>, <, <=, >, >=], possibly under one NOT. *)
Definition comparison_of {lit} (e : df_expr lit) (k : string) (l : lit) : Prop :=
  exists o b, (b = XBin (XCol k) o (XLit l) \/ b = XBin (XLit l) o (XCol k)) /\ (e = b \/ e = XNot b) /\ forall n, o <> DOther n.
(** Such a conjunct is about a partition column, and its literal, as text, is a value of the type of the column. *)
Definition literal_fits {T V lit} (cast : T -> string -> option V) (lit_display : lit -> string) (sch : list (string * T)) (columns : list string) (e : df_expr lit) : Prop :=
  forall k l, comparison_of e k l ->
    In k columns /\ exists ty v, In (k, ty) sch /\ (forall ty', In (k, ty') sch -> ty' = ty) /\ cast ty (lit_display l) = Some v.
