(** Common definitions: outcomes of Rust functions and small list helpers.

    A Rust [Result] value is [Ok v] or [Err e]; a panic (slice out of bounds, [unwrap]/[expect]
    on an error, [unreachable!]/[todo!]) is the explicit third outcome [Panic].  Error payloads
    (messages) are not modelled, only a tag for the error variant
    (crates/core/src/error.rs:26-80, crates/core/src/config/error.rs:26-47). *)
From Coq Require Export List Arith ZArith NArith Bool Lia Permutation String Ascii.
Export ListNotations.
Set Implicit Arguments.

Inductive err : Type :=
| ETimeline | EFileGroup | ECommitMetadata | ELogFormat | ELogBlock | EIo | EUtf8
| EConfigNotFound | EConfigParse | EConfigInvalid | EConfigUnsupported
| EArrow | ESchema | EStorage | EReadFileSlice | EMerge | EInvalidPartitionPath | EInvalidUri
| EAvro | EUnsupported.

Inductive outcome (A : Type) : Type :=
| Ok (a : A)
| Err (e : err)
| Panic.
Arguments Ok {A} a.
Arguments Err {A} e.
Arguments Panic {A}.

(** The [?] operator; a panic propagates. *)
Definition bind {A B} (o : outcome A) (f : A -> outcome B) : outcome B :=
  match o with
  | Ok a => f a
  | Err e => Err e
  | Panic => Panic
  end.

Notation "'let*' x ':=' a 'in' b" := (bind a (fun x => b))
  (at level 200, x pattern, a at level 100, b at level 200, right associativity).

(** [Option::ok_or]. *)
Definition ok_or {A} (o : option A) (e : err) : outcome A :=
  match o with Some a => Ok a | None => Err e end.

(** [Result::ok] on a non-panicking outcome / [matches!(.., Ok(_))]. *)
Definition is_ok {A} (o : outcome A) : bool :=
  match o with Ok _ => true | _ => false end.

Definition is_panic {A} (o : outcome A) : bool :=
  match o with Panic => true | _ => false end.

(** Collecting an iterator of [Result]s: stops at the first error or panic. *)
Fixpoint mapM {A B} (f : A -> outcome B) (l : list A) : outcome (list B) :=
  match l with
  | [] => Ok []
  | x :: xs =>
      let* y := f x in
      let* ys := mapM f xs in
      Ok (y :: ys)
  end.

(** A [for] loop threading a state through fallible steps. *)
Fixpoint foldM {A S} (f : S -> A -> outcome S) (s : S) (l : list A) : outcome S :=
  match l with
  | [] => Ok s
  | x :: xs => let* s' := f s x in foldM f s' xs
  end.

(** Last element of a list ([iter().next_back()]). *)
Fixpoint last_opt {A} (l : list A) : option A :=
  match l with
  | [] => None
  | [x] => Some x
  | _ :: xs => last_opt xs
  end.
