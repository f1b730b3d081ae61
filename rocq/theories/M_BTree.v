(** Model of the parts of [std::collections::{BTreeMap, BTreeSet}] the code uses: lists kept sorted
    by key.  [kcmp] is the key order ([Ord::cmp]). *)
From Verif Require Import Base.

Section Sorted.
Context {A K : Type}.
Variable key : A -> K.
Variable kcmp : K -> K -> comparison.

(** [BTreeMap::get] / lookup of the element with a given key *)
Fixpoint sget (k : K) (l : list A) : option A :=
  match l with
  | [] => None
  | x :: xs => match kcmp k (key x) with Eq => Some x | _ => sget k xs end
  end.

(** [BTreeMap::insert]: an element with an equal key is replaced *)
Fixpoint sput (x : A) (l : list A) : list A :=
  match l with
  | [] => [x]
  | y :: ys =>
      match kcmp (key x) (key y) with
      | Lt => x :: y :: ys
      | Eq => x :: ys
      | Gt => y :: sput x ys
      end
  end.

(** [BTreeSet::insert]: an element with an equal key is kept and the new one dropped *)
Fixpoint sadd (x : A) (l : list A) : list A :=
  match l with
  | [] => [x]
  | y :: ys =>
      match kcmp (key x) (key y) with
      | Lt => x :: y :: ys
      | Eq => y :: ys
      | Gt => y :: sadd x ys
      end
  end.

(** [BTreeMap::range(..=k).next_back()]: the last element with key <= k *)
Definition slast_le (k : K) (l : list A) : option A :=
  last_opt (filter (fun x => match kcmp (key x) k with Gt => false | _ => true end) l).

(** [BTreeMap::get_mut] followed by an update of the element (which keeps its key) *)
Fixpoint supdate (k : K) (f : A -> A) (l : list A) : list A :=
  match l with
  | [] => []
  | x :: xs => match kcmp k (key x) with Eq => f x :: xs | _ => x :: supdate k f xs end
  end.
End Sorted.
