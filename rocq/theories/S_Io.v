(** Specification of reading an object: a position in its bytes. *)
From Verif Require Import Base M_Io.
Local Open Scope string_scope.
Local Open Scope Z_scope.

(** [s] are the [n] bytes of [data] at [p], or fewer, up to the end. *)
Definition bytes_at (data : string) (p n : Z) (s : string) : Prop :=
  (zlen data <= p /\ s = "")
  \/ exists before after, data = before ++ s ++ after /\ zlen before = p /\ (zlen s = n \/ zlen s < n /\ after = "").
Definition is_offset (k : Z) : Prop := - 2 ^ 63 <= k < 2 ^ 63.
Definition is_position (n : Z) : Prop := 0 <= n < 2 ^ 64.
Definition target (data : string) (p : Z) (to : seek_from) : Z :=
  match to with FromStart n => n | FromEnd k => zlen data + k | FromHere k => p + k end.

Inductive answered (data : string) (p : Z) : request -> Z -> reply -> Prop :=
| an_read : forall n s, bytes_at data p n s -> answered data p (Read n) (p + zlen s) (Bytes s)
| an_exact : forall n s, bytes_at data p n s -> zlen s = n -> answered data p (ReadExact n) (p + n) (Bytes s)
| an_eof : forall n s, bytes_at data p n s -> zlen s < n -> answered data p (ReadExact n) (p + zlen s) Eof
| an_up : forall n s, bytes_at data p n s -> answered data p (ReadUpTo n) (p + zlen s) (Bytes s)
| an_seek : forall to, is_position (target data p to) -> answered data p (Seek to) (target data p to) (At (target data p to))
| an_bad : forall to, ~ is_position (target data p to) -> answered data p (Seek to) p BadSeek.
Inductive transcript (data : string) : Z -> list request -> list reply -> Prop :=
| tr_done : forall p, transcript data p [] []
| tr_more : forall p q p' a qs es, answered data p q p' a -> transcript data p' qs es -> transcript data p (q :: qs) (a :: es).

(** Requests that a program can make: sizes of buffers and offsets fit their types. *)
Definition possible (q : request) : Prop :=
  match q with
  | Read n | ReadExact n => 0 <= n < 2 ^ 63
  | ReadUpTo n => is_position n
  | Seek (FromStart n) => is_position n
  | Seek (FromEnd k) | Seek (FromHere k) => is_offset k
  end.
