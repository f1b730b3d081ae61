(** Model of crates/core/src/storage/reader.rs: the reader of an object, a [BufReader] over a [Cursor] (std::io, outside
    the repository) over all the bytes of the object.  Positions are [u64], offsets [i64], both as [Z]. *)
From Verif Require Import Base Str.
Local Open Scope string_scope.
Local Open Scope Z_scope.

Definition zlen (s : string) : Z := Z.of_nat (String.length s).

(** [std::io::Cursor<Bytes>] *)
Record cursor := { cu_data : string; cu_pos : Z }.
(** [Cursor::read] into a buffer of [n] bytes *)
Definition cursor_read (n : Z) (c : cursor) : string * cursor :=
  let s := take (Z.to_nat n) (drop (Z.to_nat (Z.min (cu_pos c) (zlen (cu_data c)))) (cu_data c)) in
  (s, {| cu_data := cu_data c; cu_pos := cu_pos c + zlen s |}).
(** [std::io::SeekFrom] *)
Inductive seek_from := FromStart (n : Z) | FromEnd (k : Z) | FromHere (k : Z).
(** [Cursor::seek]: an error is [None] and leaves the cursor where it is *)
Definition cursor_seek (to : seek_from) (c : cursor) : option (Z * cursor) :=
  let at_ p := {| cu_data := cu_data c; cu_pos := p |} in
  let add base k := let p := base + k in if (0 <=? p) && (p <? 2 ^ 64) then Some (p, at_ p) else None in
  match to with
  | FromStart n => Some (n, at_ n)
  | FromEnd k => add (zlen (cu_data c)) k
  | FromHere k => add (cu_pos c) k
  end.

(** [std::io::BufReader]: its capacity, the bytes in the buffer that are not consumed yet, the reader below *)
Record storage_reader := { sr_capacity : Z; sr_buffer : string; sr_inner : cursor }.
(** reader.rs:31-37 [StorageReader::new], with the bytes of the object: the capacity is their number *)
Definition open_reader (data : string) : storage_reader :=
  {| sr_capacity := zlen data; sr_buffer := ""; sr_inner := {| cu_data := data; cu_pos := 0 |} |}.

(** reader.rs:41-43 [read] with [BufReader::read]: an empty buffer is passed by if as much is asked for as it can hold,
    otherwise it is filled first *)
Definition sr_read (n : Z) (r : storage_reader) : string * storage_reader :=
  match sr_buffer r with
  | "" =>
      if sr_capacity r <=? n then
        let (s, c) := cursor_read n (sr_inner r) in (s, {| sr_capacity := sr_capacity r; sr_buffer := ""; sr_inner := c |})
      else
        let (b, c) := cursor_read (sr_capacity r) (sr_inner r) in
        (take (Z.to_nat n) b, {| sr_capacity := sr_capacity r; sr_buffer := drop (Z.to_nat n) b; sr_inner := c |})
  | b => (take (Z.to_nat n) b, {| sr_capacity := sr_capacity r; sr_buffer := drop (Z.to_nat n) b; sr_inner := sr_inner r |})
  end.

Definition emptied (r : storage_reader) (c : cursor) : storage_reader := {| sr_capacity := sr_capacity r; sr_buffer := ""; sr_inner := c |}.
(** reader.rs:47-49 [seek] with [BufReader::seek]: the reader below is ahead by what is in the buffer; [checked_sub] of
    [i64] fails below the least one.  The result, if it is no error, and the reader after *)
Definition sr_seek (to : seek_from) (r : storage_reader) : option Z * storage_reader :=
  let last r to := match cursor_seek to (sr_inner r) with Some (p, c) => (Some p, emptied r c) | None => (None, r) end in
  match to with
  | FromHere k =>
      let ahead := zlen (sr_buffer r) in
      if - 2 ^ 63 <=? k - ahead then last r (FromHere (k - ahead))
      else match cursor_seek (FromHere (- ahead)) (sr_inner r) with
           | Some (_, c) => last (emptied r c) (FromHere k)
           | None => (None, r)
           end
  | _ => last r to
  end.

(** ** [std::io::Read] on top of [read] *)
(** [Read::read_exact]: reads until the buffer of [n] bytes is full; [None] at the end of the data.  Every turn reads
    something or stops, so [n] turns suffice. *)
Fixpoint exact_loop (fuel : nat) (n : Z) (r : storage_reader) : option string * storage_reader :=
  if n <=? 0 then (Some "", r) else
  match fuel with
  | O => (None, r)
  | S f =>
      let (s, r') := sr_read n r in
      match s with
      | "" => (None, r')
      | _ => let (rest, r'') := exact_loop f (n - zlen s) r' in (option_map (append s) rest, r'')
      end
  end.
Definition sr_read_exact (n : Z) (r : storage_reader) : option string * storage_reader := exact_loop (Z.to_nat n) n r.

(** [Take::read_to_end] with a limit of [n]: reads of any sizes, of at most what is left of the limit, until the limit
    is reached or a read finds nothing *)
Inductive sr_read_up_to : Z -> storage_reader -> string -> storage_reader -> Prop :=
| up_limit : forall r, sr_read_up_to 0 r "" r
| up_end : forall n k r r', 0 < k <= n -> sr_read k r = ("", r') -> sr_read_up_to n r "" r'
| up_more : forall n k r s r' t r'', 0 < k <= n -> sr_read k r = (s, r') -> s <> "" -> sr_read_up_to (n - zlen s) r' t r'' -> sr_read_up_to n r (s ++ t) r''.

(** ** Programs that use a reader *)
Inductive request := Read (n : Z) | ReadExact (n : Z) | ReadUpTo (n : Z) | Seek (to : seek_from).
Inductive reply := Bytes (s : string) | Eof | At (p : Z) | BadSeek.
Inductive serve : storage_reader -> request -> storage_reader -> reply -> Prop :=
| se_read : forall r n s r', sr_read n r = (s, r') -> serve r (Read n) r' (Bytes s)
| se_exact : forall r n o r', sr_read_exact n r = (o, r') -> serve r (ReadExact n) r' (match o with Some s => Bytes s | None => Eof end)
| se_up : forall r n s r', sr_read_up_to n r s r' -> serve r (ReadUpTo n) r' (Bytes s)
| se_seek : forall r to o r', sr_seek to r = (o, r') -> serve r (Seek to) r' (match o with Some p => At p | None => BadSeek end).
Inductive session : storage_reader -> list request -> list reply -> Prop :=
| ss_done : forall r, session r [] []
| ss_more : forall r q r' a qs es, serve r q r' a -> session r' qs es -> session r (q :: qs) (a :: es).
