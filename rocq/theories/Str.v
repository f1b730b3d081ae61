(** Rust [str] operations on byte strings.

    A Rust [str] is a sequence of UTF-8 bytes; here it is a [string] with one [ascii] per byte.
    The operations below are those of the Rust standard library used by hudi-rs; they are stated
    on bytes, which agrees with Rust because every separator used in the code base is an ASCII
    character (an ASCII byte never occurs inside a multi-byte UTF-8 sequence). *)
From Verif Require Import Base.
Local Open Scope string_scope.

(** Does the byte [c] occur in [s]?  ([str::contains(char)]) *)
Fixpoint has_char (c : ascii) (s : string) : bool :=
  match s with
  | EmptyString => false
  | String x xs => Ascii.eqb x c || has_char c xs
  end.

(** [str::split_once(c)]: split at the first occurrence. *)
Fixpoint split_once (c : ascii) (s : string) : option (string * string) :=
  match s with
  | EmptyString => None
  | String x xs =>
      if Ascii.eqb x c then Some (EmptyString, xs)
      else match split_once c xs with
           | Some (a, b) => Some (String x a, b)
           | None => None
           end
  end.

(** [str::rsplit_once(c)]: split at the last occurrence. *)
Fixpoint rsplit_once (c : ascii) (s : string) : option (string * string) :=
  match s with
  | EmptyString => None
  | String x xs =>
      match rsplit_once c xs with
      | Some (a, b) => Some (String x a, b)
      | None => if Ascii.eqb x c then Some (EmptyString, xs) else None
      end
  end.

(** [str::split(c)]: always at least one piece. *)
Fixpoint split (c : ascii) (s : string) : list string :=
  match s with
  | EmptyString => [EmptyString]
  | String x xs =>
      if Ascii.eqb x c then EmptyString :: split c xs
      else match split c xs with
           | [] => [String x EmptyString]   (* unreachable: [split] is never empty *)
           | p :: ps => String x p :: ps
           end
  end.

(** Pieces joined by a separator ([slice::join]). *)
Fixpoint join (c : ascii) (l : list string) : string :=
  match l with
  | [] => EmptyString
  | [p] => p
  | p :: ps => p ++ String c (join c ps)
  end.

(** [str::starts_with] with a string pattern. *)
Fixpoint starts_with (p s : string) : bool :=
  match p, s with
  | EmptyString, _ => true
  | String a p', String b s' => Ascii.eqb a b && starts_with p' s'
  | String _ _, EmptyString => false
  end.

Fixpoint rev_append_str (s acc : string) : string :=
  match s with
  | EmptyString => acc
  | String x xs => rev_append_str xs (String x acc)
  end.
Definition rev_str (s : string) : string := rev_append_str s EmptyString.

(** [str::ends_with] with a string pattern. *)
Definition ends_with (p s : string) : bool := starts_with (rev_str p) (rev_str s).

(** The first [n] bytes and the rest, without any check. *)
Fixpoint take (n : nat) (s : string) : string :=
  match n, s with
  | S k, String x xs => String x (take k xs)
  | _, _ => EmptyString
  end.
Fixpoint drop (n : nat) (s : string) : string :=
  match n, s with
  | O, _ => s
  | S k, String _ xs => drop k xs
  | S _, EmptyString => EmptyString
  end.

(** UTF-8 continuation bytes are 0x80..0xBF. *)
Definition is_cont_byte (c : ascii) : bool :=
  let n := N_of_ascii c in (128 <=? n)%N && (n <? 192)%N.

(** [str::is_char_boundary(i)]: the start, the end, or a byte that is not a continuation byte. *)
Definition is_char_boundary (s : string) (i : nat) : bool :=
  match drop i s with
  | EmptyString => Nat.eqb i (String.length s)
  | String c _ => Nat.eqb i 0 || negb (is_cont_byte c)
  end.

(** [&s[..i]] and [&s[i..]]: panic when [i] is out of bounds or not a char boundary. *)
Definition slice_to (s : string) (i : nat) : outcome string :=
  if is_char_boundary s i then Ok (take i s) else Panic.
Definition slice_from (s : string) (i : nat) : outcome string :=
  if is_char_boundary s i then Ok (drop i s) else Panic.

Definition is_digit (c : ascii) : bool :=
  let n := N_of_ascii c in (48 <=? n)%N && (n <=? 57)%N.
Definition digit_val (c : ascii) : Z := Z.of_N (N_of_ascii c) - 48.

(** ASCII part of [char::is_whitespace]: tab, LF, VT, FF, CR, space. *)
Definition is_ascii_ws (c : ascii) : bool :=
  let n := N_of_ascii c in ((9 <=? n)%N && (n <=? 13)%N) || (n =? 32)%N.

(** [str::trim_start] with the full Unicode [White_Space] set: besides the ASCII ones, U+0085,
    U+00A0, U+1680, U+2000..U+200A, U+2028, U+2029, U+202F, U+205F, U+3000, in UTF-8. *)
Fixpoint trim_start (s : string) : string :=
  match s with
  | EmptyString => EmptyString
  | String c s1 =>
      if is_ascii_ws c then trim_start s1
      else match s1 with
           | EmptyString => s
           | String c2 s2 =>
               let n1 := N_of_ascii c in
               let n2 := N_of_ascii c2 in
               if ((n1 =? 194)%N && ((n2 =? 133)%N || (n2 =? 160)%N)) then trim_start s2
               else match s2 with
                    | EmptyString => s
                    | String c3 s3 =>
                        let n3 := N_of_ascii c3 in
                        if ((n1 =? 225)%N && (n2 =? 154)%N && (n3 =? 128)%N)
                           || ((n1 =? 226)%N && (n2 =? 128)%N
                               && (((128 <=? n3)%N && (n3 <=? 138)%N)
                                   || (n3 =? 168)%N || (n3 =? 169)%N || (n3 =? 175)%N))
                           || ((n1 =? 226)%N && (n2 =? 129)%N && (n3 =? 159)%N)
                           || ((n1 =? 227)%N && (n2 =? 128)%N && (n3 =? 128)%N)
                        then trim_start s3
                        else s
                    end
           end
  end.

(** [str::trim_end]: drop the longest suffix made of white space only (a byte position inside a
    multi-byte character never starts a white-space character). *)
Fixpoint trim_end (s : string) : string :=
  match trim_start s with
  | EmptyString => EmptyString
  | _ => match s with
         | EmptyString => EmptyString
         | String c xs => String c (trim_end xs)
         end
  end.

(** [str::trim]. *)
Definition trim (s : string) : string := trim_end (trim_start s).

(** [str::to_ascii_lowercase]. *)
Definition lower_ascii (c : ascii) : ascii :=
  let n := N_of_ascii c in
  if ((65 <=? n)%N && (n <=? 90)%N) then ascii_of_N (n + 32) else c.
Fixpoint to_ascii_lowercase (s : string) : string :=
  match s with
  | EmptyString => EmptyString
  | String c xs => String (lower_ascii c) (to_ascii_lowercase xs)
  end.

(** Byte-wise lexicographic order, the [Ord] instance of [str]. *)
Definition scmp (a c : string) : comparison := String.compare a c.
Definition sltb (a c : string) : bool := match scmp a c with Lt => true | _ => false end.
Definition sleb (a c : string) : bool := match scmp a c with Gt => false | _ => true end.
Definition slt (a c : string) : Prop := scmp a c = Lt.
Definition sle (a c : string) : Prop := scmp a c <> Gt.

(** Unsigned decimal parsing as by [str::parse::<u32>()] etc.: an optional leading '+', then at
    least one digit, nothing else, value at most [max]. *)
Fixpoint parse_digits (acc : Z) (s : string) : option Z :=
  match s with
  | EmptyString => Some acc
  | String c xs => if is_digit c then parse_digits (10 * acc + digit_val c)%Z xs else None
  end.
Definition parse_unsigned (max : Z) (s : string) : option Z :=
  let body := match s with
              | String c xs => if Ascii.eqb c "+" then xs else s
              | EmptyString => s
              end in
  match body with
  | EmptyString => None
  | _ => match parse_digits 0 body with
         | Some v => if (v <=? max)%Z then Some v else None
         | None => None
         end
  end.
Definition u32_max : Z := 4294967295.
Definition u64_max : Z := 18446744073709551615.
Definition parse_u32 : string -> option Z := parse_unsigned u32_max.
Definition parse_usize : string -> option Z := parse_unsigned u64_max.
