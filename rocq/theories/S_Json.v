(** Specification of JSON texts (RFC 8259): which texts stand for a value.  Only the type [json] is used. *)
From Verif Require Import Base Str M_Utf8 M_Builder.
Local Open Scope string_scope.

(** Blanks, tabs and ends of lines. *)
Definition blank (w : string) : Prop := forall c, has_char c w = true -> In c [" "; "009"; "010"; "013"]%char.
Definition one (n : N) : string := String (ascii_of_N n) "".

(** The number of four hexadecimal digits, in either case. *)
Definition hex_digit (c : ascii) (n : N) : Prop :=
  (n < 10 /\ c = ascii_of_N (48 + n) \/ 10 <= n < 16 /\ (c = ascii_of_N (55 + n) \/ c = ascii_of_N (87 + n)))%N.
Definition hex_text (d : string) (n : N) : Prop :=
  exists a b c e x y z w, d = String a (String b (String c (String e ""))) /\ hex_digit a x /\ hex_digit b y /\ hex_digit c z /\ hex_digit e w
  /\ n = (4096 * x + 256 * y + 16 * z + w)%N.
(** The bytes of a character in UTF-8 (RFC 3629): six bits of its number in each byte but the first. *)
Inductive utf8_char : N -> string -> Prop :=
| u1 : forall n, (n < 128)%N -> utf8_char n (one n)
| u2 : forall a b, (2 <= a < 32 -> b < 64 -> utf8_char (64 * a + b) (one (192 + a) ++ one (128 + b)))%N
| u3 : forall a b c, (a < 16 -> b < 64 -> c < 64 -> 2048 <= 4096 * a + 64 * b + c -> utf8_char (4096 * a + 64 * b + c) (one (224 + a) ++ one (128 + b) ++ one (128 + c)))%N
| u4 : forall a b c e, (a < 8 -> b < 64 -> c < 64 -> e < 64 -> 65536 <= 262144 * a + 4096 * b + 64 * c + e ->
    utf8_char (262144 * a + 4096 * b + 64 * c + e) (one (240 + a) ++ one (128 + b) ++ one (128 + c) ++ one (128 + e)))%N.
(** The characters after a backslash that stand for one character. *)
Definition escapes : list (ascii * N) := [("""", 34); ("\", 92); ("/", 47); ("b", 8); ("f", 12); ("n", 10); ("r", 13); ("t", 9)]%char%N.

(** The characters of a string between the quotes. *)
Inductive chars : string -> string -> Prop :=
| ch_end : chars "" ""
| ch_plain : forall c t d, (32 <= N_of_ascii c)%N -> c <> """"%char -> c <> "\"%char -> chars t d -> chars (String c t) (String c d)
| ch_escape : forall e n t d, In (e, n) escapes -> chars t d -> chars (one n ++ t) ("\" ++ String e d)
| ch_unit : forall h n u t d, hex_text h n -> (n < 55296 \/ 57343 < n)%N -> utf8_char n u -> chars t d -> chars (u ++ t) ("\u" ++ h ++ d)
| ch_pair : forall h l a b u t d, hex_text h (55296 + a) -> hex_text l (56320 + b) -> (a < 1024)%N -> (b < 1024)%N -> utf8_char (65536 + 1024 * a + b) u -> chars t d ->
    chars (u ++ t) ("\u" ++ h ++ "\u" ++ l ++ d).
Definition quoted (t d : string) : Prop := utf8_valid t = true /\ exists e, chars t e /\ d = """" ++ e ++ """".

(** Digits; the whole part of a number begins with a zero only if it is one. *)
Definition digits (d : string) : Prop := d <> "" /\ forall c, has_char c d = true -> is_digit c = true.
Definition whole (d : string) : Prop := digits d /\ (d = "0" \/ starts_with "0" d = false).
Inductive num_lexeme : string -> Prop :=
| nl : forall m i f e, m = "" \/ m = "-" -> whole i ->
    f = "" \/ (exists x, digits x /\ f = "." ++ x) ->
    e = "" \/ (exists l g x, (l = "e" \/ l = "E") /\ (g = "" \/ g = "+" \/ g = "-") /\ digits x /\ e = l ++ g ++ x) ->
    num_lexeme (m ++ i ++ f ++ e).

Section Text.
(** What a number stands for (nothing below depends on it), and the map of the members of an object. *)
Variable number_of : string -> option Z.
Variable collect : list (string * json) -> list (string * json).

(** [text n v d]: [d] stands for [v], with at most [n] arrays and objects around any value in it, itself included. *)
Inductive text : nat -> json -> string -> Prop :=
| tx_null : forall n, text n JNull "null"
| tx_true : forall n, text n (JBool true) "true"
| tx_false : forall n, text n (JBool false) "false"
| tx_number : forall n d z, num_lexeme d -> number_of d = Some z -> text n (JNum z) d
| tx_string : forall n t d, quoted t d -> text n (JStr t) d
| tx_empty_array : forall n w, blank w -> text (S n) (JArr []) ("[" ++ w ++ "]")
| tx_array : forall n l d, l <> [] -> elements n l d -> text (S n) (JArr l) ("[" ++ d ++ "]")
| tx_empty_object : forall n w, blank w -> text (S n) (JObj (collect [])) ("{" ++ w ++ "}")
| tx_object : forall n l d, l <> [] -> members n l d -> text (S n) (JObj (collect l)) ("{" ++ d ++ "}")
with elements : nat -> list json -> string -> Prop :=
| el_last : forall n w v d w', blank w -> text n v d -> blank w' -> elements n [v] (w ++ d ++ w')
| el_more : forall n w v d w' l e, blank w -> text n v d -> blank w' -> elements n l e -> elements n (v :: l) (w ++ d ++ w' ++ "," ++ e)
with members : nat -> list (string * json) -> string -> Prop :=
| mb_last : forall n w k q w1 w2 v d w3, blank w -> quoted k q -> blank w1 -> blank w2 -> text n v d -> blank w3 ->
    members n [(k, v)] (w ++ q ++ w1 ++ ":" ++ w2 ++ d ++ w3)
| mb_more : forall n w k q w1 w2 v d w3 l e, blank w -> quoted k q -> blank w1 -> blank w2 -> text n v d -> blank w3 -> members n l e ->
    members n ((k, v) :: l) (w ++ q ++ w1 ++ ":" ++ w2 ++ d ++ w3 ++ "," ++ e).
(** The metadata of an instant: an object with blanks around it; no more than 127 arrays and objects inside of each other. *)
Definition metadata_text (m : list (string * json)) (d : string) : Prop :=
  exists w o w', blank w /\ blank w' /\ text 127 (JObj m) o /\ d = w ++ o ++ w'.
End Text.

(** A map of members has one entry for each key, the last. *)
Fixpoint last_member (k : string) (l : list (string * json)) : option json :=
  match l with
  | [] => None
  | (k', v) :: r => match last_member k r with Some x => Some x | None => if String.eqb k k' then Some v else None end
  end.
Definition is_map (collect : list (string * json) -> list (string * json)) : Prop :=
  forall l, NoDup (map fst (collect l)) /\ forall k, jget k (collect l) = last_member k l.
