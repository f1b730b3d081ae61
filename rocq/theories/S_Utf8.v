(** Specification of text: the UTF-8 form of Unicode characters (Unicode standard, 3.9). *)
From Verif Require Import Base Str.
Local Open Scope string_scope.

(** Unicode scalar values: code points except surrogates. *)
Definition scalar (n : N) : Prop := (n < 55296 \/ 57344 <= n < 1114112)%N.
(** Their bytes: the bits of the number in groups of six, from the lowest. *)
Definition utf8 (n : N) : string :=
  let byte (b : N) (r : string) := String (ascii_of_N b) r in
  let next (d : N) := (128 + (n / d) mod 64)%N in
  if (n <? 128)%N then byte n ""
  else if (n <? 2048)%N then byte (192 + n / 64)%N (byte (128 + n mod 64)%N "")
  else if (n <? 65536)%N then byte (224 + n / 4096)%N (byte (next 64%N) (byte (128 + n mod 64)%N ""))
  else byte (240 + n / 262144)%N (byte (next 4096%N) (byte (next 64%N) (byte (128 + n mod 64)%N ""))).
Definition characters (l : list N) : string := fold_right (fun n r => (utf8 n ++ r)) "" l.
(** Text: the bytes of some characters. *)
Definition is_text (s : string) : Prop := exists l, Forall scalar l /\ s = characters l.
