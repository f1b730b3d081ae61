(** UTF-8 validation and percent decoding of byte strings. *)
From Verif Require Import Base Str.
Local Open Scope string_scope.

Definition byte_in (lo hi : N) (c : ascii) : bool := (lo <=? N_of_ascii c)%N && (N_of_ascii c <=? hi)%N.
Definition cont_byte (c : ascii) : bool := byte_in 128 191 c.

(** [core::str::from_utf8] (used by [String::from_utf8] and [decode_utf8]): the table of well-formed
    byte sequences of the Unicode standard. *)
Definition utf8_3 (a b : ascii) : bool :=
  byte_in 224 224 a && byte_in 160 191 b
  || byte_in 225 236 a && cont_byte b
  || byte_in 237 237 a && byte_in 128 159 b
  || byte_in 238 239 a && cont_byte b.
Definition utf8_4 (a b : ascii) : bool :=
  byte_in 240 240 a && byte_in 144 191 b
  || byte_in 241 243 a && cont_byte b
  || byte_in 244 244 a && byte_in 128 143 b.
Fixpoint utf8_valid (s : string) : bool :=
  match s with
  | "" => true
  | String a r =>
      if byte_in 0 127 a then utf8_valid r
      else match r with
           | "" => false
           | String b r2 =>
               if byte_in 194 223 a && cont_byte b then utf8_valid r2
               else match r2 with
                    | "" => false
                    | String c r3 =>
                        if utf8_3 a b && cont_byte c then utf8_valid r3
                        else match r3 with
                             | "" => false
                             | String d r4 => utf8_4 a b && cont_byte c && cont_byte d && utf8_valid r4
                             end
                    end
           end
  end.

(** [percent_encoding::percent_decode]: [%XX] with two hexadecimal digits is one byte, everything
    else stands for itself. *)
Definition hex_val (c : ascii) : option N :=
  let n := N_of_ascii c in
  if byte_in 48 57 c then Some (n - 48)%N
  else if byte_in 65 70 c then Some (n - 55)%N
  else if byte_in 97 102 c then Some (n - 87)%N
  else None.
Fixpoint percent_decode (s : string) : string :=
  match s with
  | "" => ""
  | String c r =>
      if Ascii.eqb c "%" then
        match r with
        | String h (String l r2) =>
            match hex_val h, hex_val l with
            | Some x, Some y => String (ascii_of_N (x * 16 + y)) (percent_decode r2)
            | _, _ => String c (percent_decode r)
            end
        | _ => String c (percent_decode r)
        end
      else String c (percent_decode r)
  end.
