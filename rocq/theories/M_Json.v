(** Model of [serde_json::from_slice::<Map<String, Value>>] (release 1.0, default features), as
    crates/core/src/timeline/mod.rs:202 calls it: the metadata of an instant from its text.
    The library is not in /repo: this follows its modules [de] and [read]. *)
From Verif Require Import Base Str M_Utf8 M_Builder.
Local Open Scope string_scope.

(** [Deserializer::parse_whitespace] *)
Definition is_blank (c : ascii) : bool := (Ascii.eqb c " " || Ascii.eqb c "010" || Ascii.eqb c "009" || Ascii.eqb c "013")%bool.
Fixpoint skip (s : string) : string :=
  match s with String c r => if is_blank c then skip r else s | EmptyString => "" end.
(** [Deserializer::parse_ident] *)
Fixpoint ident (w s : string) : option string :=
  match w, s with
  | EmptyString, _ => Some s
  | String a w, String b s => if Ascii.eqb a b then ident w s else None
  | _, _ => None
  end.

(** ** Strings *)
(** [char::encode_utf8] *)
Definition byte_of (n : N) : string := String (ascii_of_N n) "".
Definition encode_utf8 (n : N) : string :=
  (if n <? 128 then byte_of n
   else if n <? 2048 then byte_of (192 + n / 64) ++ byte_of (128 + n mod 64)
   else if n <? 65536 then byte_of (224 + n / 4096) ++ byte_of (128 + n / 64 mod 64) ++ byte_of (128 + n mod 64)
   else byte_of (240 + n / 262144) ++ byte_of (128 + n / 4096 mod 64) ++ byte_of (128 + n / 64 mod 64) ++ byte_of (128 + n mod 64))%N.
(** [decode_hex_escape]: four hexadecimal digits *)
Definition hex4 (a b c d : ascii) : option N :=
  match hex_val a, hex_val b, hex_val c, hex_val d with
  | Some a, Some b, Some c, Some d => Some (((a * 16 + b) * 16 + c) * 16 + d)%N
  | _, _, _, _ => None
  end.
Definition high_surrogate (n : N) : bool := ((55296 <=? n) && (n <=? 56319))%N.
Definition low_surrogate (n : N) : bool := ((56320 <=? n) && (n <=? 57343))%N.
(** [read::parse_escape] for the escapes of two characters *)
Definition short_escape (c : ascii) : option string :=
  if Ascii.eqb c """" then Some """" else if Ascii.eqb c "\" then Some "\" else if Ascii.eqb c "/" then Some "/"
  else if Ascii.eqb c "b" then Some (byte_of 8) else if Ascii.eqb c "f" then Some (byte_of 12) else if Ascii.eqb c "n" then Some (byte_of 10)
  else if Ascii.eqb c "r" then Some (byte_of 13) else if Ascii.eqb c "t" then Some (byte_of 9) else None.
Definition cons_to (x : string) (o : option (string * string)) : option (string * string) :=
  match o with Some (t, r) => Some (x ++ t, r) | None => None end.
(** [SliceRead::parse_str_bytes] after the opening quote: the bytes of the string and what follows the closing quote.
    Control characters have to be escaped; half of a surrogate pair alone is an error ([parse_unicode_escape]). *)
Fixpoint string_bytes (s : string) : option (string * string) :=
  match s with
  | EmptyString => None
  | String c r =>
      if Ascii.eqb c """" then Some ("", r)
      else if Ascii.eqb c "\" then
        match r with
        | String e r =>
            if Ascii.eqb e "u" then
              match r with
              | String h1 (String h2 (String h3 (String h4 r))) =>
                  match hex4 h1 h2 h3 h4 with
                  | Some n =>
                      if low_surrogate n then None
                      else if high_surrogate n then
                        match r with
                        | String b (String u (String l1 (String l2 (String l3 (String l4 r))))) =>
                            if (Ascii.eqb b "\" && Ascii.eqb u "u")%bool then
                              match hex4 l1 l2 l3 l4 with
                              | Some m => if low_surrogate m then cons_to (encode_utf8 (65536 + (n - 55296) * 1024 + (m - 56320))) (string_bytes r) else None
                              | None => None
                              end
                            else None
                        | _ => None
                        end
                      else cons_to (encode_utf8 n) (string_bytes r)
                  | None => None
                  end
              | _ => None
              end
            else match short_escape e with Some x => cons_to x (string_bytes r) | None => None end
        | EmptyString => None
        end
      else if (N_of_ascii c <? 32)%N then None
      else cons_to (String c "") (string_bytes r)
  end.
(** [SliceRead::parse_str]: the bytes have to be UTF-8 *)
Definition parse_str (s : string) : option (string * string) :=
  match string_bytes s with Some (t, r) => if utf8_valid t then Some (t, r) else None | None => None end.

(** ** Numbers *)
Fixpoint take_digits (s : string) : string * string :=
  match s with
  | String c r => if is_digit c then let (d, r) := take_digits r in (String c d, r) else ("", s)
  | EmptyString => ("", "")
  end.
(** [parse_integer]: a zero, or digits that do not begin with one *)
Definition integer_part (s : string) : option (string * string) :=
  match s with
  | String c r =>
      if Ascii.eqb c "0" then match r with String e _ => if is_digit e then None else Some ("0", r) | EmptyString => Some ("0", r) end
      else if is_digit c then Some (take_digits s) else None
  | EmptyString => None
  end.
(** [parse_decimal] and [parse_exponent]: at least one digit after the point, and after the [e] with or without a sign *)
Definition some_digits (s : string) : option (string * string) :=
  match take_digits s with (EmptyString, _) => None | (d, r) => Some (d, r) end.
Definition fraction (s : string) : option (string * string) :=
  match s with
  | String c r => if Ascii.eqb c "." then cons_to "." (some_digits r) else Some ("", s)
  | EmptyString => Some ("", "")
  end.
Definition exponent (s : string) : option (string * string) :=
  match s with
  | String c r =>
      if (Ascii.eqb c "e" || Ascii.eqb c "E")%bool then
        match r with
        | String g r' => if (Ascii.eqb g "+" || Ascii.eqb g "-")%bool then cons_to (String c (String g "")) (some_digits r') else cons_to (String c "") (some_digits r)
        | EmptyString => None
        end
      else Some ("", s)
  | EmptyString => Some ("", "")
  end.
(** the text of a number, after its sign, and what follows *)
Definition number_text (s : string) : option (string * string) :=
  match integer_part s with
  | Some (i, r) => match fraction r with
                   | Some (f, r) => match exponent r with Some (e, r) => Some (i ++ f ++ e, r) | None => None end
                   | None => None
                   end
  | None => None
  end.

Section Json.
(** The value of a number from its text ([None]: a number that an [f64] cannot hold).  Nothing in /repo looks at numbers. *)
Variable number_of : string -> option Z.
(** [serde_json::Map]: the entries of an object, of which a key keeps the last, in the iteration order of the map *)
Variable collect : list (string * json) -> list (string * json).

Definition number_value (text rest : string) : option (json * string) :=
  match number_of text with Some z => Some (JNum z, rest) | None => None end.
(** [deserialize_any], with [depth] as [remaining_depth]: [check_recursion!] refuses the value that brings it to zero.
    [parse_items]: [SeqAccess::next_element_seed] after a first element; [parse_members]: [MapAccess] from a key on.
    [fuel] is more than the length of the input. *)
Fixpoint parse_value (fuel depth : nat) (s : string) {struct fuel} : option (json * string) :=
  match fuel with
  | O => None
  | S fuel =>
      match skip s with
      | EmptyString => None
      | String c r =>
          if Ascii.eqb c "n" then match ident "ull" r with Some r => Some (JNull, r) | None => None end
          else if Ascii.eqb c "t" then match ident "rue" r with Some r => Some (JBool true, r) | None => None end
          else if Ascii.eqb c "f" then match ident "alse" r with Some r => Some (JBool false, r) | None => None end
          else if Ascii.eqb c "-" then match number_text r with Some (t, r) => number_value (String "-" t) r | None => None end
          else if is_digit c then match number_text (String c r) with Some (t, r) => number_value t r | None => None end
          else if Ascii.eqb c """" then match parse_str r with Some (t, r) => Some (JStr t, r) | None => None end
          else if Ascii.eqb c "[" then
            match depth with
            | S (S depth) =>
                match skip r with
                | String d r' => if Ascii.eqb d "]" then Some (JArr [], r')
                                 else match parse_value fuel (S depth) r with
                                      | Some (v, r) => match parse_items fuel (S depth) r with Some (l, r) => Some (JArr (v :: l), r) | None => None end
                                      | None => None
                                      end
                | EmptyString => None
                end
            | _ => None
            end
          else if Ascii.eqb c "{" then
            match depth with
            | S (S depth) =>
                match skip r with
                | String d r' => if Ascii.eqb d "}" then Some (JObj (collect []), r')
                                 else match parse_members fuel (S depth) r with Some (l, r) => Some (JObj (collect l), r) | None => None end
                | EmptyString => None
                end
            | _ => None
            end
          else None
      end
  end
with parse_items (fuel depth : nat) (s : string) {struct fuel} : option (list json * string) :=
  match fuel with
  | O => None
  | S fuel =>
      match skip s with
      | String c r =>
          if Ascii.eqb c "]" then Some ([], r)
          else if Ascii.eqb c "," then
            match parse_value fuel depth r with
            | Some (v, r) => match parse_items fuel depth r with Some (l, r) => Some (v :: l, r) | None => None end
            | None => None
            end
          else None
      | EmptyString => None
      end
  end
with parse_members (fuel depth : nat) (s : string) {struct fuel} : option (list (string * json) * string) :=
  match fuel with
  | O => None
  | S fuel =>
      match skip s with
      | String c r =>
          if Ascii.eqb c """" then
            match parse_str r with
            | Some (k, r) =>
                match skip r with
                | String c r =>
                    if Ascii.eqb c ":" then
                      match parse_value fuel depth r with
                      | Some (v, r) =>
                          match skip r with
                          | String c r =>
                              if Ascii.eqb c "}" then Some ([(k, v)], r)
                              else if Ascii.eqb c "," then match parse_members fuel depth r with Some (l, r) => Some ((k, v) :: l, r) | None => None end
                              else None
                          | EmptyString => None
                          end
                      | None => None
                      end
                    else None
                | EmptyString => None
                end
            | None => None
            end
          else None
      | EmptyString => None
      end
  end.

(** [deserialize_map] of [Map<String, Value>] and [Deserializer::end]: an object with nothing but blanks around it *)
Definition from_slice (d : string) : option (list (string * json)) :=
  match skip d with
  | String c _ =>
      if Ascii.eqb c "{" then
        match parse_value (S (String.length d)) 128 d with
        | Some (JObj l, r) => match skip r with EmptyString => Some l | _ => None end
        | _ => None
        end
      else None
  | EmptyString => None
  end.
(** timeline/mod.rs:202-203 *)
Definition parse_metadata (d : string) : outcome (list (string * json)) :=
  match from_slice d with Some m => Ok m | None => Err ETimeline end.
End Json.
