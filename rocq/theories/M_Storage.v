(** Model of crates/core/src/storage/{util,mod}.rs: addressing objects of a table.

    The URL library ([url::Url], [PathSegmentsMut]) and [object_store::path::Path] are outside the
    repository; they are modelled from their published behaviour, on bytes. *)
From Verif Require Import Base Str M_Utf8 M_FileGroup.
Local Open Scope string_scope.

(** ** [url::Url]: whether the scheme is special, whether it is [file], whether the URL "cannot be a
    base", and its path as serialized *)
Record url := { u_special : bool; u_file : bool; u_opaque : bool; u_path : string }.
Definition with_path (u : url) (p : string) : url := {| u_special := u_special u; u_file := u_file u; u_opaque := u_opaque u; u_path := p |}.

(** the [PATH_SEGMENT] and [SPECIAL_PATH_SEGMENT] encode sets; non-ASCII bytes are always encoded *)
Definition to_encode (special : bool) (c : ascii) : bool :=
  let n := N_of_ascii c in
  (n <? 33)%N || (127 <=? n)%N
  || existsb (Ascii.eqb c) ["034"; "<"; ">"; "`"; "#"; "?"; "{"; "}"; "/"; "%"]%char
  || special && Ascii.eqb c "\".
Definition hex_char (n : N) : ascii := ascii_of_N (if (n <? 10)%N then 48 + n else 55 + n)%N.
Definition encode_char (special : bool) (c : ascii) : string :=
  if to_encode special c
  then String "%" (String (hex_char (N_of_ascii c / 16)) (String (hex_char (N_of_ascii c mod 16)) ""))
  else String c "".
(** the parser skips tabs and line ends everywhere *)
Definition tab_or_newline (c : ascii) : bool := existsb (Ascii.eqb c) ["009"; "010"; "013"]%char.
(** Windows drive letters of [file] URLs *)
Definition is_alpha (c : ascii) : bool := byte_in 65 90 c || byte_in 97 122 c.
Definition is_drive (s : string) : bool :=
  match s with String a (String b "") => is_alpha a && (Ascii.eqb b ":" || Ascii.eqb b "|") | _ => false end.
Definition is_normalized_drive (s : string) : bool :=
  match s with String a (String b "") => is_alpha a && Ascii.eqb b ":" | _ => false end.

(** [Parser::parse_path] in the context [PathSegmentSetter]: one character; the state is the path
    and the position where the segment starts *)
Definition push_char (u : url) (st : string * nat) (c : ascii) : string * nat :=
  if tab_or_newline c then st
  else
    let st := if u_file u && is_normalized_drive (drop 1 (fst st)) then (fst st ++ "/", S (snd st)) else st in
    (fst st ++ encode_char (u_special u) c, snd st).
Fixpoint push_chars (u : url) (st : string * nat) (s : string) : string * nat :=
  match s with
  | "" => st
  | String c r => push_chars u (push_char u st c) r
  end.
(** [Parser::shorten_path], [pop_path]: the path up to and including its last slash *)
Definition shorten (u : url) (path : string) : string :=
  match path with
  | "" => ""
  | _ =>
      match rsplit_once "/" path with
      | Some (a, b) => if u_file u && is_normalized_drive b then path else a ++ "/"
      | None => path
      end
  end.
Definition parse_segment (u : url) (path seg : string) : string :=
  let '(path, start) := push_chars u (path, String.length path) seg in
  let buffer := drop start path in
  if existsb (String.eqb buffer) [".."; "%2e%2e"; "%2e%2E"; "%2E%2e"; "%2E%2E"; "%2e."; "%2E."; ".%2e"; ".%2E"] then
    let path := take start path in
    (* the slash before the segment, unless it is the first of the path (drive letters are not
       treated specially here) *)
    let path := if ends_with "/" path && (1 <? String.length path)%nat then take (String.length path - 1) path else path in
    shorten u path
  else if existsb (String.eqb buffer) ["."; "%2e"; "%2E"] then
    let path := take start path in if ends_with "/" path then path else path ++ "/"
  else if u_file u && Nat.eqb start 1 && is_drive buffer then take start path ++ take 1 buffer ++ ":"
  else path.
(** [PathSegmentsMut::extend] *)
Fixpoint extend_path (u : url) (path : string) (segs : list string) : string :=
  match segs with
  | [] => path
  | seg :: r =>
      if String.eqb seg "." || String.eqb seg ".." then extend_path u path r
      else extend_path u (parse_segment u (if Nat.eqb (String.length path) 1 then path else path ++ "/") seg) r
  end.
(** [PathSegmentsMut::pop] *)
Definition pop_segment (path : string) : string :=
  match path with
  | String c r => match r with
                  | "" => path
                  | _ => match rsplit_once "/" r with Some (a, _) => String c a | None => String c "" end
                  end
  | "" => ""
  end.

(** ** util.rs *)
(** util.rs:27-39 [parse_uri]; [Url::parse] and [Url::from_directory_path] are the parameter *)
Definition parse_uri (parse : string -> option url) (uri : string) : outcome url :=
  let* u := ok_or (parse uri) EInvalidUri in
  if ends_with "/" (u_path u) then
    if u_opaque u then Err EStorage else Ok (with_path u (pop_segment (u_path u)))
  else Ok u.
(** util.rs:47-61 [join_url_segments] *)
Definition join_url_segments (base : url) (segments : list string) : outcome url :=
  let* u := if ends_with "/" (u_path base) then
              if u_opaque base then Panic else Ok (with_path base (pop_segment (u_path base)))
            else Ok base in
  foldM (fun u seg =>
    if u_opaque u then Err EStorage
    else Ok (with_path u (extend_path u (u_path u) (filter (fun s => negb (String.eqb s "")) (split "/" seg))))) u segments.

(** ** [object_store::path::Path] *)
Definition is_control (c : ascii) : bool := let n := N_of_ascii c in (n <? 32)%N || (n =? 127)%N.
Fixpoint has_control (s : string) : bool := match s with "" => false | String c r => is_control c || has_control r end.
(** [PathPart::parse] *)
Definition part_ok (s : string) : bool := negb (String.eqb s ".") && negb (String.eqb s "..") && negb (has_control s).
(** [Path::parse] *)
Definition parse_path (path : string) : outcome string :=
  let stripped := if starts_with "/" path then drop 1 path else path in
  match stripped with
  | "" => Ok ""
  | _ =>
      let stripped := if ends_with "/" stripped then take (String.length stripped - 1) stripped else stripped in
      if forallb (fun s => negb (String.eqb s "") && part_ok s) (split "/" stripped) then Ok stripped else Err EStorage
  end.
(** [Path::from_url_path] *)
Definition from_url_path (path : string) : outcome string :=
  let d := percent_decode path in
  if utf8_valid d then parse_path d else Err EStorage.
(** [Path::filename] *)
Definition filename (key : string) : option string :=
  match key with
  | "" => None
  | _ => Some (match rsplit_once "/" key with Some (_, n) => n | None => key end)
  end.

(** ** storage/mod.rs *)
(** mod.rs:119-121, 147-149, 168-170, 183-185, 207-209: the object that a relative path addresses *)
Definition object_path (base : url) (relative : string) : outcome string :=
  let* u := join_url_segments base [relative] in
  from_url_path (u_path u).

(** [ObjectStore::list_with_delimiter] on a store with these keys: objects directly under the prefix,
    and the directories under it *)
Fixpoint strip_prefix (p s : string) : option string :=
  match p, s with
  | "", _ => Some s
  | String a p', String b s' => if Ascii.eqb a b then strip_prefix p' s' else None
  | _, "" => None
  end.
Definition under (prefix key : string) : option string :=
  match prefix with "" => Some key | _ => strip_prefix (prefix ++ "/") key end.
Definition objects (keys : list string) (prefix : string) : list string :=
  filter (fun k => match under prefix k with Some r => negb (has_char "/" r) | None => false end) keys.
Definition common_prefixes (keys : list string) (prefix : string) : list string :=
  nodup string_dec
    (flat_map (fun k => match under prefix k with
                        | Some r => match split_once "/" r with
                                    | Some (d, _) => [match prefix with "" => d | _ => prefix ++ "/" ++ d end]
                                    | None => []
                                    end
                        | None => []
                        end) keys).
(** mod.rs:230-258: the names of the files and directories under a relative path; the sizes are not
    modelled here *)
Definition list_file_names (keys : list string) (base : url) (subdir : string) : outcome (list string) :=
  let* prefix := object_path base subdir in
  mapM (fun k => ok_or (filename k) EStorage) (objects keys prefix).
Definition list_dir_names (keys : list string) (base : url) (subdir : string) : outcome (list string) :=
  let* prefix := object_path base subdir in
  mapM (fun k => ok_or (filename k) EStorage) (common_prefixes keys prefix).
