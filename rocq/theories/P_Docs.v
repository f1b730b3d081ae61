(** C105: the documentation in an Avro schema becomes metadata of the columns read from log files. *)
From Verif Require Import Base Str M_Avro M_Docs S_Docs L_Base L_Docs.
Local Open Scope string_scope.

(** Documentation, namespaces and aliases of types change nothing but metadata: the columns are those of the schema without
    them, and it fails for the same schemas. *)
Theorem C105_columns : forall s,
  match to_documented s with Ok fs => Ok (map without_metadata fs) | Err e => Err e | Panic => Panic end = to_arrow_schema (undocumented s).
Proof.
  assert (ONE : forall s, match (let* (t, n) := to_mtype s false in Ok [("", t, n, [])]) with Ok fs => Ok (map without_metadata fs) | Err e => Err e | Panic => Panic end
    = let* (d, n) := to_type (undocumented s) false in Ok [("", d, n)]).
  { intros s. rewrite erased. destruct (to_mtype s false) as [[t n]| |]; reflexivity. }
  intros s. destruct s as [a|s|s|vs|n fields|n l|n k]; try exact (ONE _).
  - cbn [to_documented undocumented]. destruct (to_arrow_schema a) as [fs| |]; [|reflexivity|reflexivity]. cbn [bind]. f_equal. rewrite map_map.
    rewrite <- (map_id fs) at 2. apply map_ext. now intros [[name d] n].
  - unfold to_documented, to_arrow_schema. cbn [undocumented]. induction fields as [|[[[name al] doc] s] fields IH]; [reflexivity|]. cbn [map mapM fst snd].
    rewrite erased. assert (N : is_nullable (undocumented s) = may_be_null s) by (destruct s; try reflexivity; apply any_null_same). rewrite N.
    destruct (to_mtype s (may_be_null s)) as [[t n']| |]; [|reflexivity|reflexivity]. unfold drop_meta. cbn [bind].
    rewrite <- IH. match goal with |- context [mapM ?f fields] => destruct (mapM f fields) as [r| |]; reflexivity end.
  - exact (ONE (MsEnum n l)).
  - exact (ONE (MsFixed n k)).
Qed.
Print Assumptions C105_columns.

(** The fields of the struct columns, at any depth, have their documentation as metadata and nothing else. *)
Theorem C105_nested : forall n fields columns, to_documented (MsRecord n fields) = Ok columns ->
  forall i name aliases doc s, nth_error fields i = Some (name, aliases, doc, s) ->
  exists t nullable m, nth_error columns i = Some (name, t, nullable, m)
    /\ forall path m', field_meta t path m' <-> exists d, field_doc s path d /\ doc_only d m'.
Proof.
  intros n fields columns H i name aliases doc s N. cbn [to_documented] in H. revert i fields N columns H. intros i. induction i as [|i IH]; intros [|f fields] N columns H; try discriminate N.
  - injection N as ->. cbn [mapM] in H. destruct (to_mtype s (may_be_null s)) as [[t nu]| |] eqn:E; try discriminate H. cbn [bind] in H. destruct (mapM _ fields) as [r| |]; try discriminate H. injection H as <-.
    exists t, nu, (external_props s). split; [reflexivity|]. exact (docs s _ t nu E).
  - cbn [nth_error] in N. cbn [mapM] in H. destruct f as [[[name' al] doc'] s']. destruct (to_mtype s' (may_be_null s')) as [[t' nu']| |]; try discriminate H. cbn [bind] in H.
    match type of H with context [mapM ?f fields] => destruct (mapM f fields) as [r| |] eqn:M; try discriminate H end. injection H as <-. exact (IH fields N r M).
Qed.
Print Assumptions C105_nested.

(** The metadata of a column are the documentation and the aliases of its type, if that is a record, an enum or a fixed;
    every alias with its full name.  Missing: the documentation of the column itself. *)
Theorem C105_types_partial : forall n fields columns, to_documented (MsRecord n fields) = Ok columns ->
  List.length columns = List.length fields
  /\ forall i name aliases doc s, nth_error fields i = Some (name, aliases, doc, s) -> (forall n', of_type s n' -> names_split n') ->
     exists t nullable m, nth_error columns i = Some (name, t, nullable, m) /\ describes s m.
Proof.
  intros n fields columns H. cbn [to_documented] in H. revert columns H. induction fields as [|[[[name al] doc] s] fields IH]; intros columns H.
  - injection H as <-. split; [reflexivity|]. intros [|i] ? ? ? ? X; discriminate X.
  - cbn [mapM] in H. destruct (to_mtype s (may_be_null s)) as [[t nu]| |] eqn:E; try discriminate H. cbn [bind] in H.
    match type of H with context [mapM ?f fields] => destruct (mapM f fields) as [r| |] eqn:M; try discriminate H end. injection H as <-. destruct (IH r eq_refl) as [L F].
    split; [cbn; now rewrite L|]. intros [|i] name' al' doc' s' N NS; [|exact (F i name' al' doc' s' N NS)]. injection N as <- <- <- <-.
    exists t, nu, (external_props s). split; [reflexivity|]. now apply props.
Qed.
Print Assumptions C105_types_partial.

(** A schema as writers produce: a documented column, an enum with an alias and a struct with a documented field. *)
Definition dc_plain : named := {| n_namespace := None; n_aliases := None; n_doc := None |}.
Definition dc_state : named := {| n_namespace := Some "org.shop"; n_aliases := Some [(None, "status"); (Some "old", "st")]; n_doc := Some "where the order is" |}.
Definition dc_optional (s : mschema) : mschema := MsUnion [MsOther ScNull; s].
Definition dc_schema : mschema := MsRecord dc_plain
  [("id", [], Some "the key of the order", MsOther ScString);
   ("state", [], None, MsEnum dc_state ["new"; "sent"]);
   ("lines", [], None, MsArray (MsRecord dc_plain [("sku", [], Some "what", MsOther ScString); ("price", [], None, dc_optional (MsRecord dc_plain [("cents", [], Some "in cents", MsOther ScLong)]))]))].
Definition dc_columns : list mfield :=
  [("id", MtPlain DUtf8, false, []);
   ("state", MtPlain DUtf8, false, [("avro::doc", "where the order is"); ("avro::aliases", "[org.shop.status,old.st]")]);
   ("lines", MtList "element" (MtStruct [("sku", MtPlain DUtf8, false, [("avro::doc", "what")]);
      ("price", MtStruct [("cents", MtPlain DInt64, false, [("avro::doc", "in cents")])], true, [])]) false [], false, [])].
Fact dc_read : to_documented dc_schema = Ok dc_columns.
Proof. reflexivity. Qed.

(** It is not so that a documented column keeps its documentation: that of the fields of the table is dropped, while that
    of the fields within structs is kept. *)
Theorem C105_column_doc_refuted :
  ~ (forall n fields columns i name aliases d s, to_documented (MsRecord n fields) = Ok columns -> nth_error fields i = Some (name, aliases, Some d, s) ->
     exists t nullable m, nth_error columns i = Some (name, t, nullable, m) /\ In ("avro::doc", d) m).
Proof. intros H. destruct (H _ _ _ 0%nat _ _ _ _ dc_read eq_refl) as [t [nu [m [N I]]]]. injection N as <- <- <-. destruct I. Qed.
Print Assumptions C105_column_doc_refuted.

Example C105_case : to_documented dc_schema = Ok dc_columns
  /\ (exists t m, nth_error dc_columns 2 = Some ("lines", t, false, m) /\ field_meta t [1; 0]%nat [("avro::doc", "in cents")])
  /\ (forall n', of_type (MsEnum dc_state ["new"; "sent"]) n' -> names_split n')
  /\ to_documented (MsOther (ScRecord [("when", [], ScLocalTimestamp)])) = Panic.
Proof.
  split; [reflexivity|]. split; [|split; [|reflexivity]].
  - do 2 eexists. split; [reflexivity|]. constructor. eapply fm_in; [reflexivity|]. eapply fm_here. reflexivity.
  - intros n' O. apply named_of_spec in O. injection O as <-. intros al a E I. injection E as <-. destruct I as [ <- |[ <- |[]]]; split; (reflexivity || discriminate).
Qed.
