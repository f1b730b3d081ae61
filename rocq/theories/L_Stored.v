(** Lemmas for C77: log blocks whose records are in Avro's binary form. *)
From Verif Require Import Base Str L_Str L_Base M_Time M_FileGroup M_Listing M_Log M_Config M_Reader M_Table M_Avro M_Values M_Datum
  S_Time S_FileGroup S_Listing S_Log S_Reader S_Avro S_History S_Values S_Datum L_Log L_Cut L_Columns L_Values L_Datum.
Local Open Scope string_scope.

Section Stored.
Variable parse_schema : string -> option avro.
Lemma stored_logged : forall dfs w vs, logged parse_schema encodes dfs w vs -> logged parse_schema (decodes decode) dfs w vs.
Proof.
  intros dfs w vs [A B C D E F G]. split; try assumption. destruct G as [|ds text fs vs I P T H K]; [constructor|]. econstructor; try eassumption.
  clear -H. induction H as [|d v ds vs H Hs IH]; [constructor|constructor; [now apply encodes_whole|exact IH]].
Qed.
Lemma stored_file : forall local_to_utc fetch range tz dfs f, log_written parse_schema encodes local_to_utc fetch range tz dfs f -> log_written parse_schema (decodes decode) local_to_utc fetch range tz dfs f.
Proof. intros local_to_utc fetch range tz dfs f [A B]. split; [exact A|]. intros x I. destruct (B x I) as [L R]. split; [now apply stored_logged|exact R]. Qed.
Lemma stored_out : forall code rank read_parquet bytes format part id dfs listed contents g,
  written_out parse_schema encodes code rank read_parquet bytes format part id dfs listed contents g ->
  written_out parse_schema (decodes decode) code rank read_parquet bytes format part id dfs listed contents g.
Proof.
  intros code rank read_parquet bytes format part id dfs listed contents g [A B C D E F G H I]. constructor; try assumption.
  intros m c L. destruct (G m c L) as [Gb Gw]. split; [exact Gb|]. intros w vs J. destruct (Gw w vs J) as [K R]. split; [now apply stored_logged|exact R].
Qed.
Lemma stored_taken : forall dfs w vs, logged parse_schema encodes dfs w vs -> w_version w = V1 -> cut_taken avro value parse_schema decode w.
Proof.
  intros dfs w vs [_ [Dh _] _ _ _ _ G] V. split; [exact V|]. intros ds text sch d p Ec I P Id Sp. rewrite Ec in G. inversion G as [|ds' text' fs vs' I' P' T H K]; subst.
  assert (text' = text) as -> by (apply (meta_get_in _ _ _ Dh) in I; apply (meta_get_in _ _ _ Dh) in I'; congruence). rewrite P' in P. injection P as <-.
  apply In_nth_error in Id as [i Id]. destruct (Forall2_nth_l _ _ _ _ _ H i d Id) as [v [_ E]]. apply (cut_datum _ v d); [now apply encodes_whole|assumption].
Qed.
End Stored.
