(** Lemmas for C80: answers from a table whose commit metadata was not written to the end. *)
From Verif Require Import Base Str M_Time M_Instant M_Timeline M_FileGroup M_Builder M_Listing M_Expr M_Log M_Config M_Reader M_Table M_Json S_Json S_Torn L_Base L_Str L_Json.
Local Open Scope string_scope.

(** [a] is [b] or an error. *)
Definition failed {A} (a : outcome A) : Prop := exists e, a = Err e.
Definition less {A} (a b : outcome A) : Prop := a = b \/ failed a.
Lemma less_refl : forall A (a : outcome A), less a a.
Proof. now left. Qed.
Lemma less_bind : forall A B (a b : outcome A) (f g : A -> outcome B), less a b -> (forall x, less (f x) (g x)) -> less (bind a f) (bind b g).
Proof. intros A B a b f g [ -> |[e ->]] F; [|right; now exists e]. destruct b; [apply F|right; eexists; reflexivity|now left]. Qed.
Lemma less_fold : forall A B (f g : A -> B -> outcome A) l s, (forall s x, less (f s x) (g s x)) -> less (foldM f s l) (foldM g s l).
Proof. induction l as [|x l IH]; intros s F; cbn [foldM]; [apply less_refl|]. apply less_bind; [apply F|]. intros s'. now apply IH. Qed.

Section Reading.
Variable local_to_utc : ndt -> option ndt.
Variable rd rd' : string -> outcome (list (string * json)).
Hypothesis LE : forall p, less (rd' p) (rd p).

Lemma less_clustering : forall l, less (clustering_of rd' l) (clustering_of rd l).
Proof.
  induction l as [|i l IH]; cbn [clustering_of]; [apply less_refl|]. apply less_bind; [apply LE|]. intros md. apply less_bind; [apply less_refl|]. intros op.
  apply less_bind; [exact IH|]. intros rest. apply less_refl.
Qed.
Lemma less_latest : forall cs, less (latest_commit_metadata rd' cs) (latest_commit_metadata rd cs).
Proof. intros cs. unfold latest_commit_metadata. destruct (last_opt cs); [apply LE|apply less_refl]. Qed.
Lemma less_avro : forall cs, less (latest_avro_schema rd' cs) (latest_avro_schema rd cs).
Proof. intros cs. apply less_bind; [apply less_latest|intros; apply less_refl]. Qed.
Lemma less_path : forall cs, less (latest_schema_path rd' cs) (latest_schema_path rd cs).
Proof. intros cs. apply less_bind; [apply less_latest|intros; apply less_refl]. Qed.
Lemma less_replaced : forall tz cs t, less (get_replaced_file_groups_as_of local_to_utc rd' tz cs t) (get_replaced_file_groups_as_of local_to_utc rd tz cs t).
Proof.
  intros tz cs t. apply less_bind; [apply less_refl|]. intros sel. apply less_fold. intros s i. apply less_bind; [apply LE|]. intros md. apply less_refl.
Qed.
Lemma less_loop : forall order l n f r, less (between_loop rd' order n f r l) (between_loop rd order n f r l).
Proof.
  induction l as [|i l IH]; intros n f r; cbn [between_loop]; [apply less_refl|]. apply less_bind; [apply LE|]. intros md. apply less_bind; [apply less_refl|]. intros b.
  apply less_bind; [apply less_refl|]. intros f'. apply less_bind; [apply less_refl|]. intros r'. apply IH.
Qed.
Lemma less_between : forall order tz cs a b, less (get_file_groups_between local_to_utc rd' order tz cs a b) (get_file_groups_between local_to_utc rd order tz cs a b).
Proof.
  intros order tz cs a b. apply less_bind; [apply less_refl|]. intros sel. apply less_bind; [apply less_loop|]. intros [x y]. apply less_refl.
Qed.
End Reading.

Lemma unfinished_less : forall dtype number_of collect (st st' : store dtype), unfinished dtype number_of collect st st' -> forall p, less (st_json _ st' p) (st_json _ st p).
Proof.
  intros dtype number_of collect st st' [(content & content' & J & J' & WF & P) _ _ _ _ _ _ _] p. rewrite J', J. destruct (P p) as [(d & a & b & E & E' & D)|[e E']]; rewrite E'; [|right; now exists e].
  rewrite E. cbn [bind]. destruct (WF p d E) as [m' M]. rewrite M. unfold parse_metadata in *. destruct (from_slice number_of collect a) as [x|] eqn:A; [|right; eexists; reflexivity].
  destruct (from_slice number_of collect d) as [y|] eqn:Y; [|discriminate]. injection M as <-. apply slice_text in Y. left.
  now destruct (slice_prefix _ _ _ _ _ _ _ Y D A) as [<- _].
Qed.

Section Tables.
Variable dtype value : Type.
Variable cast : dtype -> string -> option value.
Variable cmp : value -> value -> option comparison.
Variable avro_schema avro_value : Type.
Variable parse_schema : string -> option avro_schema.
Variable datum : avro_schema -> string -> option (avro_value * string).
Variable check_schema : avro_schema -> outcome unit.
Variable to_batch : avro_schema -> list avro_value -> outcome record_batch.
Variable parquet : string -> option (list record_batch).
Variable local_to_utc : ndt -> option ndt.
Variable number_of : string -> option Z.
Variable collect : list (string * json) -> list (string * json).
Variable st st' : store dtype.
Variable tb : table.
Hypothesis UN : unfinished dtype number_of collect st st'.

Lemma torn_plan : forall t fs, less (plan dtype value cast cmp local_to_utc st' tb t fs) (plan dtype value cast cmp local_to_utc st tb t fs).
Proof.
  intros t fs. pose proof (unfinished_less _ _ _ _ _ UN) as LE. apply less_bind; [apply less_refl|]. intros tz. apply less_bind; [now apply less_replaced|]. intros ex.
  apply less_bind; [|intros ps; apply less_refl]. apply less_bind; [apply less_refl|]. intros fields. apply less_bind; [now apply less_path|]. intros p. rewrite (un_schema _ _ _ _ _ UN). apply less_refl.
Qed.
Lemma torn_slices : forall t fs c c' r, slices_at dtype value cast cmp local_to_utc st' tb t fs c c' r -> slices_at dtype value cast cmp local_to_utc st tb t fs c c' r \/ failed r.
Proof.
  intros t fs c c' r H. pose proof (torn_plan t fs) as T. destruct H as [c e P|c P|c c' q pd fm n r P IP BF LP V]; [right; now exists e| |]; (destruct T as [T|[e' T]]; [|congruence]); left.
  - apply sa_panic. congruence.
  - eapply sa_view; [rewrite <- T; exact P|eassumption..|]. now rewrite <- (un_files _ _ _ _ _ UN), <- (un_dirs _ _ _ _ _ UN), <- (un_meta _ _ _ _ _ UN).
Qed.
Lemma torn_slices_as_of : forall t fs c c' r, get_file_slices_as_of dtype value cast cmp local_to_utc st' tb t fs c c' r -> get_file_slices_as_of dtype value cast cmp local_to_utc st tb t fs c c' r \/ failed r.
Proof.
  intros t fs c c' r H. destruct H as [c e H|c c' fs' r H S]; [right; now exists e|]. apply torn_slices in S as [S|S]; [left|now right]. now apply (ga_ok _ _ _ _ _ _ _ _ _ _ _ fs').
Qed.
Lemma torn_read : forall opts ss r, read_slices dtype avro_schema avro_value parse_schema datum check_schema to_batch parquet local_to_utc st' tb opts ss r ->
  read_slices dtype avro_schema avro_value parse_schema datum check_schema to_batch parquet local_to_utc st tb opts ss r.
Proof.
  intros opts ss r H. destruct UN as [_ _ _ _ _ Ep Eb Eo]. destruct H as [it e P O|it P O|it os r P O J]; rewrite ?Ep, ?Eb, ?Eo in O; [eapply rs_no_reader|eapply rs_panic|eapply rs_read]; eauto.
Qed.
Lemma torn_snapshot_as_of : forall t fs c c' r, read_snapshot_as_of dtype value cast cmp avro_schema avro_value parse_schema datum check_schema to_batch parquet local_to_utc st' tb t fs c c' r ->
  read_snapshot_as_of dtype value cast cmp avro_schema avro_value parse_schema datum check_schema to_batch parquet local_to_utc st tb t fs c c' r \/ failed r.
Proof.
  intros t fs c c' r H. destruct H as [c c' e G|c c' G|c c' ss r G R]; [right; now exists e| |]; apply torn_slices_as_of in G as [G|[e' G]]; try discriminate; left.
  - now apply ra_panic.
  - eapply ra_ok; [exact G|]. now apply torn_read.
Qed.
Lemma torn_snapshot : forall fs c c' r, read_snapshot dtype value cast cmp avro_schema avro_value parse_schema datum check_schema to_batch parquet local_to_utc st' tb fs c c' r ->
  read_snapshot dtype value cast cmp avro_schema avro_value parse_schema datum check_schema to_batch parquet local_to_utc st tb fs c c' r \/ failed r.
Proof.
  intros fs c c' r H. destruct H as [c L|c c' t r L R]; [left; now apply rn_none|]. apply torn_snapshot_as_of in R as [R|R]; [left|now right]. eapply rn_some; eassumption.
Qed.
Lemma torn_between : forall order a b, less (slices_between dtype local_to_utc st' tb order a b) (slices_between dtype local_to_utc st tb order a b).
Proof.
  intros order a b. apply less_bind; [apply less_refl|]. intros tz. apply less_bind; [|intros gs; apply less_refl]. apply less_between. exact (unfinished_less _ _ _ _ _ UN).
Qed.
Lemma torn_increment : forall a b r, read_incremental dtype avro_schema avro_value parse_schema datum check_schema to_batch parquet local_to_utc st' tb a b r ->
  read_incremental dtype avro_schema avro_value parse_schema datum check_schema to_batch parquet local_to_utc st tb a b r \/ failed r.
Proof.
  intros a b r H. destruct H as [S|order e er O S B|order e O S B|order e ss r O S B R]; [left; now apply ri_none|right; now exists er| |];
    (destruct (torn_between order a e) as [T|[e' T]]; [|congruence]); left.
  - eapply ri_panic; [exact O|exact S|congruence].
  - eapply ri_ok; [exact O|exact S|rewrite <- T; exact B|]. now apply torn_read.
Qed.
End Tables.
