(** Lemmas for C90. *)
From Verif Require Import Base Str M_Time M_Timeline M_FileGroup M_Expr M_Log M_Config M_Reader S_Time S_Log S_Reader S_Evolved L_Base L_Str L_Log L_Reader.
Local Open Scope string_scope.

(** ** Wider batches *)
Definition cut (sch : list field) (b : record_batch) : record_batch := {| rb_fields := sch; rb_rows := map (firstn (List.length sch)) (rb_rows b) |}.
Lemma wider_cut : forall sch b, wider sch b -> wf_batch sch (cut sch b).
Proof. intros sch b [_ W]. split; [reflexivity|]. cbn [cut rb_rows]. apply Forall_forall. intros r I. apply in_map_iff in I as [r0 [ <- I]]. rewrite Forall_forall in W. now apply W. Qed.
Lemma wider_nth : forall sch b i f, wider sch b -> nth_error sch i = Some f -> exists g, nth_error (rb_fields b) i = Some g /\ f_name g = f_name f /\ f_type g = f_type f.
Proof.
  intros sch b i f [[more E] _] N. assert (L : (i < List.length sch)%nat) by (apply nth_error_Some; congruence).
  assert (X : nth_error (map (fun f => (f_name f, f_type f)) (rb_fields b)) i = Some (f_name f, f_type f)).
  { rewrite E, nth_error_app1 by now rewrite map_length. apply (map_nth_error (fun f => (f_name f, f_type f)) _ _ N). }
  destruct (nth_error (rb_fields b) i) as [g|] eqn:G.
  - rewrite (map_nth_error (fun f => (f_name f, f_type f)) _ _ G) in X. injection X as X1 X2. eauto.
  - exfalso. apply nth_error_None in G. apply f_equal with (f := @List.length _) in E. rewrite app_length, !map_length in E. lia.
Qed.
Lemma columns_prefix : forall sch batches n i, Forall (wider sch) batches -> (n + i <= List.length sch)%nat -> concat_columns n i batches = concat_columns n i (map (cut sch) batches).
Proof.
  intros sch batches. induction n as [|n IH]; intros i W L; [reflexivity|]. cbn [concat_columns].
  assert (T : forall bs, Forall (wider sch) bs -> mapM (fun b => match type_of (rb_fields b) i with Some t => Ok t | None => Panic end) bs
    = mapM (fun b => match type_of (rb_fields b) i with Some t => Ok t | None => Panic end) (map (cut sch) bs)).
  { intros bs Wb. induction Wb as [|b bs Hb _ IHb]; [reflexivity|]. cbn [map mapM cut rb_fields]. rewrite <- IHb. clear IHb. destruct (nth_error sch i) as [f|] eqn:E.
    - destruct (wider_nth _ _ _ _ Hb E) as [g [G [_ TG]]]. unfold type_of. rewrite E, G. cbn [option_map]. now rewrite TG.
    - apply nth_error_None in E. lia. }
  rewrite (T batches W). rewrite (IH (S i)); [reflexivity|exact W|lia].
Qed.
Lemma concat_wider : forall sch batches, Forall (wider sch) batches -> concat_batches sch batches = concat_batches sch (map (cut sch) batches).
Proof.
  intros sch batches W. unfold concat_batches. destruct batches as [|b bs] eqn:E; [reflexivity|]. rewrite <- E in *. rewrite (columns_prefix sch batches _ 0 W) by lia.
  assert (R : List.concat (map (fun b => map (firstn (List.length sch)) (rb_rows b)) batches) = List.concat (map (fun b => map (firstn (List.length sch)) (rb_rows b)) (map (cut sch) batches))).
  { f_equal. rewrite map_map. apply map_ext. intros x. cbn [cut rb_rows]. rewrite map_map. apply map_ext. intros r. now rewrite firstn_firstn, Nat.min_id. }
  rewrite R. destruct (map (cut sch) batches) as [|c cs] eqn:EC; [subst; discriminate|]. reflexivity.
Qed.
Lemma merge_wider : forall sort iter configs sch batches, Forall (wider sch) batches -> merge_record_batches sort iter configs sch batches = merge_record_batches sort iter configs sch (map (cut sch) batches).
Proof.
  intros sort iter configs sch batches W. unfold merge_record_batches. rewrite (concat_wider _ _ W). destruct batches as [|b bs]; [reflexivity|]. reflexivity.
Qed.
Lemma rows_cut : forall sch batches, rows_of (map (cut sch) batches) = map (firstn (List.length sch)) (rows_of batches).
Proof. intros sch batches. unfold rows_of. rewrite map_map. cbn [cut rb_rows]. induction batches as [|b bs IH]; [reflexivity|]. cbn [map List.concat]. rewrite map_app. now f_equal. Qed.
Lemma wider_same : forall sch b, wf_batch sch b -> wider sch b.
Proof.
  intros sch b [E W]. split; [exists []; now rewrite E, app_nil_r|]. apply Forall_forall. intros r I. rewrite Forall_forall in W. specialize (W r I).
  rewrite <- (wf_row_length _ _ W), firstn_all. exact W.
Qed.
Lemma wider_column : forall sch b name i, wider sch b -> In name (map f_name sch) -> (column_at (rb_fields b) name i <-> column_at sch name i).
Proof.
  intros sch b name i W I.
  assert (F : forall n, column_at sch name n -> column_at (rb_fields b) name n).
  { intros n [[f [N E]] U]. destruct (wider_nth _ _ _ _ W N) as [g [G [GN _]]]. split; [exists g; split; [exact G|congruence]|]. intros j h Lj H X.
    assert (Lt : (j < List.length sch)%nat) by (assert (n < List.length sch)%nat by (apply nth_error_Some; congruence); lia).
    destruct (nth_error sch j) as [f'|] eqn:E'; [|apply nth_error_None in E'; lia]. destruct (wider_nth _ _ _ _ W E') as [g' [G' [GN' _]]]. apply (U j f' Lj E'). congruence. }
  split; [|apply F]. intros C. assert (X : exists n, column_at sch name n).
  { clear -I. induction sch as [|f sch IH]; [destruct I|]. destruct (string_dec (f_name f) name) as [E|E].
    - exists 0%nat. split; [exists f; auto|]. intros j g Lj. lia.
    - destruct I as [I|I]; [now elim E|]. destruct (IH I) as [n [[g [N G]] U]]. exists (S n). split; [exists g; auto|]. intros [|j] h Lj H; [injection H as <-; exact E|]. apply (U j); [lia|exact H]. }
  destruct X as [n X]. pose proof (F n X) as Y. assert (n = i); [|now subst].
  destruct C as [[f [N E]] U], Y as [[g [N' E']] U']. destruct (Nat.lt_trichotomy n i) as [L|[L|L]]; [|exact L|].
  - now elim (U n g L N').
  - now elim (U' i f L N).
Qed.
Lemma cut_values : forall sch b b' r, wider sch b -> rb_fields b' = sch -> same_values (map f_name sch) b r b' (firstn (List.length sch) r).
Proof.
  intros sch b b' r W E name c I. unfold value_under. rewrite E. split; intros [i [C N]]; exists i.
  - apply (wider_column _ _ _ _ W I) in C. split; [exact C|]. destruct C as [[f [X _]] _]. assert (L : (i < List.length sch)%nat) by (apply nth_error_Some; congruence).
    clear -N L. revert r i N L. induction (List.length sch) as [|n IH]; intros r i N L; [lia|]. destruct r as [|x r]; [now destruct i|]. destruct i as [|i]; [exact N|]. cbn in *. apply IH; [exact N|lia].
  - split; [now apply (wider_column _ _ _ _ W I)|]. clear -N. revert r i N. induction (List.length sch) as [|n IH]; intros r i N; [cbn in N; destruct i; discriminate|]. destruct r as [|x r]; [exact N|]. destruct i as [|i]; [exact N|]. cbn in *. now apply IH.
Qed.

(** ** Narrower batches *)
Lemma columns_panic : forall sch batches n i, (n + i = List.length sch)%nat -> batches <> [] -> Forall (types_agree sch) batches ->
  (exists b, In b batches /\ narrower sch b /\ (i <= List.length (rb_fields b))%nat) -> Forall (fun b => (i <= List.length (rb_fields b))%nat) batches -> concat_columns n i batches = Panic.
Proof.
  intros sch batches. induction n as [|n IH]; intros i L NE T [b [Ib [Nb Lb]]] W; [unfold narrower in Nb; lia|]. cbn [concat_columns].
  set (F := fun b : record_batch => match type_of (rb_fields b) i with Some t => Ok t | None => Panic end).
  assert (D : mapM F batches = Panic \/ (exists types, mapM F batches = Ok types /\ Forall2 (fun b t => type_of (rb_fields b) i = Some t) batches types)).
  { clear. induction batches as [|b bs IH]; [right; exists []; split; [reflexivity|constructor]|]. cbn [mapM]. unfold F at 1 3. destruct (type_of (rb_fields b) i) as [t|] eqn:E; [|now left]. cbn [bind].
    destruct IH as [ -> |[types [ -> H]]]; [now left|]. right. exists (t :: types). split; [reflexivity|]. constructor; auto. }
  destruct D as [ -> |[types [ -> H]]]; [reflexivity|]. cbn [bind].
  assert (A : forall b, In b batches -> (S i <= List.length (rb_fields b))%nat).
  { intros x Ix. assert (exists t, type_of (rb_fields x) i = Some t). { clear -H Ix. induction H as [|? ? ? ? E _ IH]; [destruct Ix|]. destruct Ix as [ <- |Ix]; eauto. }
    destruct H0 as [t Et]. unfold type_of in Et. assert (nth_error (rb_fields x) i <> None) by (intros X; rewrite X in Et; discriminate). apply nth_error_Some in H0. lia. }
  destruct (nth_error sch i) as [f|] eqn:Ef; [|apply nth_error_None in Ef; lia].
  assert (S1 : Forall (eq (f_type f)) types).
  { clear -H T Ef. induction H as [|x t bs ts E _ IH]; [constructor|]. inversion T as [|? ? T1 T2]; subst. constructor; [|now apply IH]. unfold type_of in E. destruct (nth_error (rb_fields x) i) as [g|] eqn:G; [|discriminate]. injection E as <-. exact (T1 i f g Ef G). }
  destruct types as [|t ts]; [inversion H; subst; now elim NE|]. inversion S1 as [|? ? Et Ets]; subst. assert (Q : forallb (ctype_eqb (f_type f)) ts = true).
  { apply forallb_forall. intros x Ix. rewrite Forall_forall in Ets. rewrite <- (Ets x Ix). apply ctype_eqb_refl. }
  rewrite Q. cbn [bind]. rewrite (IH (S i)); [reflexivity|lia|exact NE|exact T| |].
  - exists b. split; [exact Ib|]. split; [exact Nb|now apply A].
  - apply Forall_forall. exact A.
Qed.
Lemma concat_narrower : forall sch batches, Forall (types_agree sch) batches -> (exists b, In b batches /\ narrower sch b) -> concat_batches sch batches = Panic.
Proof.
  intros sch batches T [b [I N]]. unfold concat_batches. assert (NE : batches <> []) by (intros ->; destruct I). destruct batches as [|b0 bs] eqn:E; [now elim NE|]. rewrite <- E in *.
  rewrite (columns_panic sch batches _ 0); [reflexivity|lia|exact NE|exact T|exists b; split; [exact I|split; [exact N|lia]]|]. apply Forall_forall. intros. lia.
Qed.
Lemma strategy_some : forall m, exists st, merge_strategy m = Ok st.
Proof.
  intros m. destruct (merge_strategy m) as [st|e|] eqn:E; [eauto| |]; exfalso.
  - assert (N : ~ merges_latest m) by (intros X; apply latest_strategy in X; congruence). apply append_strategy in N. congruence.
  - assert (N : ~ merges_latest m) by (intros X; apply latest_strategy in X; congruence). apply append_strategy in N. congruence.
Qed.
Lemma merge_narrower : forall sort iter configs sch batches, Forall (types_agree sch) batches -> (exists b, In b batches /\ narrower sch b) -> merge_record_batches sort iter configs sch batches = Panic.
Proof.
  intros sort iter configs sch batches T X. unfold merge_record_batches. destruct batches as [|b bs] eqn:E; [destruct X as [b [[] _]]|]. rewrite <- E in *.
  destruct (strategy_some configs) as [st ->]. cbn [bind]. rewrite (concat_narrower _ _ T X). now destruct (String.eqb st "append_only").
Qed.
