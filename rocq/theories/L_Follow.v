(** Lemmas for C86: a copy of a table kept up to date by reading changes. *)
From Coq Require Import Sorted.
From Verif Require Import Base Str M_Time M_Instant M_Timeline M_FileGroup M_Builder M_Listing M_Log M_Config M_Reader M_Table M_Storage M_Avro M_Values M_Datum M_Json M_Objects
  S_Time S_Timeline S_FileGroup S_Builder S_Listing S_Log S_Reader S_Table S_Avro S_Storage S_Objects S_History S_Incremental S_Values S_Datum S_Json S_Whole S_Changes S_Follow
  L_Base L_Str L_Time L_Instant L_Scan L_Reader L_History L_Incremental L_Changes L_Objects L_Stored L_Records L_Whole L_Succeed L_WholeChanges.
Local Open Scope string_scope.

(** ** The records *)
Lemma sle_or_slt : forall a b, sle a b \/ slt b a.
Proof. intros a b. destruct (sle_total a b) as [L|L]; [now left|]. apply sle_lt_or_eq in L as [L| -> ]; [now right|left; apply sle_refl]. Qed.

Lemma kept_iff : forall k changes r, negb (existsb (fun c => String.eqb (key_at k c) (key_at k r)) changes) = true <-> ~ In (key_at k r) (map (key_at k) changes).
Proof.
  intros k changes r. rewrite Bool.negb_true_iff, <- Bool.not_true_iff_false, existsb_exists. split; intros H I; apply H.
  - apply in_map_iff in I as [c [E I]]. exists c. split; [exact I|]. now apply String.eqb_eq.
  - destruct I as [c [I E]]. apply String.eqb_eq in E. rewrite <- E. now apply in_map.
Qed.
Lemma applied_in : forall k copy changes r, In r (apply_changes k copy changes) <-> In r changes \/ In r copy /\ ~ In (key_at k r) (map (key_at k) changes).
Proof. intros k copy changes r. unfold apply_changes. rewrite in_app_iff, filter_In, kept_iff. tauto. Qed.
Lemma applied_once : forall k copy changes, NoDup (map (key_at k) copy) -> NoDup (map (key_at k) changes) -> NoDup (map (key_at k) (apply_changes k copy changes)).
Proof.
  intros k copy changes N1 N2. unfold apply_changes. rewrite map_app. induction copy as [|r copy IH]; [exact N2|]. cbn [map] in N1. inversion N1 as [|? ? NI N1']; subst.
  cbn [filter]. destruct (negb _) eqn:E; [|now apply IH]. cbn [map app]. constructor; [|now apply IH]. rewrite in_app_iff. intros [I|I].
  - apply NI. apply in_map_iff in I as [r' [E' I]]. rewrite <- E'. apply in_map. now apply filter_In in I.
  - apply kept_iff in E. now apply E.
Qed.

Lemma follow_step : forall k p s (of0 of1 changed : string * string -> Prop) hist t0 t1 copy changes, sle t0 t1 ->
  versions_kept t0 of0 of1 hist ->
  (forall g, changed g -> of1 g) -> (forall g x r, of1 g -> In (x, r) (g_versions (hist g)) -> slt t0 x -> sle x t1 -> changed g) ->
  keys_apart k of1 hist -> table_at k p s of0 hist t0 copy -> table_changed k p s changed hist t0 t1 changes ->
  table_at k p s of1 hist t1 (apply_changes k copy changes).
Proof.
  intros k p s of0 of1 changed hist t0 t1 copy changes LE SV C1 C2 KA [N0 [A0 B0]] [NC [AC BC]]. split; [now apply applied_once|]. split.
  - intros g x r G V L. destruct (sle_or_slt x t0) as [Lx|Lx].
    + destruct (proj2 (SV x r Lx) (ex_intro _ g (conj G V))) as [g0 [G0 V0]]. destruct (A0 g0 x r G0 V0 Lx) as [r' [I E]]. destruct (in_dec string_dec (key_at k r') (map (key_at k) changes)) as [J|J].
      * apply in_map_iff in J as [c [Ec Ic]]. exists c. split; [apply applied_in; now left|congruence].
      * exists r'. split; [apply applied_in; now right|exact E].
    + destruct (AC g x r (C2 _ _ _ G V Lx L) V Lx L) as [r' [I E]]. exists r'. split; [apply applied_in; now left|exact E].
  - intros r I. apply applied_in in I as [I|[I NI]].
    + destruct (BC r I) as [[g [x [G [V [L1 L2]]]]] NW]. split; [exists g, x; auto|]. intros g' x' r' G' V' L' E.
      assert (g = g') by (eapply KA; [apply C1, G|exact G'|exact V|exact V'|congruence]). subst g'. exact (NW g x' r' G V' L' E).
    + destruct (B0 r I) as [[g0 [x [G0 [V0 L]]]] NW]. destruct (proj1 (SV x r L) (ex_intro _ g0 (conj G0 V0))) as [g [G V]].
      split; [exists g, x; split; [exact G|]; split; [exact V|eapply sle_trans; eauto]|]. intros g' x' r' G' V' L' E.
      destruct (sle_or_slt x' t0) as [Lx|Lx]; [destruct (proj2 (SV x' r' Lx) (ex_intro _ g' (conj G' V'))) as [g1 [G1 V1]]; exact (NW g1 x' r' G1 V1 Lx E)|].
      exfalso. apply NI. destruct (AC g' x' r' (C2 _ _ _ G' V' Lx L') V' Lx L') as [c [Ic Ec]]. rewrite <- E, <- Ec. now apply in_map.
Qed.

Lemma table_same : forall k p s t (of of' : string * string -> Prop) hist hist' out, same_table t of of' hist hist' -> table_at k p s of hist t out -> table_at k p s of' hist' t out.
Proof.
  intros k p s t of of' hist hist' out [S1 S2] [N [A B]]. split; [exact N|]. split.
  - intros g x r G V L. apply S1 in G. apply (A g x r G); [|exact L]. now apply (S2 g G).
  - intros r I. destruct (B r I) as [[g [x [G [V L]]]] NW]. split.
    + exists g, x. split; [now apply S1|]. split; [|exact L]. now apply (S2 g G).
    + intros g' x' r' G' V' L'. apply S1 in G'. apply (NW g' x' r' G'); [|exact L']. now apply (S2 g' G').
Qed.

Lemma table_unique : forall k p s sch pn sn (of : string * string -> Prop) hist t out out', column_at sch pn p -> column_at sch sn s ->
  (forall g x r, of g -> In (x, r) (g_versions (hist g)) -> wf_row sch r) -> (forall g, of g -> distinct_versions k p s (hist g) t) -> keys_apart k of hist ->
  table_at k p s of hist t out -> table_at k p s of hist t out' -> Permutation out out'.
Proof.
  intros k p s sch pn sn of hist t. 
  assert (H : forall out out', column_at sch pn p -> column_at sch sn s ->
    (forall g x r, of g -> In (x, r) (g_versions (hist g)) -> wf_row sch r) -> (forall g, of g -> distinct_versions k p s (hist g) t) -> keys_apart k of hist ->
    table_at k p s of hist t out -> table_at k p s of hist t out' -> forall r, In r out -> In r out').
  { intros out out' P S W D KA [_ [_ B]] [_ [A' B']] r I. destruct (B r I) as [[g [x [G [V L]]]] NW]. destruct (A' g x r G V L) as [r' [I' E]]. destruct (B' r' I') as [[g' [x' [G' [V' L']]]] NW'].
    assert (g = g') by (eapply KA; [exact G|exact G'|exact V|exact V'|congruence]). subst g'.
    destruct (newer_total sch pn sn p s r r' P S (W _ _ _ G V) (W _ _ _ G V') (NW' g x r G V L (eq_sym E)) (NW g x' r' G V' L' E)) as [E1 E2].
    assert (r = r') by (eapply (D g G x r x' r'); eauto). now subst. }
  intros out out' P S W D KA T T'. apply NoDup_Permutation; [destruct T as [N _]; now apply NoDup_map_inv in N|destruct T' as [N _]; now apply NoDup_map_inv in N|].
  intros r. split; apply H; assumption.
Qed.

(** with replacements in between: what is left of the replaced groups *)
Lemma follow_replaced : forall k p s sch pn sn (of0 of1 changed replaced : string * string -> Prop) hist t0 t1 copy changes after, column_at sch pn p -> column_at sch sn s ->
  (forall g x r, of1 g -> In (x, r) (g_versions (hist g)) -> wf_row sch r) -> (forall g, of1 g -> distinct_versions k p s (hist g) t1) -> sle t0 t1 ->
  (forall g, of0 g -> ~ replaced g -> of1 g) -> (forall g x r, of1 g -> In (x, r) (g_versions (hist g)) -> sle x t0 -> of0 g) ->
  (forall g, changed g -> of1 g) -> (forall g x r, of1 g -> In (x, r) (g_versions (hist g)) -> slt t0 x -> sle x t1 -> changed g) ->
  keys_apart k of0 hist -> keys_apart k of1 hist -> table_at k p s of0 hist t0 copy -> table_changed k p s changed hist t0 t1 changes -> table_at k p s of1 hist t1 after ->
  (forall r, In r after -> In r (apply_changes k copy changes))
  /\ forall r, In r (apply_changes k copy changes) -> (forall g x, of0 g -> In (x, r) (g_versions (hist g)) -> sle x t0 -> ~ replaced g) -> In r after.
Proof.
  intros k p s sch pn sn of0 of1 changed replaced hist t0 t1 copy changes after P S W DV LE O1 O2 C1 C2 KA0 KA1 [_ [A0 B0]] [_ [AC BC]] [_ [A1 B1]].
  assert (EQ : forall g x r x' r', of1 g -> In (x, r) (g_versions (hist g)) -> In (x', r') (g_versions (hist g)) -> sle x t1 -> sle x' t1 -> key_at k r = key_at k r' -> ~ newer p s r r' -> ~ newer p s r' r -> r = r').
  { intros g x r x' r' G V V' L L' E N1 N2. destruct (newer_total sch pn sn p s r r' P S (W _ _ _ G V) (W _ _ _ G V') N1 N2) as [E1 E2]. eapply (DV g G x r x' r'); eauto. }
  assert (CH : forall g x r c, of1 g -> In (x, r) (g_versions (hist g)) -> sle x t1 -> (forall y r', In (y, r') (g_versions (hist g)) -> sle y t1 -> key_at k r' = key_at k r -> ~ newer p s r' r) -> In c changes -> key_at k c = key_at k r -> c = r).
  { intros g x r c G V L NW I E. destruct (BC c I) as [[g' [x' [G' [V' [L1 L2]]]]] NC]. assert (g = g') by (eapply KA1; [exact G|apply C1; exact G'|exact V|exact V'|congruence]). subst g'.
    apply (EQ g x' c x r G V' V L2 L E); [exact (NW x' c V' L2 E)|exact (NC g x r G' V L (eq_sym E))]. }
  split.
  - intros r I. destruct (B1 r I) as [[g [x [G [V L]]]] NW]. apply applied_in. assert (NW' : forall y r', In (y, r') (g_versions (hist g)) -> sle y t1 -> key_at k r' = key_at k r -> ~ newer p s r' r) by (intros y r'; exact (NW g y r' G)).
    destruct (in_dec string_dec (key_at k r) (map (key_at k) changes)) as [J|J].
    + left. apply in_map_iff in J as [c [E J]]. now rewrite <- (CH g x r c G V L NW' J E).
    + right. split; [|exact J]. destruct (sle_or_slt x t0) as [Lx|Lx].
      * destruct (A0 g x r (O2 _ _ _ G V Lx) V Lx) as [r' [I' E]]. destruct (B0 r' I') as [[g' [x' [G' [V' L']]]] N0]. assert (g = g') by (eapply KA0; [exact (O2 _ _ _ G V Lx)|exact G'|exact V|exact V'|congruence]). subst g'.
        assert (r' = r); [|now subst]. apply (EQ g x' r' x r G V' V (sle_trans _ _ _ L' LE) L E); [exact (NW' x' r' V' (sle_trans _ _ _ L' LE) E)|exact (N0 g x r G' V Lx (eq_sym E))].
      * elim J. destruct (AC g x r (C2 _ _ _ G V Lx L) V Lx L) as [c [Ic Ec]]. rewrite <- Ec. now apply in_map.
  - intros r I NR. apply applied_in in I as [I|[I J]].
    + destruct (BC r I) as [[g [x [G [V [L1 L2]]]]] _]. destruct (A1 g x r (C1 _ G) V L2) as [r' [I' E]]. destruct (B1 r' I') as [[g' [x' [G' [V' L']]]] NW]. assert (g = g') by (eapply KA1; [apply C1; exact G|exact G'|exact V|exact V'|congruence]). subst g'.
      rewrite (CH g x' r' r G' V' L'); [exact I'| |exact I|congruence]. intros y r2. exact (NW g y r2 G').
    + destruct (B0 r I) as [[g [x [G [V L]]]] N0]. pose proof (O1 g G (NR g x G V L)) as G1. pose proof (sle_trans _ _ _ L LE) as Lt. destruct (A1 g x r G1 V Lt) as [r' [I' E]]. destruct (B1 r' I') as [[g' [x' [G' [V' L']]]] NW].
      assert (g = g') by (eapply KA1; [exact G1|exact G'|exact V|exact V'|congruence]). subst g'. destruct (sle_or_slt x' t0) as [Lx|Lx].
      * assert (r' = r); [|now subst]. apply (EQ g x' r' x r G1 V' V L' Lt E); [exact (N0 g x' r' G V' Lx E)|exact (NW g x r G1 V Lt (eq_sym E))].
      * elim J. destruct (AC g x' r' (C2 _ _ _ G1 V' Lx L') V' Lx L') as [c [Ic Ec]]. rewrite <- E, <- Ec. now apply in_map.
Qed.

(** ** The file groups *)
Lemma stamp_order : forall L x y a b, timestamp x -> timestamp y -> parse_datetime L x "utc" = Ok a -> parse_datetime L y "utc" = Ok b -> sle x y <-> (epoch_millis a <= epoch_millis b)%Z.
Proof.
  intros L x y a b [cx [Vx [Mx ->]]] [cy [Vy [My ->]]] Ex Ey. rewrite parse_datetime_utc in Ex, Ey by (assumption || reflexivity). injection Ex as <-. injection Ey as <-.
  unfold sle. rewrite render_order_same_width by (try assumption; now rewrite !timestamp_width). reflexivity.
Qed.

Section Groups.
Variable objs : list object.
Variable base : url.
Variable names : list string.
Hypothesis PO : proper_objects objs.
Hypothesis Lo : located base names.
Variable number_of : string -> option Z.
Variable collect : list (string * json) -> list (string * json).
Variable L : ndt -> option ndt.
Variable start e : string.
Variable time0 time1 : ndt.
Hypothesis Ts : timestamp start.
Hypothesis Te : timestamp e.
Hypothesis T0 : parse_datetime L start "utc" = Ok time0.
Hypothesis T1 : parse_datetime L e "utc" = Ok time1.
Hypothesis LE : sle start e.
Hypothesis TO : timeline_in_order objs names.
Notation replaced_at time := (replaced_in objs names number_of collect L "utc" (epoch_millis time)).
Notation between := (replaced_between objs names number_of collect start e).

Lemma replaced_split : forall g, replaced_at time1 g <-> replaced_at time0 g \/ between g.
Proof.
  assert (M : (epoch_millis time0 <= epoch_millis time1)%Z) by now apply (stamp_order L start e).
  intros g. split.
  - intros [ts [o [dt [m [FI [D [P [W [TX R]]]]]]]]]. pose proof (proj1 (TO ts ReplaceCommit o D) FI) as T. destruct (sle_or_slt ts start) as [A|A].
    + left. exists ts, o, dt, m. do 3 (split; [assumption|]). split; [now apply (stamp_order L ts start)|]. now split.
    + right. exists ts, m. split; [|exact R]. exists o. split; [exact FI|]. split; [exact T|]. split; [exact A|]. split; [now apply (stamp_order L ts e dt time1)|exact TX].
  - intros [[ts [o [dt [m [FI [D [P [W X]]]]]]]]|[ts [m [[o [FI [T [A [B TX]]]]] R]]]].
    + exists ts, o, dt, m. do 3 (split; [assumption|]). split; [lia|exact X].
    + pose proof T as [c [V [_ E]]]. exists ts, o, (civil_ndt c), m. split; [exact FI|]. split; [now apply timestamp_dot|].
      assert (P : parse_datetime L ts "utc" = Ok (civil_ndt c)) by (rewrite E; apply parse_datetime_utc; [exact V|reflexivity]).
      split; [exact P|]. split; [now apply (stamp_order L ts e)|]. now split.
Qed.

Variable format : string.
Variable partitioned : bool.
Variable parse_schema : string -> option avro.
Variable code : dtype -> nat.
Variable rank : dtype -> slot -> Z.
Variable parse_rows : string -> outcome record_batch.
Variable dfs : list M_Avro.field.
Variable k p s ct : nat.
Variable hist : string * string -> group.
Hypothesis CW : changes_written objs names number_of collect start e format partitioned parse_schema code rank parse_rows dfs k p s ct hist.
Notation based := (has_base objs names format partitioned).
Notation alive := (live objs names format partitioned number_of collect L "utc").

Lemma bases_there : forall g c b, based g c -> In b (map fst (g_bases (hist g))) -> based g b.
Proof.
  intros g c b HB Ib. destruct (proj2 CW g c HB) as [now [contents [_ [_ [_ WO]]]]]. destruct HB as [dir [n [o [bf [OPn _]]]]]. pose proof OPn as [FD [EP _]].
  destruct (files_spec objs base names PO Lo dir FD) as [l [_ NS]].
  destruct (WO dir l (get_file_data objs base) OPn NS) as [WR _]; [intros n' o' FI; rewrite EP; now apply (read_data objs base names PO Lo)|].
  destruct WR as [_ _ WB _ _ _ _ _ _]. apply WB in Ib as [m [bf' [[Im [NM [BN BO]]] [E1 E2]]]]. apply (proj2 NS) in Im as [n' [o' [FI ->]]]. exists dir, n', o', bf'. auto 10.
Qed.
Lemma versions_typed : forall g c x r, based g c -> In (x, r) (g_versions (hist g)) -> wf_row (map (as_field code) dfs) r.
Proof.
  intros g c x r HB V. destruct (proj2 CW g c HB) as [now [contents [_ [_ [_ WO]]]]]. destruct HB as [dir [n [o [bf [OPn _]]]]]. pose proof OPn as [FD [EP _]].
  destruct (files_spec objs base names PO Lo dir FD) as [l [_ NS]].
  destruct (WO dir l (get_file_data objs base) OPn NS) as [WR _]; [intros n' o' FI; rewrite EP; now apply (read_data objs base names PO Lo)|].
  destruct WR; eauto.
Qed.

Lemma live_unless : forall g, alive start (epoch_millis time0) g -> ~ between g -> alive e (epoch_millis time1) g.
Proof. intros g [[c [HB Lc]] R] NB. split; [exists c; split; [exact HB|eapply sle_trans; eauto]|]. intros Q. apply replaced_split in Q as [Q|Q]; [now apply R|now apply NB]. Qed.
Hypothesis NR : forall g, ~ between g.
Hypothesis NW : forall g, changed_group objs names number_of collect start e g -> ~ replaced_at time0 g.
Lemma live_kept : forall g, alive start (epoch_millis time0) g -> alive e (epoch_millis time1) g.
Proof. intros g A. exact (live_unless g A (NR g)). Qed.
Lemma live_before : nothing_moved start (alive e (epoch_millis time1)) hist -> forall g x r, alive e (epoch_millis time1) g -> In (x, r) (g_versions (hist g)) -> sle x start -> alive start (epoch_millis time0) g.
Proof.
  intros NM g x r A V Lx. pose proof A as [[c [HB _]] R]. split; [|intros Q; apply R, replaced_split; now left]. destruct (NM g x r A V Lx) as [b [Ib Lb]]. exists b. split; [exact (bases_there g c b HB Ib)|exact Lb].
Qed.
Lemma live_versions : nothing_moved start (alive e (epoch_millis time1)) hist -> versions_kept start (alive start (epoch_millis time0)) (alive e (epoch_millis time1)) hist.
Proof.
  intros NM x r Lx. split; intros [g [G V]]; exists g; (split; [|exact V]); [now apply live_kept|now apply (live_before NM g x r)].
Qed.
Lemma changed_live : forall g, changed_group objs names number_of collect start e g -> alive e (epoch_millis time1) g.
Proof.
  intros g C. split.
  - destruct C as [[ts [a [m [c [n [C [N Lc]]]]]]] _]. exists c. split; [|exact Lc]. rewrite (surjective_pairing g). eapply (proj1 CW); eauto.
  - intros Q. apply replaced_split in Q as [Q|Q]; [now apply (NW g C)|now apply (proj2 C)].
Qed.
End Groups.

(** ** A table that writers only added to *)
Lemma live_later : forall objs objs' names format partitioned number_of collect L tz t time, proper_objects objs' ->
  only_later objs objs' names format partitioned L tz t time ->
  forall g, live objs names format partitioned number_of collect L tz t time g <-> live objs' names format partitioned number_of collect L tz t time g.
Proof.
  intros objs objs' names format partitioned nu co L tz t time PO [K P B R] g.
  assert (FI1 : forall dir n o, file_in objs names dir n o -> file_in objs' names dir n o) by (intros dir n o [I H]; split; [now apply K|exact H]).
  assert (DEC : forall o : object, {o' | In o' objs /\ o_key o' = o_key o} + {forall o', In o' objs -> o_key o' <> o_key o}).
  { intros o. destruct (find (fun x => String.eqb (o_key x) (o_key o)) objs) as [x|] eqn:F.
    - left. apply find_some in F as [I E]. apply String.eqb_eq in E. exists x. auto.
    - right. intros o' I E. apply (find_none _ _ F) in I. apply String.eqb_neq in I. now apply I. }
  assert (OLD : forall o, In o objs' -> In o objs \/ ~ In o objs).
  { intros o I. destruct (DEC o) as [[x [Ix E]]|N].
    - left. assert (x = o); [|now subst]. pose proof (find_unique objs' (proj2 PO) x (K _ Ix)) as F1. pose proof (find_unique objs' (proj2 PO) o I) as F2. rewrite E in F1. congruence.
    - right. intros J. now apply (N o J). }
  assert (RE : replaced_in objs names nu co L tz time g <-> replaced_in objs' names nu co L tz time g).
  { split; intros [ts [o [dt [m [FI [D [T [W X]]]]]]]]; exists ts, o, dt, m; (split; [|split; [exact D|split; [exact T|split; [exact W|exact X]]]]); [now apply FI1|].
    pose proof FI as [I H]. destruct (OLD o I) as [J|J]; [split; [exact J|exact H]|]. pose proof (R ts o dt FI J D T). lia. }
  unfold live. rewrite RE. split; intros [[c [HB Lc]] NR]; (split; [|exact NR]); exists c; (split; [|exact Lc]); destruct HB as [dir [n [o [b [OP [FI [M [N [BO [E1 E2]]]]]]]]]]; exists dir, n, o, b.
  - split; [now apply P|]. auto 10.
  - pose proof FI as [I H]. assert (J : In o objs). { destruct (OLD o I) as [J|J]; [exact J|]. exfalso. pose proof (B dir n o b (proj1 OP) FI J BO) as Lt. rewrite E2 in Lt. apply slt_not_sle in Lt. now apply Lt. }
    assert (FI' : file_in objs names dir n o) by (split; [exact J|exact H]). split; [|auto 10].
    destruct OP as [FD [EP PT]]. split; [exact FD|]. split; [exact EP|]. destruct partitioned; [|exact PT].
    destruct PT as [top [rest [Q1 [Q2 [Q3 [Q4 [Q5 [_ Q7]]]]]]]]. assert (dir = (top :: rest)%list).
    { apply L_Scan.join_inj; [eapply Forall_impl; [|exact FD]; intros z [X [Y _]]; auto|eapply Forall_impl; [|exact Q2]; intros z [X [Y _]]; auto|congruence]. }
    subst dir. exists top, rest. split; [exact EP|]. do 4 (split; [assumption|]). split; [now exists n, o|]. intros below o' F I' E'. apply (Q7 below o' F); [now apply K|exact E'].
Qed.

Lemma written_typed : forall objs base names, proper_objects objs -> located base names -> forall format partitioned parse_schema code rank parse_rows dfs k p s t hist,
  written_by objs names format partitioned parse_schema code rank parse_rows dfs k p s t hist ->
  forall g c x r, has_base objs names format partitioned g c -> In (x, r) (g_versions (hist g)) -> wf_row (map (as_field code) dfs) r.
Proof.
  intros objs base names PO Lo format partitioned sc code rank pr dfs k p s t hist WB g c x r HB V. destruct (WB g c HB) as [now [contents [_ [_ WO]]]]. destruct HB as [dir [n [o [bf [OPn _]]]]]. pose proof OPn as [FD [EP _]].
  destruct (files_spec objs base names PO Lo dir FD) as [l [_ NS]].
  assert (WR : written_out sc encodes code rank (fun path => let* d := get_file_data objs base path in pr d) (get_file_data objs base) format (fst g) (snd g) dfs l contents (hist g))
    by (apply (WO dir l (get_file_data objs base) OPn NS); intros n' o' FI; rewrite EP; now apply (read_data objs base names PO Lo)).
  destruct WR; eauto.
Qed.
