From Verif Require Import Base Str L_Base L_Str M_Utf8 M_Expr S_Expr L_Expr M_FileGroup M_Builder M_Listing S_FileGroup S_Builder S_Listing L_Tree
  M_Storage S_Storage L_Storage M_Objects S_Objects.
Local Open Scope string_scope.

Lemma plain_join : forall l, Forall legal l -> plain (join "/" l).
Proof.
  induction l as [|x [|y l] IH]; intros F; [exact I| |].
  - inversion F as [|? ? L _]; subst. cbn [join]. apply legal_named in L as [_ L]. now apply control_plain.
  - inversion F as [|? ? L F']; subst. rewrite join_cons2. apply plain_app; [apply legal_named in L as [_ L]; now apply control_plain|].
    split; [reflexivity|]. now apply IH.
Qed.
Lemma utf8_dir : forall l, Forall legal l -> utf8_valid (join "/" l) = true.
Proof. intros l F. apply utf8_join. eapply Forall_impl; [|exact F]. intros n H. apply H. Qed.
Lemma names_dir : forall l, Forall legal l -> path_names (join "/" l) l.
Proof.
  intros [|x l] F.
  - unfold path_names. cbn. apply name_skip; [cbn; auto|constructor].
  - unfold path_names. rewrite join_split; [|discriminate|eapply Forall_impl; [|exact F]; intros n H; apply H].
    revert F. generalize (x :: l). intros q F. induction F as [|n q H F IH]; [constructor|]. apply name_keep; [|exact IH].
    destruct H as [A [_ [B [C _]]]]. intros [X|[X|[X|[]]]]; congruence.
Qed.
Lemma no_control : forall l, Forall legal l -> existsb has_control l = false.
Proof.
  intros l F. apply Bool.not_true_is_false. intros X. apply existsb_exists in X as [n [I X]].
  rewrite Forall_forall in F. apply F, legal_named in I as [_ I]. congruence.
Qed.
Lemma key_length : forall l, (List.length l <= S (String.length (key_of l)))%nat.
Proof.
  unfold key_of. induction l as [|x [|y l] IH]; [cbn; lia|cbn; lia|]. rewrite join_cons2, length_app_s. cbn [append String.length List.length] in *. lia.
Qed.

Lemma nodup_filter_keys : forall (f : object -> bool) l, NoDup (map o_key l) -> NoDup (map o_key (filter f l)).
Proof.
  intros f l. induction l as [|o l IH]; intros D; [constructor|]. inversion D as [|? ? N D']; subst. cbn [filter]. destruct (f o); [|auto]. constructor; [|auto].
  intros X. apply N. apply in_map_iff in X as [o' [E I]]. apply filter_In in I as [I _]. rewrite <- E. now apply in_map.
Qed.
Lemma find_unique : forall l, NoDup (map o_key l) -> forall o, In o l -> find (fun x => String.eqb (o_key x) (o_key o)) l = Some o.
Proof.
  induction l as [|x l IH]; intros D o I; [destruct I|]. inversion D as [|? ? N D']; subst. cbn [find]. destruct (String.eqb (o_key x) (o_key o)) eqn:E.
  - apply String.eqb_eq in E. destruct I as [ -> |I]; [reflexivity|]. exfalso. apply N. rewrite E. now apply in_map.
  - destruct I as [ -> |I]; [rewrite String.eqb_refl in E; discriminate|]. auto.
Qed.

Section Tree.
Variable objs : list object.
Variable base : url.
Variable names : list string.
Hypothesis PO : proper_objects objs.
Hypothesis L : located base names.

Definition dirs_of (p : list string) : list string := match list_dirs objs base (join "/" p) with Ok l => l | _ => [] end.
Lemma dirs_spec : forall p, Forall legal p -> list_dirs objs base (join "/" p) = Ok (dirs_of p) /\ NoDup (dirs_of p)
  /\ forall n, In n (dirs_of p) <-> legal n /\ exists rest, rest <> [] /\ Forall legal rest /\ In (key_of (names ++ p ++ n :: rest)) (map o_key objs).
Proof.
  intros p F. destruct (list_dirs_exact (map o_key objs) base names (join "/" p) p (proj1 PO) L (plain_join _ F) (utf8_dir _ F) (names_dir _ F) (no_control _ F)) as [l [E [S N]]].
  unfold dirs_of, list_dirs. rewrite E. auto.
Qed.

Fixpoint tree_at (fuel : nat) (p : list string) : tree :=
  Dir [] (match fuel with O => [] | S f => map (fun n => (n, tree_at f (p ++ [n]))) (dirs_of p) end).
Definition depth_bound : nat := S (list_max (map String.length (map o_key objs))).
Lemma bound : forall l, In (key_of (names ++ l)) (map o_key objs) -> (List.length l <= depth_bound)%nat.
Proof.
  intros l I. pose proof (key_length (names ++ l)) as K. rewrite app_length in K. unfold depth_bound.
  assert (String.length (key_of (names ++ l)) <= list_max (map String.length (map o_key objs)))%nat; [|lia].
  pose proof (proj1 (list_max_le (map String.length (map o_key objs)) _) (le_n _)) as M. rewrite Forall_forall in M. apply M. now apply in_map.
Qed.
Lemma tree_subs : forall fuel p, subs_of (tree_at fuel p) = match fuel with O => [] | S f => map (fun n => (n, tree_at f (p ++ [n]))) (dirs_of p) end.
Proof. now intros [|f] p. Qed.
Lemma reached : forall t q u, reaches t q u -> forall fuel p, t = tree_at fuel p -> Forall legal p ->
  Forall legal q /\ (exists f, (f + List.length q = fuel)%nat /\ u = tree_at f (p ++ q))
  /\ (q <> [] -> exists rest, rest <> [] /\ Forall legal rest /\ In (key_of (names ++ p ++ q ++ rest)) (map o_key objs)).
Proof.
  intros t q u R. induction R as [t|t n s q u I R IH]; intros fuel p E F.
  - split; [constructor|]. split; [|congruence]. exists fuel. rewrite app_nil_r. cbn. split; [lia|exact E].
  - subst t. rewrite tree_subs in I. destruct fuel as [|f]; [destruct I|]. apply in_map_iff in I as [n' [X I]]. injection X as -> <-.
    apply (proj2 (proj2 (dirs_spec p F))) in I as [Ln [rest [NR [LR K]]]].
    assert (F' : Forall legal (p ++ [n])) by (apply Forall_app; auto).
    destruct (IH f (p ++ [n])%list eq_refl F') as [Lq [[f' [Ef Eu]] Ex]]. split; [now constructor|]. split.
    + exists f'. cbn [List.length]. split; [lia|]. now rewrite <- app_assoc in Eu.
    + intros _. destruct q as [|m q].
      * exists rest. cbn [app]. auto.
      * destruct (Ex ltac:(discriminate)) as [rest' [A [B C]]]. exists rest'. rewrite <- app_assoc in C. cbn [app] in *. auto.
Qed.
Lemma reach : forall q p fuel rest, rest <> [] -> Forall legal (p ++ q ++ rest) -> In (key_of (names ++ p ++ q ++ rest)) (map o_key objs) -> (List.length q <= fuel)%nat ->
  exists u, reaches (tree_at fuel p) q u.
Proof.
  induction q as [|n q IH]; intros p fuel rest NR F K B; [exists (tree_at fuel p); constructor|].
  destruct fuel as [|f]; [cbn in B; lia|]. cbn [app] in *. assert (Lp : Forall legal p) by (apply Forall_app in F; tauto).
  assert (Lr : Forall legal (n :: q ++ rest)) by (apply Forall_app in F; tauto). inversion Lr as [|? ? Ln Lq]; subst.
  destruct (IH (p ++ [n])%list f rest NR) as [u R].
  - now rewrite <- app_assoc.
  - now rewrite <- app_assoc.
  - cbn in B. lia.
  - exists u. eapply re_down; [|exact R]. rewrite tree_subs. apply in_map_iff. exists n. split; [reflexivity|].
    apply (proj2 (proj2 (dirs_spec p Lp))). split; [exact Ln|]. exists (q ++ rest)%list. split; [destruct q; [exact NR|discriminate]|]. auto.
Qed.
Lemma tree_wf : forall fuel p, Forall legal p -> wf_tree (tree_at fuel p).
Proof.
  induction fuel as [|f IH]; intros p F; cbn [tree_at]; constructor; try (intros n s []); [constructor| | |].
  - rewrite map_map. cbn [fst]. rewrite map_id. apply (dirs_spec p F).
  - intros n s I. apply in_map_iff in I as [n' [X I]]. injection X as -> _. apply (proj2 (proj2 (dirs_spec p F))) in I as [Ln _]. split; apply Ln.
  - intros n s I. apply in_map_iff in I as [n' [X I]]. injection X as -> <-. apply IH. apply (proj2 (proj2 (dirs_spec p F))) in I as [Ln _]. apply Forall_app. auto.
Qed.
Definition object_tree : tree := tree_at depth_bound [].
Lemma no_deeper : forall f p, Forall legal p -> (f + List.length p = depth_bound)%nat -> subs_of (tree_at f p) = [] <-> dirs_of p = [].
Proof.
  intros f p F B. rewrite tree_subs. destruct f as [|f].
  - split; [intros _|auto]. destruct (dirs_of p) as [|n l] eqn:E; [reflexivity|exfalso].
    assert (I : In n (dirs_of p)) by (rewrite E; now left). apply (proj2 (proj2 (dirs_spec p F))) in I as [_ [rest [NR [_ K]]]].
    pose proof (bound _ K) as X. rewrite app_length in X. cbn [List.length] in X. lia.
  - split; [destruct (dirs_of p); [auto|discriminate]|now intros ->].
Qed.
Lemma tree_served : serves_dirs object_tree (list_dirs objs base).
Proof.
  intros p t R. destruct (reached _ _ _ R depth_bound [] eq_refl (Forall_nil _)) as [F [[f [B ->]] _]]. cbn [app].
  rewrite (proj1 (dirs_spec p F)). f_equal. destruct f as [|f].
  - rewrite tree_subs. cbn [map]. apply (no_deeper 0 p F B). now rewrite tree_subs.
  - rewrite tree_subs, map_map. cbn [fst]. now rewrite map_id.
Qed.
Lemma objects_key : forall o l, In o objs -> o_key o = key_of l -> Forall legal l -> l <> [] -> In (key_of l) (map o_key objs).
Proof. intros o l I E _ _. rewrite <- E. now apply in_map. Qed.
Lemma partition_spec : forall path, partition_dir object_tree path <-> data_directory objs names path.
Proof.
  intros path. split.
  - intros [top [p [[t [R S]] [N1 [N2 [N3 ->]]]]]]. destruct (reached _ _ _ R depth_bound [] eq_refl (Forall_nil _)) as [F [[f [B ->]] Ex]].
    cbn [app] in *. apply (no_deeper f _ F B) in S. destruct (Ex ltac:(discriminate)) as [rest [NR [LR K]]].
    assert (SH : forall below o, Forall legal below -> In o objs -> o_key o = key_of (names ++ (top :: p) ++ below) -> (List.length below <= 1)%nat).
    { intros below o LB I E. destruct below as [|a [|b below]]; [cbn; lia|cbn; lia|exfalso].
      assert (X : In a (dirs_of (top :: p))).
      { apply (proj2 (proj2 (dirs_spec _ F))). inversion LB; subst. split; [assumption|]. exists (b :: below). split; [discriminate|]. split; [assumption|]. rewrite <- E. now apply in_map. }
      rewrite S in X. destruct X. }
    exists top, p. split; [reflexivity|]. split; [exact F|]. split; [exact N1|]. split; [exact N2|]. split; [exact N3|]. split; [|exact SH].
    apply in_map_iff in K as [o [E I]]. pose proof (SH rest o LR I E) as Lo. destruct rest as [|n [|]]; [congruence| |cbn in Lo; lia].
    exists n, o. split; [exact I|]. split; [now inversion LR|exact E].
  - intros [top [p [-> [F [N1 [N2 [N3 [[n [o [I [Ln E]]]] SH]]]]]]]].
    assert (K : In (key_of (names ++ [] ++ (top :: p) ++ [n])) (map o_key objs)) by (change (In (key_of (names ++ (top :: p) ++ [n])) (map o_key objs)); rewrite <- E; now apply in_map).
    assert (FA : Forall legal ([] ++ (top :: p) ++ [n])) by (cbn [app]; inversion F; subst; constructor; [assumption|apply Forall_app; auto]).
    destruct (reach (top :: p) [] depth_bound [n] ltac:(discriminate) FA K) as [u R].
    { pose proof (bound _ K) as X. rewrite !app_length in X. cbn in *. lia. }
    exists top, p. split; [|auto]. exists u. split; [exact R|].
    destruct (reached _ _ _ R depth_bound [] eq_refl (Forall_nil _)) as [_ [[f [B ->]] _]]. cbn [app] in *. apply (no_deeper f _ F B).
    destruct (dirs_of (top :: p)) as [|a l] eqn:D; [reflexivity|exfalso].
    assert (X : In a (dirs_of (top :: p))) by (rewrite D; now left). apply (proj2 (proj2 (dirs_spec _ F))) in X as [La [rest [NR [LR K']]]].
    apply in_map_iff in K' as [o' [E' I']]. assert (LB : Forall legal (a :: rest)) by (constructor; assumption). pose proof (SH (a :: rest) o' LB I' E') as Y. destruct rest; [congruence|cbn in Y; lia].
Qed.

(** ** Files *)
Lemma files_spec : forall dir, Forall legal dir -> exists l, list_files objs base (join "/" dir) = Ok l /\ NoDup (map fm_name l)
  /\ forall m, In m l <-> exists n o, file_in objs names dir n o /\ m = new_meta n (o_size o).
Proof.
  intros dir F. unfold list_files. rewrite (object_path_exact _ _ _ _ L (plain_join _ F) (utf8_dir _ F) (names_dir _ F)), (no_control _ F). cbn [bind].
  assert (FA : Forall legal (names ++ dir)) by (apply Forall_app; split; [apply L|exact F]).
  set (sel := filter _ objs).
  assert (SEL : forall o, In o sel <-> exists n, file_in objs names dir n o).
  { intros o. subst sel. rewrite filter_In. pose proof (objects_spec (map o_key objs) (names ++ dir) (o_key o) (proj1 PO) FA) as X. unfold objects in X. rewrite filter_In in X. split.
    - intros [I H]. destruct (proj1 X (conj (in_map o_key _ _ I) H)) as [_ [n [Ln E]]]. exists n. split; [exact I|]. split; [exact Ln|]. now rewrite app_assoc.
    - intros [n [I [Ln E]]]. split; [exact I|]. apply X. split; [now apply in_map|]. exists n. split; [exact Ln|]. now rewrite app_assoc in E. }
  assert (ND : NoDup (map o_key sel)).
  { subst sel. apply nodup_filter_keys. apply PO. }
  clearbody sel. assert (FN : forall o n, o_key o = key_of (names ++ dir ++ [n]) -> legal n -> filename (o_key o) = Some n).
  { intros o n E Ln. rewrite E, app_assoc. now apply filename_key. }
  assert (M : mapM (fun o => let* name := ok_or (filename (o_key o)) EStorage in Ok (new_meta name (o_size o))) sel
              = Ok (map (fun o => new_meta (name_of (o_key o)) (o_size o)) sel)).
  { assert (S1 : forall o, In o sel -> exists n, file_in objs names dir n o) by (intros; now apply SEL). clear SEL ND. induction sel as [|o r IH]; [reflexivity|].
    destruct (S1 o (or_introl eq_refl)) as [n [_ [Ln E]]]. cbn [mapM map]. unfold name_of at 1. rewrite (FN o n E Ln). cbn [ok_or bind]. rewrite IH; [reflexivity|]. intros o' I. apply S1. now right. }
  rewrite M. eexists. split; [reflexivity|]. split.
  - rewrite map_map. cbn [fm_name new_meta]. replace (map (fun o => name_of (o_key o)) sel) with (map name_of (map o_key sel)) by now rewrite map_map.
    apply nodup_map_inj; [|exact ND]. intros a b Ia Ib E. apply in_map_iff in Ia as [o1 [<- I1]]. apply in_map_iff in Ib as [o2 [<- I2]].
    apply SEL in I1 as [n1 [_ [L1 K1]]]. apply SEL in I2 as [n2 [_ [L2 K2]]]. unfold name_of in E. rewrite (FN _ _ K1 L1), (FN _ _ K2 L2) in E. subst. now rewrite K1, K2.
  - intros m. rewrite in_map_iff. split.
    + intros [o [<- I]]. apply SEL in I as [n H]. exists n, o. split; [exact H|]. destruct H as [_ [Ln E]]. unfold name_of. now rewrite (FN _ _ E Ln).
    + intros [n [o [H ->]]]. exists o. split; [|apply SEL; now exists n]. destruct H as [_ [Ln E]]. unfold name_of. now rewrite (FN _ _ E Ln).
Qed.
(** a file listed in a directory is read back: its object is found under the directory joined with its name *)
Lemma read_spec : forall dir n o, Forall legal dir -> file_in objs names dir n o -> find_object objs base (path_join (join "/" dir) n) = Ok o.
Proof.
  intros dir n o F [I [Ln E]]. unfold find_object. rewrite (child_addressed base names _ dir n L (plain_join _ F) (utf8_dir _ F) (names_dir _ F) (no_control _ F) Ln). cbn [bind].
  rewrite <- E, (find_unique objs (proj2 PO) o I). reflexivity.
Qed.
End Tree.
