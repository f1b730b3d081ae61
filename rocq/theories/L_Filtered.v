(** Lemmas for C87: reading with filters on the partition columns. *)
From Verif Require Import Base Str M_Utf8 M_Time M_Instant M_Timeline M_FileGroup M_Builder M_Listing M_Expr M_Log M_Config M_Reader M_Table M_Storage M_Avro M_Values M_Datum M_Json M_Objects M_Open
  S_Time S_Timeline S_FileGroup S_Builder S_Listing S_Expr S_Log S_Reader S_Config S_Table S_Avro S_Storage S_Objects S_Open S_History S_Values S_Datum S_Json S_Whole S_Filtered
  L_Base L_Str L_Reader L_Expr L_Whole L_Follow.
Local Open Scope string_scope.

(** fewer file groups, fewer records *)
Lemma restricted : forall k p s sch pn sn (of pass : string * string -> Prop) hist t all out, column_at sch pn p -> column_at sch sn s ->
  (forall g x r, of g -> In (x, r) (g_versions (hist g)) -> wf_row sch r) -> (forall g, of g -> distinct_versions k p s (hist g) t) -> keys_apart k of hist ->
  (forall g, pass g -> of g) -> table_at k p s of hist t all -> table_at k p s pass hist t out ->
  forall r, In r out <-> In r all /\ exists g x, pass g /\ In (x, r) (g_versions (hist g)) /\ sle x t.
Proof.
  intros k p s sch pn sn of pass hist t all out P S W DV KA SUB [_ [A B]] [_ [A' B']] r.
  assert (EQ : forall g x a y b, of g -> In (x, a) (g_versions (hist g)) -> In (y, b) (g_versions (hist g)) -> sle x t -> sle y t -> key_at k a = key_at k b -> ~ newer p s a b -> ~ newer p s b a -> a = b).
  { intros g x a y b G V V' L L' E N1 N2. destruct (newer_total sch pn sn p s a b P S (W _ _ _ G V) (W _ _ _ G V') N1 N2) as [E1 E2]. eapply (DV g G x a y b); eauto. }
  split.
  - intros I. destruct (B' r I) as [[g [x [G [V L]]]] NW]. split; [|exists g, x; auto]. destruct (A g x r (SUB g G) V L) as [r' [I' E]]. destruct (B r' I') as [[g' [x' [G' [V' L']]]] NW'].
    assert (g = g') by (eapply KA; [exact (SUB g G)|exact G'|exact V|exact V'|congruence]). subst g'.
    assert (r' = r); [|now subst]. apply (EQ g x' r' x r G' V' V L' L E); [exact (NW g x' r' G V' L' E)|exact (NW' g x r G' V L (eq_sym E))].
  - intros [I [g [x [G [V L]]]]]. destruct (B r I) as [_ NW]. destruct (A' g x r G V L) as [r' [I' E]]. destruct (B' r' I') as [[g' [x' [G' [V' L']]]] NW'].
    assert (g = g') by (eapply KA; [exact (SUB g G)|exact (SUB g' G')|exact V|exact V'|congruence]). subst g'.
    assert (r' = r); [|now subst]. apply (EQ g x' r' x r (SUB g G) V' V L' L E); [exact (NW g x' r' (SUB g G) V' L' E)|exact (NW' g x r G' V L (eq_sym E))].
Qed.

Section Filters.
Variable dtype value : Type.
Variable cast : dtype -> string -> option value.
Variable cmp : value -> value -> option comparison.
Variable fields : list (string * dtype).
Variable hive url : bool.
Variable values : string -> list string.

(** what is compared with a filter is determined *)
Lemma combine_unique : forall (fs : list (string * dtype)) (vs : list string) n ty v ty' v', NoDup (map fst fs) -> In ((n, ty), v) (combine fs vs) -> In ((n, ty'), v') (combine fs vs) -> ty = ty' /\ v = v'.
Proof.
  induction fs as [|[m tm] fs IH]; intros vs n ty v ty' v' ND I I'; [destruct I|]. destruct vs as [|w vs]; [destruct I|]. cbn [combine map fst] in *. inversion ND as [|? ? NI ND']; subst.
  assert (F : forall t x, In ((m, t), x) (combine fs vs) -> In m (map fst fs)) by (intros t x J; apply in_combine_l in J; now apply (in_map fst) in J).
  destruct I as [I|I], I' as [I'|I'].
  - injection I as -> -> ->. injection I' as -> ->. auto.
  - injection I as -> -> ->. elim NI. eauto.
  - injection I' as -> -> ->. elim NI. eauto.
  - exact (IH vs n ty v ty' v' ND' I I').
Qed.
Lemma compares_one : forall vs f f' c c', NoDup (map fst fields) -> fe_field f = fe_field f' -> fe_value f = fe_value f' -> compares dtype value cast cmp fields vs f c -> compares dtype value cast cmp fields vs f' c' -> c = c'.
Proof.
  intros vs f f' c c' ND EF EV [ty [v [x [w [I [C1 [C2 C3]]]]]]] [ty' [v' [x' [w' [I' [C1' [C2' C3']]]]]]]. rewrite EF in I. destruct (combine_unique _ _ _ _ _ _ _ ND I I') as [ <- <- ]. rewrite EV in C2. congruence.
Qed.
Lemma meaning_dec : forall o c, op_meaning o c \/ ~ op_meaning o c.
Proof. intros o c. destruct o, c; cbn; first [left; tauto|left; congruence|left; discriminate|right; intros [H|H]; discriminate|right; discriminate|right; congruence|tauto]. Qed.
(** of a filter and its negation exactly one is satisfied *)
Lemma satisfied_once : forall vs f f', NoDup (map fst fields) -> fe_field f' = fe_field f -> fe_value f' = fe_value f -> (forall c, op_meaning (fe_op f') c <-> ~ op_meaning (fe_op f) c) ->
  (exists c, compares dtype value cast cmp fields vs f c) ->
  (satisfies dtype value cast cmp fields vs f \/ satisfies dtype value cast cmp fields vs f') /\ ~ (satisfies dtype value cast cmp fields vs f /\ satisfies dtype value cast cmp fields vs f').
Proof.
  intros vs f f' ND EF EV NG [c C]. assert (C' : compares dtype value cast cmp fields vs f' c) by (destruct C as [ty [v [x [w H]]]]; exists ty, v, x, w; now rewrite EF, EV). split.
  - destruct (meaning_dec (fe_op f) c) as [M|M]; [left|right]; exists c; (split; [assumption|]); [exact M|now apply NG].
  - intros [[c1 [X1 Y1]] [c2 [X2 Y2]]]. pose proof (compares_one _ _ _ _ _ ND (eq_sym EF) (eq_sym EV) X1 X2) as <-. now apply NG in Y2.
Qed.
Lemma named_matches : forall fs g of, partitions_named dtype value cast cmp fields hive url values fs of -> passing dtype value cast cmp fields values fs of g -> matches dtype value cast cmp fields hive url fs (fst g).
Proof. intros fs g of N [O F]. destruct (N g O) as [A [B _]]. right. exists (values (fst g)). auto. Qed.
End Filters.
