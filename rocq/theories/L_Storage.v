(** Proofs about addressing objects. *)
From Verif Require Import Base Str L_Base L_Str M_Utf8 M_Expr S_Expr L_Expr M_FileGroup L_Tree M_Storage S_Storage.
Local Open Scope string_scope.

(** ** Encoding *)
Fixpoint enc (sp : bool) (s : string) : string := match s with "" => "" | String c r => encode_char sp c ++ enc sp r end.
Lemma hex_char_val : forall n, (n < 16)%N -> hex_val (hex_char n) = Some n.
Proof.
  intros n H. assert (E : In n (map N.of_nat (seq 0 16))). { apply in_map_iff. exists (N.to_nat n). split; [apply N2Nat.id|]. apply in_seq. lia. }
  cbn in E. repeat (destruct E as [ <- |E]; [reflexivity|]). destruct E.
Qed.
Lemma encode_char_encodes : forall sp c v e, encodes v e -> encodes (String c v) (encode_char sp c ++ e).
Proof.
  intros sp c v e H. unfold encode_char. destruct (to_encode sp c) eqn:E.
  - cbn [append]. pose proof (N_ascii_bounded c) as B. apply (enc_pct c _ _ (N_of_ascii c / 16) (N_of_ascii c mod 16)); [| | |exact H].
    + apply hex_char_val. apply N.div_lt_upper_bound; lia.
    + apply hex_char_val. apply N.mod_lt. lia.
    + rewrite N.mul_comm. rewrite <- N.div_mod by lia. apply ascii_N_embedding.
  - cbn [append]. apply enc_plain; [|exact H]. intros ->. destruct sp; discriminate E.
Qed.
Lemma enc_encodes : forall sp s, encodes s (enc sp s).
Proof. induction s as [|c r IH]; cbn [enc]; [constructor|]. now apply encode_char_encodes. Qed.
Lemma encodes_app : forall a e, encodes a e -> forall b f, encodes b f -> encodes (a ++ b) (e ++ f).
Proof. intros a e H. induction H; intros b f Hb; cbn [append]; [assumption|constructor; auto|econstructor; eauto]. Qed.
Lemma encodes_len : forall v e, encodes v e -> (String.length v <= String.length e)%nat.
Proof. intros v e H. induction H; cbn; lia. Qed.
Lemma enc_app : forall sp a b, enc sp (a ++ b) = enc sp a ++ enc sp b.
Proof. induction a as [|c r IH]; intros b; cbn [append enc]; [reflexivity|]. now rewrite IH, app_assoc_s. Qed.

(** ** Segments *)
Definition long (u : url) (p : string) : Prop := u_file u = true -> (2 <= String.length p)%nat.
Lemma not_drive : forall p y, (2 <= String.length p)%nat -> is_normalized_drive (drop 1 (p ++ "/" ++ y)) = false.
Proof.
  intros [|c [|x r]] y H; cbn in H; try lia. cbn [append drop]. destruct r as [|x2 r]; cbn [append].
  - destruct y; [cbn; destruct (is_alpha x); reflexivity|reflexivity].
  - destruct r as [|x3 r]; cbn; [destruct (is_alpha x); reflexivity|reflexivity].
Qed.
Lemma push_chars_enc : forall u s path start, plain s -> (u_file u = true -> exists p y, path = p ++ "/" ++ y /\ (2 <= String.length p)%nat) ->
  push_chars u (path, start) s = (path ++ enc (u_special u) s, start).
Proof.
  induction s as [|c r IH]; intros path start PL F; cbn [push_chars enc]; [now rewrite app_nil_r_s|]. destruct PL as [T PL]. unfold push_char. rewrite T. cbn [fst snd].
  assert (D : u_file u && is_normalized_drive (drop 1 path) = false). { destruct (u_file u); [|reflexivity]. destruct (F eq_refl) as [p [y [ -> L]]]. now rewrite not_drive. }
  rewrite D. cbn [fst snd]. rewrite IH; [now rewrite app_assoc_s|exact PL|]. intros U. destruct (F U) as [p [y [ -> L]]]. exists p, (y ++ encode_char (u_special u) c). split; [now rewrite !app_assoc_s|exact L].
Qed.
Lemma existsb_eqb : forall s l, existsb (String.eqb s) l = true -> In s l.
Proof. intros s l H. apply existsb_exists in H as [x [I E]]. apply String.eqb_eq in E. now subst. Qed.
Lemma parse_segment_enc : forall u path seg, plain seg -> ~ In seg [""; "."; ".."] -> (u_file u = true -> exists p y, path = p ++ "/" ++ y /\ (2 <= String.length p)%nat) ->
  parse_segment u path seg = path ++ enc (u_special u) seg.
Proof.
  intros u path seg PL N F. unfold parse_segment. rewrite (push_chars_enc u seg path _ PL F). rewrite drop_app. pose proof (decode_encodes _ _ (enc_encodes (u_special u) seg)) as D.
  destruct (existsb (String.eqb (enc (u_special u) seg)) [".."; "%2e%2e"; "%2e%2E"; "%2E%2e"; "%2E%2E"; "%2e."; "%2E."; ".%2e"; ".%2E"]) eqn:E1.
  { exfalso. apply existsb_eqb in E1. apply N. right. right. left. rewrite <- D. repeat (destruct E1 as [ <- |E1]; [reflexivity|]). destruct E1. }
  destruct (existsb (String.eqb (enc (u_special u) seg)) ["."; "%2e"; "%2E"]) eqn:E2.
  { exfalso. apply existsb_eqb in E2. apply N. right. left. rewrite <- D. repeat (destruct E2 as [ <- |E2]; [reflexivity|]). destruct E2. }
  destruct (u_file u) eqn:U; [|reflexivity]. destruct (F eq_refl) as [p [y [ -> L]]]. destruct (Nat.eqb_spec (String.length (p ++ "/" ++ y)) 1) as [X|X]; [rewrite !length_app_s in X; cbn in X; lia|reflexivity].
Qed.
Definition enc_all (sp : bool) (ns : list string) : string := fold_right (fun n r => "/" ++ enc sp n ++ r) "" ns.
Lemma enc_nonempty : forall sp n, n <> "" -> (1 <= String.length (enc sp n))%nat.
Proof. intros sp n H. pose proof (encodes_len _ _ (enc_encodes sp n)). destruct n; [congruence|]. cbn [String.length] in *. lia. Qed.
Definition nonempty (s : string) : bool := negb (String.eqb s "").
Lemma extend_path_enc : forall u segs ns, names_of segs ns -> Forall plain segs -> forall P, String.length P <> 1%nat -> long u P ->
  extend_path u P (filter nonempty segs) = P ++ enc_all (u_special u) ns.
Proof.
  intros u segs ns H. induction H as [|p ps ns I H IH|p ps ns I H IH]; intros PL P L LU; cbn [filter enc_all fold_right]; [cbn [extend_path]; now rewrite app_nil_r_s| |]; inversion PL as [|? ? PP PS]; subst.
  - unfold nonempty at 1. destruct I as [ <- |[ <- |[ <- |[]]]]; cbn [String.eqb Ascii.eqb Bool.eqb negb extend_path orb]; now apply IH.
  - unfold nonempty at 1. destruct (String.eqb_spec p "") as [E0|E0]; [exfalso; apply I; rewrite E0; cbn; auto|]. cbn [negb extend_path].
    destruct (String.eqb_spec p ".") as [E1|E1]; [exfalso; apply I; rewrite E1; cbn; auto|]. destruct (String.eqb_spec p "..") as [E2|E2]; [exfalso; apply I; rewrite E2; cbn; auto|]. cbn [orb].
    destruct (Nat.eqb_spec (String.length P) 1) as [E3|E3]; [contradiction|]. pose proof (enc_nonempty (u_special u) p E0) as LE.
    rewrite parse_segment_enc; [|exact PP|exact I|]. 2: { intros U. exists P, "". split; [now rewrite app_nil_r_s|]. now apply LU. }
    rewrite IH; [now rewrite !app_assoc_s|exact PS| |].
    + rewrite !length_app_s. cbn. lia.
    + intros U. rewrite !length_app_s. cbn. specialize (LU U). lia.
Qed.
Lemma extend_root : forall u segs ns, names_of segs ns -> Forall plain segs -> u_file u = false ->
  extend_path u "/" (filter nonempty segs) = match ns with [] => "/" | _ => enc_all (u_special u) ns end.
Proof.
  intros u segs ns H. induction H as [|p ps ns I H IH|p ps ns I H IH]; intros PL U; cbn [filter]; [reflexivity| |]; inversion PL as [|? ? PP PS]; subst.
  - unfold nonempty at 1. destruct I as [ <- |[ <- |[ <- |[]]]]; cbn [String.eqb Ascii.eqb Bool.eqb negb extend_path orb]; now apply IH.
  - unfold nonempty at 1. destruct (String.eqb_spec p "") as [E0|E0]; [exfalso; apply I; rewrite E0; cbn; auto|]. cbn [negb extend_path].
    destruct (String.eqb_spec p ".") as [E1|E1]; [exfalso; apply I; rewrite E1; cbn; auto|]. destruct (String.eqb_spec p "..") as [E2|E2]; [exfalso; apply I; rewrite E2; cbn; auto|]. cbn [orb String.length Nat.eqb].
    pose proof (enc_nonempty (u_special u) p E0) as LE. rewrite parse_segment_enc; [|exact PP|exact I|congruence].
    rewrite (extend_path_enc u ps ns H PS); [| |intros U'; congruence]; [cbn [enc_all fold_right]; now rewrite app_assoc_s|]. rewrite length_app_s. cbn. lia.
Qed.

(** ** Joining *)
Lemma plain_split : forall s, plain s -> Forall plain (split "/" s).
Proof.
  induction s as [|c r IH]; intros H; cbn [split]; [repeat constructor|]. destruct H as [T H]. destruct (Ascii.eqb c "/"); [constructor; [exact I|auto]|].
  specialize (IH H). destruct (split "/" r); [repeat constructor; assumption|]. inversion IH; subst. constructor; [split; assumption|assumption].
Qed.
Lemma ends_slash : forall p, ends_with "/" (p ++ "/") = true.
Proof. intros p. apply ends_with_spec. eauto. Qed.
Lemma pop_slash : forall p, p <> "" -> pop_segment (p ++ "/") = p.
Proof.
  intros [|c r] H; [congruence|]. cbn [append pop_segment]. destruct (r ++ "/") eqn:E; [destruct r; discriminate|]. rewrite <- E. change "/" with (String "/" "") in E |- *.
  rewrite (rsplit_once_app "/" r ""); reflexivity.
Qed.
Lemma leading_len : forall names, Forall legal names -> names <> [] -> (2 <= String.length (leading names))%nat.
Proof. intros [|n l] F H; [congruence|]. inversion F as [|? ? [N _] _]; subst. cbn. rewrite length_app_s. destruct n; [congruence|]. cbn. lia. Qed.
Lemma with_path_same : forall u, with_path u (u_path u) = u.
Proof. intros [a b c d]. reflexivity. Qed.
Lemma encodes_all : forall sp l, encodes (leading l) (enc_all sp l).
Proof. intros sp. induction l as [|n l IH]; [constructor|]. cbn [leading fold_right enc_all]. apply (enc_plain "/"); [discriminate|]. apply encodes_app; [apply enc_encodes|exact IH]. Qed.
Lemma leading_app : forall a b, leading (a ++ b)%list = leading a ++ leading b.
Proof. induction a as [|n a IH]; intros b; [reflexivity|]. cbn. rewrite IH. now rewrite !app_assoc_s. Qed.
Lemma join_at : forall base names rel ns p, u_opaque base = false -> Forall legal names -> (u_file base = true -> names <> []) ->
  encodes (leading names) p -> ends_with "/" p = false -> u_path base = p \/ u_path base = p ++ "/" -> plain rel -> path_names rel ns ->
  exists F, join_url_segments base [rel] = Ok (with_path base F) /\ (F = p ++ enc_all (u_special base) ns \/ F = "/" /\ p = "" /\ (names ++ ns)%list = []).
Proof.
  intros base names rel ns p OP LG FI EN EP UP PL PN. pose proof (plain_split _ PL) as PS.
  destruct names as [|n0 names'].
  - (* the root of the store *)
    assert (p = ""). { inversion EN; reflexivity. } subst p. assert (UF : u_file base = false) by (destruct (u_file base); [now elim (FI eq_refl)|reflexivity]).
    destruct UP as [UP|UP]; cbn [append] in UP; unfold join_url_segments; rewrite UP.
    + cbn [ends_with starts_with rev_str rev_append_str bind foldM]. rewrite OP. cbn [bind]. rewrite UP. exists (enc_all (u_special base) ns). split; [|now left].
      change (fun s : string => negb (s =? "")) with nonempty. rewrite (extend_path_enc base _ ns PN PS ""); [reflexivity|discriminate|intros U; congruence].
    + cbn [ends_with starts_with rev_str rev_append_str Ascii.eqb Bool.eqb andb]. rewrite OP. cbn [bind foldM pop_segment]. cbn [u_opaque with_path]. rewrite OP. cbn [bind u_path with_path].
      change (fun s : string => negb (s =? "")) with nonempty. rewrite (extend_root _ _ ns PN PS) by exact UF. destruct ns as [|n ns'].
      * exists "/". split; [reflexivity|]. right. auto.
      * eexists. split; [reflexivity|]. left. reflexivity.
  - pose proof (leading_len _ LG ltac:(discriminate)) as L0. pose proof (encodes_len _ _ EN) as L1.
    assert (J : join_url_segments base [rel] = Ok (with_path base (extend_path (with_path base p) p (filter nonempty (split "/" rel))))).
    { unfold join_url_segments. destruct UP as [UP|UP]; rewrite UP.
      - rewrite EP. cbn [bind foldM]. rewrite OP. cbn [bind]. rewrite UP, <- UP, with_path_same. reflexivity.
      - rewrite ends_slash, OP, pop_slash by (intros ->; cbn in L1; lia). cbn [bind foldM u_opaque with_path]. rewrite OP. reflexivity. }
    rewrite J. rewrite (extend_path_enc _ _ ns PN PS) by (try (intros ?); lia). eexists. split; [reflexivity|]. left. reflexivity.
Qed.
Lemma join_enc : forall base names rel ns, located base names -> plain rel -> path_names rel ns ->
  exists F e, join_url_segments base [rel] = Ok (with_path base F) /\ encodes e F /\ (e = leading (names ++ ns)%list \/ e = "/" /\ (names ++ ns)%list = []).
Proof.
  intros base names rel ns [OP [LG [FI [p [EN [EP UP]]]]]] PL PN. destruct (join_at base names rel ns p OP LG FI EN EP UP PL PN) as [F [J D]]. exists F. destruct D as [ -> |[ -> [_ E]]].
  - exists (leading (names ++ ns)%list). split; [exact J|]. split; [|now left]. rewrite leading_app. apply encodes_app; [exact EN|apply encodes_all].
  - exists "/". split; [exact J|]. split; [apply (enc_plain "/"); [discriminate|constructor]|]. now right.
Qed.

(** ** Text split at slashes *)
Lemma utf8_slash_3 : forall a, utf8_3 a "/" = false.
Proof. intros a. unfold utf8_3. change (byte_in 160 191 "/") with false. change (cont_byte "/") with false. change (byte_in 128 159 "/") with false. now rewrite !Bool.andb_false_r. Qed.
Lemma utf8_slash_4 : forall a, utf8_4 a "/" = false.
Proof. intros a. unfold utf8_4. change (byte_in 144 191 "/") with false. change (cont_byte "/") with false. change (byte_in 128 143 "/") with false. now rewrite !Bool.andb_false_r. Qed.
Lemma utf8_cut : forall a b, utf8_valid (a ++ String "/" b) = true -> utf8_valid a = true /\ utf8_valid b = true.
Proof.
  intros a. remember (String.length a) as n eqn:E. assert (H : (String.length a <= n)%nat) by lia. clear E. revert a H.
  induction n as [|n IH]; intros [|a1 r] H b V; try (cbn in H; lia); try (split; [reflexivity|exact V]). cbn [append utf8_valid] in *. cbn in H.
  destruct (byte_in 0 127 a1); [apply IH; [lia|assumption]|].
  destruct r as [|b1 r2]; cbn [append] in *.
  { exfalso. change (cont_byte "/") with false in V. rewrite Bool.andb_false_r, utf8_slash_3, utf8_slash_4 in V. destruct b as [|x [|y z]]; try discriminate. }
  cbn in H. destruct (byte_in 194 223 a1 && cont_byte b1); [apply IH; [lia|assumption]|].
  destruct r2 as [|c1 r3]; cbn [append] in *.
  { exfalso. change (cont_byte "/") with false in V. rewrite !Bool.andb_false_r in V. destruct b as [|x y]; discriminate. }
  cbn in H. destruct (utf8_3 a1 b1 && cont_byte c1); [apply IH; [lia|assumption]|].
  destruct r3 as [|d1 r4]; cbn [append] in *.
  { exfalso. change (cont_byte "/") with false in V. rewrite !Bool.andb_false_r in V. discriminate. }
  cbn in H. destruct (utf8_4 a1 b1 && cont_byte c1 && cont_byte d1); [|discriminate]. cbn in *. apply IH; [lia|assumption].
Qed.
Lemma utf8_split : forall s, utf8_valid s = true -> Forall (fun p => utf8_valid p = true) (split "/" s).
Proof.
  intros s. remember (split "/" s) as l eqn:E. revert s E. induction l as [|x l IH]; intros s E V; [constructor|].
  pose proof (split_join "/" s) as J. rewrite <- E in J. destruct l as [|y l].
  - cbn in J. subst. repeat constructor. exact V.
  - rewrite join_cons2 in J. rewrite <- J in V. cbn [append] in V. apply utf8_cut in V as [V1 V2]. constructor; [exact V1|]. apply (IH (join "/" (y :: l))); [|exact V2].
    assert (F : Forall (fun t => has_char "/" t = false) (y :: l)). { assert (G : Forall (fun t => has_char "/" t = false) (x :: y :: l)) by (rewrite E; apply split_no_char). now inversion G. }
    symmetry. apply join_split; [discriminate|exact F].
Qed.

(** ** Keys *)
Lemma leading_key : forall l, l <> [] -> leading l = String "/" (key_of l).
Proof.
  induction l as [|x l IH]; intros H; [congruence|]. change (leading (x :: l)) with ("/" ++ x ++ leading l). destruct l as [|y l]; [cbn; now rewrite app_nil_r_s|].
  rewrite IH by discriminate. unfold key_of. rewrite join_cons2. reflexivity.
Qed.
Definition named (n : string) : Prop := ~ In n [""; "."; ".."] /\ has_char "/" n = false /\ utf8_valid n = true.
Lemma named_wf : forall n, named n -> wf_name n.
Proof. intros n [I [S _]]. split; [|exact S]. intros ->. apply I. cbn. auto. Qed.
Lemma legal_named : forall n, legal n <-> named n /\ has_control n = false.
Proof.
  intros n. split.
  - intros [N0 [S [N1 [N2 [C U]]]]]. split; [|exact C]. split; [|auto]. intros [X|[X|[X|[]]]]; congruence.
  - intros [[I [S U]] C]. repeat split; try assumption; intros ->; apply I; cbn; auto.
Qed.
Lemma names_of_named : forall ps ns, names_of ps ns -> Forall (fun p => has_char "/" p = false) ps -> Forall (fun p => utf8_valid p = true) ps -> Forall named ns.
Proof. intros ps ns H. induction H; intros F U; [constructor| |]; inversion F; inversion U; subst; [auto|]. constructor; [split; auto|auto]. Qed.
Lemma forallb_ok : forall l, Forall named l -> forallb (fun s => negb (String.eqb s "") && part_ok s) l = negb (existsb has_control l).
Proof.
  intros l F. induction F as [|x l [I _] F IH]; [reflexivity|]. cbn [forallb existsb]. rewrite IH. unfold part_ok.
  destruct (String.eqb_spec x "") as [E|_]; [exfalso; apply I; rewrite E; cbn; auto|]. destruct (String.eqb_spec x ".") as [E|_]; [exfalso; apply I; rewrite E; cbn; auto|].
  destruct (String.eqb_spec x "..") as [E|_]; [exfalso; apply I; rewrite E; cbn; auto|]. cbn [negb andb]. now destruct (has_control x).
Qed.
Lemma parse_key : forall l, Forall named l -> l <> [] -> parse_path (leading l) = if existsb has_control l then Err EStorage else Ok (key_of l).
Proof.
  intros l F N. assert (W : Forall wf_name l) by (eapply Forall_impl; [exact named_wf|exact F]).
  rewrite leading_key by exact N. unfold parse_path. replace (starts_with "/" (String "/" (key_of l))) with true by reflexivity. cbn [drop].
  pose proof (join_nonempty l N W) as E. fold (key_of l) in E. destruct (key_of l) as [|c r] eqn:K; [congruence|]. cbv beta iota zeta. rewrite <- K.
  unfold key_of at 1. rewrite (ends_slash_join l N W). unfold key_of at 1. rewrite join_split; [|exact N|eapply Forall_impl; [|exact W]; intros ? [_ X]; exact X].
  rewrite forallb_ok by exact F. unfold key_of at 1. rewrite (ends_slash_join l N W). now destruct (existsb has_control l).
Qed.
Lemma utf8_leading : forall l, Forall named l -> utf8_valid (leading l) = true.
Proof. intros l F. induction F as [|x l [_ [_ U]] F IH]; [reflexivity|]. cbn [leading fold_right append]. change (utf8_valid (String "/" (x ++ leading l))) with (utf8_valid (x ++ leading l)). now apply utf8_app_true. Qed.
Lemma path_names_named : forall rel ns, utf8_valid rel = true -> path_names rel ns -> Forall named ns.
Proof. intros rel ns U P. eapply names_of_named; [exact P|apply split_no_char|now apply utf8_split]. Qed.
Lemma object_path_exact : forall base names rel ns, located base names -> plain rel -> utf8_valid rel = true -> path_names rel ns ->
  object_path base rel = if existsb has_control ns then Err EStorage else Ok (key_of (names ++ ns)).
Proof.
  intros base names rel ns L PL U PN. pose proof (path_names_named _ _ U PN) as F. destruct (join_enc _ _ _ _ L PL PN) as [p [e [J [E D]]]]. unfold object_path. rewrite J. cbn [bind u_path with_path]. unfold from_url_path. rewrite (decode_encodes _ _ E).
  destruct L as [_ [LG _]]. assert (FA : Forall named (names ++ ns)). { apply Forall_app. split; [|exact F]. eapply Forall_impl; [|exact LG]. intros n X. now apply legal_named in X. }
  assert (NC : existsb has_control names = false). { apply Bool.not_true_is_false. intros X. apply existsb_exists in X as [n [I X]]. rewrite Forall_forall in LG. apply LG, legal_named in I as [_ I]. congruence. }
  destruct D as [ -> |[ -> X]].
  - rewrite utf8_leading by exact FA. destruct (names ++ ns)%list as [|x l] eqn:E1.
    + apply app_eq_nil in E1 as [ -> -> ]. reflexivity.
    + rewrite parse_key; [|exact FA|discriminate]. rewrite <- E1. rewrite existsb_app, NC. reflexivity.
  - apply app_eq_nil in X as [ -> -> ]. reflexivity.
Qed.

(** ** Listing *)
Lemma strip_prefix_spec : forall p s r, strip_prefix p s = Some r <-> s = p ++ r.
Proof.
  induction p as [|a p IH]; intros s r; cbn [strip_prefix append]; [split; [now intros [= ->]|now intros ->]|].
  destruct s as [|b s]; [split; discriminate|]. destruct (Ascii.eqb_spec a b) as [ -> |N]; [rewrite IH; split; [now intros ->|now intros [= ->]]|]. split; [discriminate|]. intros [= -> _]. now elim N.
Qed.
Lemma legal_wf : forall n, legal n -> wf_name n.
Proof. intros n H. apply legal_named in H as [H _]. now apply named_wf. Qed.
Lemma key_of_inj : forall p q, Forall legal p -> Forall legal q -> key_of p = key_of q -> p = q.
Proof.
  intros p q F1 F2 E. assert (W1 : Forall wf_name p) by (eapply Forall_impl; [exact legal_wf|exact F1]). assert (W2 : Forall wf_name q) by (eapply Forall_impl; [exact legal_wf|exact F2]).
  destruct p as [|x p]; destruct q as [|y q]; [reflexivity| | |].
  - exfalso. symmetry in E. exact (join_nonempty (y :: q) ltac:(discriminate) W2 E).
  - exfalso. exact (join_nonempty (x :: p) ltac:(discriminate) W1 E).
  - apply (join_inj (x :: p) (y :: q)); try discriminate; assumption.
Qed.
Lemma key_app : forall p q, p <> [] -> q <> [] -> key_of (p ++ q) = key_of p ++ "/" ++ key_of q.
Proof.
  unfold key_of. induction p as [|x [|y p] IH]; intros q N1 N2; [now elim N1| |].
  - destruct q as [|z q]; [now elim N2|]. reflexivity.
  - change ((x :: y :: p) ++ q)%list with (x :: y :: (p ++ q))%list. rewrite !join_cons2. change (y :: p ++ q)%list with ((y :: p) ++ q)%list. rewrite IH; [|discriminate|exact N2]. now rewrite !app_assoc_s.
Qed.
(** a key under a prefix is the prefix followed by names *)
Lemma under_spec : forall pre names r, Forall legal pre -> Forall legal names -> names <> [] ->
  (under (key_of pre) (key_of names) = Some r <-> exists rest, rest <> [] /\ Forall legal rest /\ names = (pre ++ rest)%list /\ r = key_of rest).
Proof.
  intros pre names r F1 F2 N. destruct pre as [|x pre].
  - change (under (key_of []) (key_of names)) with (Some (key_of names)). cbn [app]. split; [intros [= <-]; exists names; auto|]. intros [rest [_ [_ [ -> -> ]]]]. reflexivity.
  - assert (W : Forall wf_name (x :: pre)) by (eapply Forall_impl; [exact legal_wf|exact F1]). pose proof (join_nonempty (x :: pre) ltac:(discriminate) W) as NE. fold (key_of (x :: pre)) in NE.
    assert (X : under (key_of (x :: pre)) (key_of names) = strip_prefix (key_of (x :: pre) ++ "/") (key_of names)). { unfold under. destruct (key_of (x :: pre)); [congruence|reflexivity]. }
    rewrite X, strip_prefix_spec, app_assoc_s. split.
    + intros E. assert (W2 : Forall (fun n => has_char "/" n = false) names) by (eapply Forall_impl; [|exact F2]; intros n H; apply H).
      assert (W1 : Forall (fun n => has_char "/" n = false) (x :: pre)) by (eapply Forall_impl; [|exact F1]; intros n H; apply H).
      assert (S : names = ((x :: pre) ++ split "/" r)%list).
      { rewrite <- (join_split "/" names N W2). fold (key_of names). rewrite E. clear - W1. unfold key_of. revert x W1. induction pre as [|y pre IH]; intros x W1.
        - cbn [join append]. inversion W1; subst. rewrite split_cons by assumption. reflexivity.
        - rewrite join_cons2, !app_assoc_s. inversion W1; subst. cbn [append]. rewrite split_cons by assumption. cbn [app]. f_equal. apply IH. assumption. }
      exists (split "/" r). split; [|split; [|split]].
      * apply split_not_nil.
      * rewrite S in F2. apply Forall_app in F2. apply F2.
      * exact S.
      * symmetry. apply split_join.
    + intros [rest [NR [_ [ -> -> ]]]]. now rewrite key_app.
Qed.
Lemma filename_key : forall l n, Forall legal l -> legal n -> filename (key_of (l ++ [n])) = Some n.
Proof.
  intros l n F L. destruct l as [|x l].
  - cbn [app key_of join]. destruct L as [N [S _]]. unfold filename. destruct n as [|c r] eqn:E; [congruence|]. rewrite <- E in *. apply rsplit_once_none in S. rewrite S. reflexivity.
  - unfold key_of. rewrite join_app1 by discriminate. destruct L as [N [S _]]. unfold filename. cbn [append]. rewrite (rsplit_once_app "/" (join "/" (x :: l)) n S). destruct (join "/" (x :: l) ++ String "/" n) eqn:E; [|reflexivity].
    destruct (join "/" (x :: l)); discriminate.
Qed.
Definition name_of (k : string) : string := match filename k with Some n => n | None => "" end.
Lemma names_mapM : forall xs, (forall k, In k xs -> exists l n, Forall legal l /\ legal n /\ k = key_of (l ++ [n])) -> mapM (fun k => ok_or (filename k) EStorage) xs = Ok (map name_of xs).
Proof.
  induction xs as [|k xs IH]; intros H; [reflexivity|]. cbn [mapM map]. destruct (H k (or_introl eq_refl)) as [l [n [F [L E]]]]. unfold name_of at 1. rewrite E, filename_key by assumption. cbn [ok_or bind].
  rewrite IH; [reflexivity|]. intros k' I. apply H. now right.
Qed.
Lemma single_key : forall rest, Forall legal rest -> rest <> [] -> has_char "/" (key_of rest) = false -> exists n, rest = [n].
Proof. intros [|n [|m rest]] F N H; [congruence|eauto|]. exfalso. unfold key_of in H. rewrite join_cons2 in H. apply split_once_none in H. inversion F as [|? ? [_ [S _]] _]; subst. cbn [append] in H. rewrite split_once_app in H by exact S. discriminate. Qed.
Lemma objects_spec : forall keys pre k, proper_keys keys -> Forall legal pre ->
  (In k (objects keys (key_of pre)) <-> In k keys /\ exists n, legal n /\ k = key_of (pre ++ [n])).
Proof.
  intros keys pre k P F. unfold objects. rewrite filter_In. unfold proper_keys in P. rewrite Forall_forall in P. split.
  - intros [I H]. split; [exact I|]. destruct (P k I) as [names [N [L E]]]. destruct (under (key_of pre) k) as [r|] eqn:U; [|discriminate]. rewrite E in U. apply under_spec in U as [rest [NR [LR [ -> -> ]]]]; try assumption.
    apply Bool.negb_true_iff in H. destruct (single_key _ LR NR H) as [n ->]. exists n. split; [now inversion LR|exact E].
  - intros [I [n [L ->]]]. split; [exact I|]. assert (U : under (key_of pre) (key_of (pre ++ [n])) = Some (key_of [n])).
    { apply under_spec; [exact F|apply Forall_app; auto|destruct pre; discriminate|]. exists [n]. repeat split; auto; discriminate. }
    rewrite U. cbn [key_of join]. destruct L as [_ [S _]]. now rewrite S.
Qed.
Lemma nodup_map_inj : forall (f : string -> string) l, (forall a b, In a l -> In b l -> f a = f b -> a = b) -> NoDup l -> NoDup (map f l).
Proof.
  intros f l J D. induction D as [|x l N D IH]; cbn; constructor; [|apply IH; intros; apply J; auto; now right].
  intros I. apply in_map_iff in I as [y [E I]]. apply N. rewrite <- (J y x); auto; [now right|now left].
Qed.
Lemma list_files_exact : forall keys base names sub ns, proper_keys keys -> located base names -> plain sub -> utf8_valid sub = true -> path_names sub ns -> existsb has_control ns = false ->
  exists l, list_file_names keys base sub = Ok l /\ (forall n, In n l <-> legal n /\ In (key_of (names ++ ns ++ [n])) keys) /\ (NoDup keys -> NoDup l).
Proof.
  intros keys base names sub ns P L PL U PN NC. assert (F : Forall legal (names ++ ns)).
  { apply Forall_app. split; [apply L|]. pose proof (path_names_named _ _ U PN) as F. rewrite Forall_forall in *. intros n I. apply legal_named. split; [now apply F|]. apply Bool.not_true_is_false. intros X. assert (existsb has_control ns = true) by (apply existsb_exists; eauto). congruence. }
  unfold list_file_names. rewrite (object_path_exact _ _ _ _ L PL U PN), NC. cbn [bind]. rewrite names_mapM.
  2: { intros k I. apply objects_spec in I as [_ [n [Ln E]]]; try assumption. exists (names ++ ns)%list, n. auto. }
  eexists. split; [reflexivity|]. split.
  - intros n. rewrite in_map_iff. split.
    + intros [k [E I]]. apply objects_spec in I as [I [m [Lm ->]]]; try assumption. unfold name_of in E. rewrite filename_key in E by assumption. subst m. rewrite app_assoc. auto.
    + intros [Ln I]. exists (key_of ((names ++ ns) ++ [n])). split; [unfold name_of; now rewrite filename_key|]. apply objects_spec; try assumption. rewrite app_assoc in I. split; [exact I|eauto].
  - intros D. apply nodup_map_inj; [|apply NoDup_filter; exact D]. intros a b Ia Ib E. apply objects_spec in Ia as [_ [n [Ln ->]]]; try assumption. apply objects_spec in Ib as [_ [m [Lm ->]]]; try assumption.
    unfold name_of in E. rewrite !filename_key in E by assumption. now subst.
Qed.
Lemma prefix_key : forall pre d, Forall legal pre -> (match key_of pre with "" => d | _ => key_of pre ++ "/" ++ d end) = key_of (pre ++ [d]).
Proof.
  intros [|x pre] d F; [reflexivity|]. assert (W : Forall wf_name (x :: pre)) by (eapply Forall_impl; [exact legal_wf|exact F]). pose proof (join_nonempty (x :: pre) ltac:(discriminate) W) as NE.
  unfold key_of. rewrite join_app1 by discriminate. destruct (join "/" (x :: pre)); [congruence|reflexivity].
Qed.
Lemma prefixes_spec : forall keys pre k, proper_keys keys -> Forall legal pre ->
  (In k (common_prefixes keys (key_of pre)) <-> exists n rest, legal n /\ rest <> [] /\ Forall legal rest /\ k = key_of (pre ++ [n]) /\ In (key_of (pre ++ n :: rest)) keys).
Proof.
  intros keys pre k P F. unfold common_prefixes. rewrite nodup_In, in_flat_map. unfold proper_keys in P. rewrite Forall_forall in P. split.
  - intros [k0 [I H]]. destruct (P k0 I) as [names [N [L E]]]. destruct (under (key_of pre) k0) as [r|] eqn:U; [|destruct H]. rewrite E in U. apply under_spec in U as [rest [NR [LR [E1 -> ]]]]; try assumption.
    destruct (split_once "/" (key_of rest)) as [[d e]|] eqn:S; [|destruct H]. destruct H as [H|[]]. rewrite prefix_key in H by exact F. apply split_once_some in S as [S1 S2].
    destruct rest as [|n [|m rest]]; [congruence| |].
    + exfalso. inversion LR as [|? ? [_ [X _]] _]; subst. cbn [key_of join] in S1. apply split_once_none in X. rewrite S1, split_once_app in X by exact S2. discriminate.
    + unfold key_of in S1. rewrite join_cons2 in S1. inversion LR as [|? ? LN LR']; subst. assert (X : Some (n, join "/" (m :: rest)) = Some (d, e)). { rewrite <- (split_once_app "/" n) by apply LN. cbn [append] in S1. rewrite S1. now apply split_once_app. }
      injection X as <- <-. exists n, (m :: rest). repeat split; auto; try discriminate; apply LN.
  - intros [n [rest [LN [NR [LR [ -> I]]]]]]. exists (key_of (pre ++ n :: rest)). split; [exact I|]. assert (LA : Forall legal (n :: rest)) by (constructor; assumption).
    assert (U : under (key_of pre) (key_of (pre ++ n :: rest)) = Some (key_of (n :: rest))).
    { apply under_spec; [exact F|apply Forall_app; auto|destruct pre; discriminate|]. exists (n :: rest). repeat split; auto; discriminate. }
    rewrite U. destruct rest as [|m rest]; [congruence|]. change (key_of (n :: m :: rest)) with (n ++ String "/" (join "/" (m :: rest))). rewrite split_once_app by apply LN. left. now apply prefix_key.
Qed.
Lemma list_dirs_exact : forall keys base names sub ns, proper_keys keys -> located base names -> plain sub -> utf8_valid sub = true -> path_names sub ns -> existsb has_control ns = false ->
  exists l, list_dir_names keys base sub = Ok l /\ (forall n, In n l <-> legal n /\ exists rest, rest <> [] /\ Forall legal rest /\ In (key_of (names ++ ns ++ n :: rest)) keys) /\ NoDup l.
Proof.
  intros keys base names sub ns P L PL U PN NC. assert (F : Forall legal (names ++ ns)).
  { apply Forall_app. split; [apply L|]. pose proof (path_names_named _ _ U PN) as F. rewrite Forall_forall in *. intros n I. apply legal_named. split; [now apply F|]. apply Bool.not_true_is_false. intros X. assert (existsb has_control ns = true) by (apply existsb_exists; eauto). congruence. }
  unfold list_dir_names. rewrite (object_path_exact _ _ _ _ L PL U PN), NC. cbn [bind]. rewrite names_mapM.
  2: { intros k I. apply prefixes_spec in I as [n [rest [Ln [_ [_ [E _]]]]]]; try assumption. exists (names ++ ns)%list, n. auto. }
  eexists. split; [reflexivity|]. split.
  - intros n. rewrite in_map_iff. split.
    + intros [k [E I]]. apply prefixes_spec in I as [m [rest [Lm [N [R [ -> I]]]]]]; try assumption. unfold name_of in E. rewrite filename_key in E by assumption. subst m. split; [exact Lm|]. exists rest. rewrite app_assoc. auto.
    + intros [Ln [rest [N [R I]]]]. exists (key_of ((names ++ ns) ++ [n])). split; [unfold name_of; now rewrite filename_key|]. apply prefixes_spec; try assumption. rewrite app_assoc in I. exists n, rest. auto.
  - apply nodup_map_inj; [|apply NoDup_nodup]. intros a b Ia Ib E. apply prefixes_spec in Ia as [n [r1 [Ln [_ [_ [ -> _]]]]]]; try assumption. apply prefixes_spec in Ib as [m [r2 [Lm [_ [_ [ -> _]]]]]]; try assumption.
    unfold name_of in E. rewrite !filename_key in E by assumption. now subst.
Qed.

(** ** Children *)
Lemma split_child : forall s n, has_char "/" n = false -> split "/" (s ++ String "/" n) = (split "/" s ++ [n])%list.
Proof.
  induction s as [|c r IH]; intros n H; [cbn [append split Ascii.eqb Bool.eqb app]; rewrite split_single by exact H; reflexivity|].
  cbn [append split]. rewrite IH by exact H. destruct (Ascii.eqb c "/"); [reflexivity|]. destruct (split "/" r) as [|p ps] eqn:E; [now apply split_not_nil in E|reflexivity].
Qed.
Lemma names_of_app : forall ps ns, names_of ps ns -> forall qs ms, names_of qs ms -> names_of (ps ++ qs) (ns ++ ms).
Proof. intros ps ns H. induction H; intros qs ms Q; cbn [app]; [exact Q|apply name_skip|apply name_keep]; auto. Qed.
Lemma names_of_fun : forall ps ns, names_of ps ns -> forall ms, names_of ps ms -> ns = ms.
Proof. intros ps ns H. induction H; intros ms M; inversion M; subst; try contradiction; auto. f_equal. auto. Qed.
Lemma names_of_total : forall ps, exists ns, names_of ps ns.
Proof.
  induction ps as [|p ps [ns IH]]; [exists []; constructor|]. destruct (in_dec string_dec p [""; "."; ".."]); [exists ns; now apply name_skip|exists (p :: ns); now apply name_keep].
Qed.
Lemma legal_one : forall n, legal n -> names_of [n] [n].
Proof. intros n [N [_ [N1 [N2 _]]]]. apply name_keep; [|constructor]. intros [X|[X|[X|[]]]]; congruence. Qed.
Lemma child_names : forall sub n ns, path_names sub ns -> legal n -> path_names (path_join sub n) (ns ++ [n]).
Proof.
  intros sub n ns P L. pose proof L as [N [S _]]. unfold path_join.
  assert (E : starts_with "/" n = false). { destruct n as [|c r]; [congruence|]. cbn [has_char] in S. apply Bool.orb_false_iff in S as [S _]. cbn [starts_with]. rewrite Ascii.eqb_sym, S. reflexivity. }
  rewrite E. destruct (String.eqb_spec sub "") as [ -> |NE].
  - unfold path_names in P. cbn in P. inversion P as [|? ? ? I Q|? ? ? I Q]; subst; [|exfalso; apply I; cbn; auto]. inversion Q; subst. cbn [app]. unfold path_names. rewrite split_single by exact S. now apply legal_one.
  - destruct (ends_with "/" sub) eqn:ES.
    + apply ends_with_spec in ES as [p ->]. unfold path_names in *. change "/" with (String "/" "") in *. rewrite split_child in P by reflexivity. rewrite app_assoc_s. cbn [append]. rewrite split_child by exact S.
      destruct (names_of_total (split "/" p)) as [ms M]. pose proof (names_of_app _ _ M [""] [] ltac:(apply name_skip; [cbn; auto|constructor])) as Q. rewrite app_nil_r in Q. rewrite (names_of_fun _ _ P _ Q). apply names_of_app; [exact M|now apply legal_one].
    + unfold path_names. cbn [append]. rewrite split_child by exact S. apply names_of_app; [exact P|now apply legal_one].
Qed.
Lemma plain_app : forall a b, plain a -> plain b -> plain (a ++ b).
Proof. induction a as [|c a IH]; intros b A B; [exact B|]. destruct A. split; auto. Qed.
Lemma control_plain : forall s, has_control s = false -> plain s.
Proof.
  induction s as [|c r IH]; cbn [has_control plain]; [auto|]. intros H. apply Bool.orb_false_iff in H as [H1 H2]. split; [|auto].
  unfold tab_or_newline. cbn [existsb]. destruct (Ascii.eqb_spec c "009") as [ -> |_]; [discriminate|]. destruct (Ascii.eqb_spec c "010") as [ -> |_]; [discriminate|]. destruct (Ascii.eqb_spec c "013") as [ -> |_]; [discriminate|reflexivity].
Qed.
Lemma path_join_cases : forall a c, path_join a c = c \/ path_join a c = a ++ c \/ path_join a c = a ++ "/" ++ c.
Proof. intros a c. unfold path_join. destruct (starts_with "/" c); [auto|]. destruct (String.eqb a ""); [auto|]. destruct (ends_with "/" a); auto. Qed.
Lemma child_addressed : forall base names sub ns n, located base names -> plain sub -> utf8_valid sub = true -> path_names sub ns -> existsb has_control ns = false -> legal n ->
  object_path base (path_join sub n) = Ok (key_of (names ++ ns ++ [n])).
Proof.
  intros base names sub ns n L PL U PN NC LN. rewrite (object_path_exact base names _ (ns ++ [n])); [|exact L| | |now apply child_names].
  - rewrite existsb_app, NC. cbn [existsb orb]. apply legal_named in LN as [_ ->]. reflexivity.
  - pose proof LN as X. apply legal_named in X as [_ X]. apply control_plain in X. destruct (path_join_cases sub n) as [ -> |[ -> | -> ]]; auto using plain_app. apply plain_app; [exact PL|]. split; [reflexivity|exact X].
  - assert (X : utf8_valid n = true) by apply LN. destruct (path_join_cases sub n) as [ -> |[ -> | -> ]]; auto using utf8_app_true.
Qed.
Lemma addressed_inj : forall base names rel1 ns1 rel2 ns2 k1 k2, located base names -> plain rel1 -> plain rel2 -> utf8_valid rel1 = true -> utf8_valid rel2 = true ->
  path_names rel1 ns1 -> path_names rel2 ns2 -> object_path base rel1 = Ok k1 -> object_path base rel2 = Ok k2 -> (k1 = k2 <-> ns1 = ns2).
Proof.
  intros base names rel1 ns1 rel2 ns2 k1 k2 L P1 P2 U1 U2 N1 N2. rewrite (object_path_exact _ _ _ _ L P1 U1 N1), (object_path_exact _ _ _ _ L P2 U2 N2).
  assert (G : forall rel ns, utf8_valid rel = true -> path_names rel ns -> existsb has_control ns = false -> Forall legal (names ++ ns)).
  { intros rel ns U PN NC. apply Forall_app. split; [apply L|]. pose proof (path_names_named _ _ U PN) as F. rewrite Forall_forall in *. intros n I. apply legal_named. split; [now apply F|]. apply Bool.not_true_is_false. intros X. assert (existsb has_control ns = true) by (apply existsb_exists; eauto). congruence. }
  destruct (existsb has_control ns1) eqn:C1; [discriminate|]. destruct (existsb has_control ns2) eqn:C2; [discriminate|]. intros [= <-] [= <-]. split; [|now intros ->].
  intros E. apply key_of_inj in E; [|eauto|eauto]. now apply app_inv_head in E.
Qed.

(** ** Base URLs *)
Lemma parse_uri_located : forall parse uri u names, parse uri = Some u -> located u names -> exists v, parse_uri parse uri = Ok v /\ located v names.
Proof.
  intros parse uri u names P L. unfold parse_uri. rewrite P. cbn [ok_or bind]. destruct (ends_with "/" (u_path u)) eqn:E; [|eauto]. pose proof L as [OP [LG [FI [p [EN [EP UP]]]]]]. rewrite OP. eexists. split; [reflexivity|].
  destruct UP as [UP|UP]; [congruence|]. repeat split; try assumption. exists p. split; [exact EN|]. split; [exact EP|]. cbn [u_path with_path]. rewrite UP. destruct p as [|c r]; [right; reflexivity|left; now apply pop_slash].
Qed.
Lemma extend_total : forall u segs, u_opaque u = false -> exists v, foldM (fun u seg => if u_opaque u then Err EStorage else Ok (with_path u (extend_path u (u_path u) (filter (fun s => negb (String.eqb s "")) (split "/" seg))))) u segs = Ok v.
Proof. intros u segs. revert u. induction segs as [|s segs IH]; intros u H; cbn [foldM]; [eauto|]. rewrite H. cbn [bind]. apply IH. exact H. Qed.
Lemma never_panics : forall parse uri u rel, parse_uri parse uri = Ok u -> object_path u rel <> Panic.
Proof.
  intros parse uri u rel H. assert (G : u_opaque u = true -> ends_with "/" (u_path u) = false).
  { unfold parse_uri in H. destruct (parse uri) as [v|]; [|discriminate]. cbn [ok_or bind] in H. destruct (ends_with "/" (u_path v)) eqn:E; [destruct (u_opaque v) eqn:O; [discriminate|]|]; injection H as <-; [cbn; congruence|auto]. }
  unfold object_path, join_url_segments. destruct (u_opaque u) eqn:O.
  - rewrite (G eq_refl). cbn [bind foldM]. rewrite O. cbn. discriminate.
  - assert (X : exists w, (if ends_with "/" (u_path u) then Ok (with_path u (pop_segment (u_path u))) else Ok u) = Ok w /\ u_opaque w = false) by (destruct (ends_with "/" (u_path u)); eexists; (split; [reflexivity|exact O])).
    destruct X as [w [ -> W]]. cbn [bind]. destruct (extend_total w [rel] W) as [v ->]. cbn [bind]. unfold from_url_path. destruct (utf8_valid _); [|discriminate]. unfold parse_path. destruct (if starts_with _ _ then _ else _); [discriminate|]. match goal with |- (if ?b then _ else _) <> _ => destruct b; discriminate end.
Qed.
