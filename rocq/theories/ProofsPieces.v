(** The four splitting passes together: the pieces [wrap] fills into lines. *)
From Coq Require Import String Sorted Permutation.
From Verif Require Import Py Regex Utils TextWrap Base SpecLines ProofsLines ProofsRegex SpecWrap
  ProofsScan ProofsWrap ProofsTokens ProofsParser ProofsLinks.

(** * Words *)

Lemma words_cons_space c s : is_space c = true -> words (c :: s) = words s.
Proof. intros H. cbn [words]. rewrite H. reflexivity. Qed.

Lemma words_spaces s : spaces s -> words s = [].
Proof. intros H. induction H as [|c s Hc H IH]; [reflexivity|]. rewrite words_cons_space by exact Hc. exact IH. Qed.

Lemma words_app_space a c b : is_space c = true -> words (a ++ c :: b) = words a ++ words b.
Proof.
  intros Hc. induction a as [|x a IH]; [apply words_cons_space; exact Hc|].
  cbn [app]. destruct (is_space x) eqn:Hx; [rewrite !words_cons_space by exact Hx; exact IH|].
  destruct a as [|y a].
  - cbn [app words]. rewrite Hx, Hc. reflexivity.
  - cbn [app] in *. cbn [words] in *. rewrite Hx. destruct (is_space y) eqn:Hy.
    + rewrite IH. reflexivity.
    + rewrite IH. set (l := match a with [] => _ | _ :: _ => _ end).
      assert (Hl : l <> []).
      { unfold l. clear. destruct a as [|z a]; [discriminate|].
        destruct (is_space z); [discriminate|]. destruct (words (z :: a)); discriminate. }
      destruct l; [congruence|reflexivity].
Qed.

Lemma words_app_spaces a ws b : spaces ws -> ws <> [] -> words (a ++ ws ++ b) = words a ++ words b.
Proof.
  intros H Hn. destruct H as [|c ws Hc H]; [congruence|]. cbn [app].
  rewrite words_app_space by exact Hc. f_equal. clear Hn. induction H as [|d ws Hd H IH]; [reflexivity|].
  cbn [app]. rewrite words_cons_space by exact Hd. exact IH.
Qed.

Lemma words_lead ws b : spaces ws -> words (ws ++ b) = words b.
Proof.
  intros H. induction H as [|d ws Hd H IH]; [reflexivity|].
  cbn [app]. rewrite words_cons_space by exact Hd. exact IH.
Qed.

Lemma words_trail a ws : spaces ws -> words (a ++ ws) = words a.
Proof.
  intros H. destruct ws as [|c ws]; [rewrite app_nil_r; reflexivity|].
  rewrite <- (app_nil_r (c :: ws)), words_app_spaces by (auto; discriminate). cbn. apply app_nil_r.
Qed.

Lemma words_strip s : words (strip s) = words s.
Proof.
  destruct (strip_spec s) as (ws & ws' & E & Hw & Hw'). rewrite E at 2.
  rewrite words_lead by (apply spaces_forallb; exact Hw).
  rewrite words_trail by (apply spaces_forallb; exact Hw'). reflexivity.
Qed.

Lemma words_one w : w <> [] -> Forall (fun c => is_space c = false) w -> words w = [w].
Proof.
  intros Hn H. induction H as [|c w Hc H IH]; [congruence|]. cbn [words]. rewrite Hc.
  destruct w as [|d w]; [reflexivity|]. rewrite (Forall_inv H).
  rewrite IH by discriminate. reflexivity.
Qed.

Lemma words_join ls : words (str_join [c_sp] ls) = concat (map words ls).
Proof.
  induction ls as [|l ls IH]; [reflexivity|]. destruct ls as [|l' ls].
  - cbn. rewrite app_nil_r. reflexivity.
  - rewrite str_join_cons by discriminate. cbn [app].
    rewrite words_app_space by reflexivity. rewrite IH. reflexivity.
Qed.

Lemma words_join_nl ls : words (str_join [c_nl] ls) = concat (map words ls).
Proof.
  induction ls as [|l ls IH]; [reflexivity|]. destruct ls as [|l' ls].
  - cbn. rewrite app_nil_r. reflexivity.
  - rewrite str_join_cons by discriminate. cbn [app].
    rewrite words_app_space by reflexivity. rewrite IH. reflexivity.
Qed.

Lemma linebreak_space c : is_linebreak c = true -> is_space c = true.
Proof.
  unfold is_linebreak, is_space. rewrite !orb_true_iff, !andb_true_iff, !N.leb_le, !N.eqb_eq. lia.
Qed.

Lemma splitlines_first s :
  s <> [] ->
  exists l sep s2, s = l ++ sep ++ s2 /\ spaces sep /\ (sep = [] -> s2 = [])
    /\ splitlines s = l :: splitlines s2.
Proof.
  induction s as [|c s IH IH2] using splitlines_ind_aux; [congruence|]. intros _. cbn [splitlines].
  destruct (is_linebreak c) eqn:Hc.
  - assert (Hs := linebreak_space c Hc). destruct s as [|d s].
    + exists [], [c], []. repeat split; try discriminate. repeat constructor. exact Hs.
    + destruct (N.eqb c c_cr && N.eqb d c_nl) eqn:E.
      * exists [], [c; d], s. repeat split; try discriminate. apply andb_true_iff in E.
        destruct E as [_ E]. apply N.eqb_eq in E. subst d. repeat constructor. exact Hs.
      * exists [], [c], (d :: s). repeat split; try discriminate. repeat constructor. exact Hs.
  - destruct s as [|d s].
    + exists [c], [], []. repeat split. constructor.
    + destruct (IH ltac:(discriminate)) as (l & sep & s2 & E & Hs & Hn & El).
      exists (c :: l), sep, s2. rewrite E. split; [reflexivity|]. split; [exact Hs|].
      split; [exact Hn|]. rewrite <- E, El. reflexivity.
Qed.

Lemma words_splitlines s : concat (map words (splitlines s)) = words s.
Proof.
  remember (length s) as n eqn:Hn. assert (Hle : length s <= n) by lia. clear Hn. revert s Hle.
  induction n as [|n IH]; intros s Hle; [destruct s; [reflexivity|cbn in Hle; lia]|].
  destruct s as [|c s]; [reflexivity|].
  destruct (splitlines_first (c :: s) ltac:(discriminate)) as (l & sep & s2 & E & Hs & Hn & El).
  rewrite El. cbn [map concat]. rewrite E. destruct sep as [|x sep].
  - rewrite (Hn eq_refl). cbn. rewrite !app_nil_r. reflexivity.
  - rewrite words_app_spaces by (auto; discriminate). f_equal. apply IH.
    assert (L := f_equal (@length _) E). rewrite !app_length in L. cbn [length] in *. lia.
Qed.


Lemma words_joined text : words (joined text) = words text.
Proof.
  unfold joined. rewrite words_join, map_map.
  rewrite (map_ext _ words) by (intros; apply words_strip). apply words_splitlines.
Qed.

Lemma ink_words s : ink s = concat (words s).
Proof. unfold ink. symmetry. apply concat_words. Qed.

Lemma ink_joined text : ink (joined text) = ink text.
Proof. rewrite !ink_words, words_joined. reflexivity. Qed.

Lemma ink_join_nl ls : ink (str_join [c_nl] ls) = ink (concat ls).
Proof.
  induction ls as [|l ls IH]; [reflexivity|]. destruct ls as [|l' ls].
  - cbn. rewrite app_nil_r. reflexivity.
  - rewrite str_join_cons by discriminate. cbn [concat]. rewrite !ink_app, IH.
    cbn [concat]. rewrite !ink_app. reflexivity.
Qed.

(** * Words beginning with a single dot *)

Lemma dot_word_spec text : dot_word text <-> Exists (fun w => one_dot w = true) (words text).
Proof.
  rewrite Exists_exists. unfold dot_word. split; intros (w & Hin & H); exists w; (split; [exact Hin|]).
  - apply one_dot_spec. destruct H as [->|(c & w' & -> & Hc)].
    + exists []. split; [reflexivity|discriminate].
    + exists (c :: w'). split; [reflexivity|congruence].
  - apply one_dot_spec in H. destruct H as (u & -> & Hu). destruct u as [|c u]; [left; reflexivity|].
    right. exists c, u. split; [reflexivity|]. intros ->. apply (Hu u). reflexivity.
Qed.

Lemma one_dot_word u : (forall u', u <> c_dot :: u') -> exists w ws,
  words (c_dot :: u) = w :: ws /\ one_dot w = true.
Proof.
  intros Hu. cbn [words]. change (is_space c_dot) with false. cbn match.
  destruct u as [|d u]; [exists [c_dot], []; split; reflexivity|].
  destruct (is_space d) eqn:Hd; [exists [c_dot], (words (d :: u)); split; reflexivity|].
  destruct (words (d :: u)) as [|w ws] eqn:E.
  - exists [c_dot], []. split; reflexivity.
  - exists (c_dot :: w), ws. split; [reflexivity|]. apply one_dot_spec. exists w.
    split; [reflexivity|]. intros w' ->.
    cbn [words] in E. rewrite Hd in E. destruct u as [|e u].
    + injection E as -> _. apply (Hu []). congruence.
    + destruct (is_space e); [injection E as -> _ _; apply (Hu (e :: u)); reflexivity|].
      destruct (words (e :: u)); injection E as -> _; apply (Hu (e :: u)); reflexivity.
Qed.

Lemma stands_dot text t : stands text t -> one_dot t = true -> dot_word text.
Proof.
  intros (a & b & -> & _ & H) Hd. destruct (H Hd) as [Ha Hb].
  apply one_dot_spec in Hd. destruct Hd as (u & -> & Hu). cbn [app].
  destruct (one_dot_word (u ++ b)) as (w & ws & E & Ew).
  { intros u' E. destruct u as [|x u]; [apply (Hb u' E)|]. injection E as -> _.
    apply (Hu u). reflexivity. }
  rewrite dot_word_spec. destruct Ha as [->|(a' & c & -> & Hc)].
  - cbn [app]. rewrite E. left. exact Ew.
  - rewrite <- app_assoc. cbn [app]. rewrite words_app_space by exact Hc. rewrite E.
    apply Exists_app. right. left. exact Ew.
Qed.

(** * The passes *)

Definition wrap_tokens (text : str) : res (list tok) :=
  ts <- split_pass code_split [Tok (joined text) false true] ;;
  ts <- split_pass link_split ts ;;
  ts <- split_pass newline_split ts ;;
  split_pass space_split ts.

Lemma wrap_by_tokens text w : wrap text w = (ts <- wrap_tokens text ;; Ok (join ts w)).
Proof.
  unfold wrap, wrap_tokens. fold (joined text).
  destruct (split_pass code_split _) as [ts|]; [|reflexivity]. cbn [bind].
  destruct (split_pass link_split _) as [ts2|]; [|reflexivity]. cbn [bind].
  destruct (split_pass newline_split _) as [ts3|]; [|reflexivity]. reflexivity.
Qed.

Lemma split_pass_nil f : split_pass f [] = Ok [].
Proof. reflexivity. Qed.

Lemma split_pass_cons f t ts :
  split_pass f (t :: ts) =
  (a <- (if t_eval t then f (t_text t) (t_lead t) else Ok [t]) ;;
   b <- split_pass f ts ;; Ok (a ++ b)).
Proof.
  unfold split_pass. cbn [mapM]. destruct (if t_eval t then _ else _) as [a|]; [|reflexivity].
  cbn [bind]. destruct (mapM _ ts); reflexivity.
Qed.

Lemma split_pass_total f ts :
  (forall text lead, exists r, f text lead = Ok r) -> exists r, split_pass f ts = Ok r.
Proof.
  intros H. induction ts as [|t ts [r IH]]; [eexists; reflexivity|]. rewrite split_pass_cons.
  destruct (t_eval t).
  - destruct (H (t_text t) (t_lead t)) as (a & ->). rewrite IH. cbn. eauto.
  - cbn [bind]. rewrite IH. cbn. eauto.
Qed.

Lemma split_pass_ink f ts r :
  (forall text lead r, f text lead = Ok r -> ink (texts r) = ink text) ->
  split_pass f ts = Ok r -> ink (texts r) = ink (texts ts).
Proof.
  intros H. revert r. induction ts as [|t ts IH]; intros r E.
  - apply ok_inj in E. subst. reflexivity.
  - rewrite split_pass_cons in E. apply bind_ok in E. destruct E as (a & Ea & E).
    apply bind_ok in E. destruct E as (b & Eb & E). apply ok_inj in E. subst r.
    rewrite texts_app, ink_app, (IH b Eb). change (t :: ts) with ([t] ++ ts).
    rewrite texts_app, ink_app, texts_one. f_equal. destruct (t_eval t).
    + apply (H _ _ _ Ea).
    + apply ok_inj in Ea. subst a. rewrite texts_one. reflexivity.
Qed.

Lemma split_pass_ink_ne f ts r :
  (forall text lead r, f text lead = Ok r -> ink text <> [] -> ink (texts r) <> []) ->
  split_pass f ts = Ok r -> ink (texts ts) <> [] -> ink (texts r) <> [].
Proof.
  intros H. revert r. induction ts as [|t ts IH]; intros r E Hi; [contradiction|].
  rewrite split_pass_cons in E. apply bind_ok in E. destruct E as (a & Ea & E).
  apply bind_ok in E. destruct E as (b & Eb & E). apply ok_inj in E. subst r.
  rewrite texts_app, ink_app. change (t :: ts) with ([t] ++ ts) in Hi.
  rewrite texts_app, ink_app, texts_one in Hi. intros E. apply app_eq_nil in E. destruct E as [E1 E2].
  destruct (ink (t_text t)) as [|c x] eqn:Et.
  - apply (IH b Eb); assumption.
  - destruct (t_eval t).
    + apply (H _ _ _ Ea); [rewrite Et; discriminate|exact E1].
    + apply ok_inj in Ea. subst a. rewrite texts_one in E1. congruence.
Qed.

Lemma space_pass_eval ts r :
  split_pass space_split ts = Ok r -> Forall (fun t => t_eval t = true -> ~ In c_sp (t_text t)) r.
Proof.
  revert r. induction ts as [|t ts IH]; intros r E.
  - apply ok_inj in E. subst. constructor.
  - rewrite split_pass_cons in E. apply bind_ok in E. destruct E as (a & Ea & E).
    apply bind_ok in E. destruct E as (b & Eb & E). apply ok_inj in E. subst r.
    apply Forall_app. split; [|apply IH; exact Eb]. destruct (t_eval t) eqn:Et.
    + destruct (space_split_spec (t_text t) (t_lead t)) as (a' & E' & _ & H & _).
      rewrite Ea in E'. apply ok_inj in E'. subst a'. eapply Forall_impl; [|exact H].
      intros x [_ Hx] _. exact Hx.
    + apply ok_inj in Ea. subst a. constructor; [congruence|constructor].
Qed.

Lemma code_pass_inv text ts :
  split_pass code_split [Tok text false true] = Ok ts ->
  ink (texts ts) = ink text /\ Forall (code_tok text) ts.
Proof.
  rewrite split_pass_cons, split_pass_nil. cbn [t_eval t_text t_lead]. intros E.
  apply bind_ok in E. destruct E as (a & Ea & E). apply ok_inj in E. subst ts.
  rewrite app_nil_r. eapply code_split_spec. exact Ea.
Qed.

Lemma newline_pass_ok text lead r : newline_split text lead = Ok r ->
  ink (texts r) = ink text
  /\ Forall (fun t => t_eval t = false -> html_break (piece_of t)) r
  /\ (link_joint text -> joint_end r).
Proof.
  intros E. destruct (newline_split_spec text lead) as (r' & E' & H). rewrite E in E'.
  apply ok_inj in E'. subst. exact H.
Qed.

Lemma space_pass_ok text lead r : space_split text lead = Ok r ->
  ink (texts r) = ink text
  /\ Forall (fun t => t_eval t = false -> html_break (piece_of t)) r
  /\ (link_joint text -> joint_end r).
Proof.
  intros E. destruct (space_split_spec text lead) as (r' & E' & H1 & H2 & H3). rewrite E in E'.
  apply ok_inj in E'. subst. split; [exact H1|]. split; [|exact H3].
  eapply Forall_impl; [|exact H2]. intros t [Ht _] Hf. congruence.
Qed.

(** [wrap] succeeds unless some word begins with a single dot. *)
Lemma wrap_tokens_err text e : wrap_tokens text = Err e -> dot_word text /\ e = IndexError.
Proof.
  unfold wrap_tokens. intros E.
  assert (D : dot_word (joined text) <-> dot_word text)
    by (rewrite !dot_word_spec, words_joined; reflexivity).
  apply bind_err in E. destruct E as [E|(ts & Ets & E)].
  - rewrite split_pass_cons, split_pass_nil in E. cbn [t_eval t_text t_lead] in E.
    apply bind_err in E. destruct E as [E|(a & _ & E)]; [|discriminate].
    apply code_split_err in E. destruct E as [Hd ->]. split; [|reflexivity]. apply D.
    apply stands_dot with (joined text); [|exact Hd].
    exists [], []. rewrite app_nil_r. split; [reflexivity|]. split.
    + intros E. rewrite E in Hd. discriminate.
    + intros _. split; [left; reflexivity|discriminate].
  - apply code_pass_inv in Ets. destruct Ets as [_ Hts].
    apply bind_err in E. destruct E as [E|(ts2 & Ets2 & E)].
    + assert (G : exists t, In t ts /\ t_eval t = true /\ one_dot (t_text t) = true /\ e = IndexError).
      { clear -E. induction ts as [|t ts IH]; [discriminate|]. rewrite split_pass_cons in E.
        apply bind_err in E. destruct E as [E|(a & _ & E)].
        - destruct (t_eval t) eqn:Et; [|discriminate]. apply link_split_err in E.
          exists t. split; [left; reflexivity|]. tauto.
        - apply bind_err in E. destruct E as [E|(b & _ & E)]; [|discriminate].
          destruct (IH E) as (t' & Hin & H). exists t'. split; [right; exact Hin|exact H]. }
      destruct G as (t & Hin & Et & Hd & ->). split; [|reflexivity]. apply D.
      rewrite Forall_forall in Hts. specialize (Hts t Hin). unfold code_tok in Hts. rewrite Et in Hts.
      eapply stands_dot; eauto.
    + apply bind_err in E. destruct E as [E|(ts3 & Ets3 & E)].
      * destruct (split_pass_total newline_split ts2) as (r & Er); [|congruence].
        intros t l. destruct (newline_split_spec t l) as (r & Er & _). eauto.
      * destruct (split_pass_total space_split ts3) as (r & Er); [|congruence].
        intros t l. destruct (space_split_spec t l) as (r & Er & _). eauto.
Qed.

Lemma wrap_tokens_ok text ts :
  wrap_tokens text = Ok ts ->
  ink text <> [] -> ink (texts ts) <> [].
Proof.
  unfold wrap_tokens. intros E. apply bind_ok in E. destruct E as (ts1 & E1 & E).
  apply bind_ok in E. destruct E as (ts2 & E2 & E). apply bind_ok in E. destruct E as (ts3 & E3 & E4).
  apply code_pass_inv in E1. destruct E1 as [Hi1 H1].
  intros Hi. rewrite (split_pass_ink space_split ts3 ts) by
    (auto; intros t l r Er; apply space_pass_ok in Er; tauto).
  rewrite (split_pass_ink newline_split ts2 ts3) by
    (auto; intros t l r Er; apply newline_pass_ok in Er; tauto).
  eapply (split_pass_ink_ne link_split); [|exact E2|rewrite Hi1, ink_joined; exact Hi].
  intros t l r Er. apply link_split_okseq in Er. tauto.
Qed.
