(** Labels, links and titles of link reference definitions. *)
From Coq Require Import String.
From Verif Require Import Py Regex Utils TextWrap Lines Detectors Base
  SpecLines SpecParser SpecDefinition ProofsLines ProofsRegex ProofsParser
  ProofsShapes ProofsPieces PropsLeaf PropsQuote.
From Verif Require Import Formatters.
Local Open Scope nat_scope.

(** * The label *)

Lemma rbr_unique (a a' b b' : str) :
  Forall (fun c => c <> c_rbr) a -> Forall (fun c => c <> c_rbr) a' ->
  a ++ c_rbr :: b = a' ++ c_rbr :: b' -> a = a' /\ b = b'.
Proof.
  intros Ha. revert a'. induction Ha as [|x a Hx Ha IH]; intros a' Ha' E.
  - destruct a' as [|y a']; [injection E as ->; auto|]. injection E as <- _. inversion Ha'; congruence.
  - destruct a' as [|y a']; [injection E as -> _; congruence|]. cbn [app] in E. injection E as -> E.
    inversion Ha'; subst. destruct (IH a' H2 E) as [-> ->]. auto.
Qed.

Lemma definition_rmatch label body :
  Forall (fun c => c <> c_rbr) label -> 1 <= length label <= 999 ->
  rmatch LINK_REFERENCE_DEFINITION_FIRST_ELEMENT_REGEX (c_lbr :: label ++ c_rbr :: c_colon :: body)
  = Some (length label + 3).
Proof.
  intros Hl Hn. destruct (rmatch _ _) as [e|] eqn:E.
  - apply definition_match in E. destruct E as (label' & body' & E & Hl' & _ & ->).
    injection E as E. apply rbr_unique in E; [|assumption|assumption]. destruct E as [-> _]. reflexivity.
  - exfalso. revert E.
    replace (c_lbr :: label ++ c_rbr :: c_colon :: body) with ((c_lbr :: label ++ [c_rbr; c_colon]) ++ body)
      by (cbn [app]; rewrite <- app_assoc; reflexivity).
    apply den_rmatch. unfold LINK_REFERENCE_DEFINITION_FIRST_ELEMENT_REGEX, Is. cbn [den].
    destruct label as [|c label]; [cbn in Hn; lia|]. inversion Hl as [|? ? Hc Hl']; subst.
    exists c_lbr, (c :: label ++ [c_rbr; c_colon]). split; [reflexivity|]. split; [reflexivity|].
    exists c, (label ++ [c_rbr; c_colon]). split; [reflexivity|].
    split; [apply negb_true_iff, N.eqb_neq; exact Hc|].
    exists label, [c_rbr; c_colon]. split; [reflexivity|].
    split. { eapply Forall_impl; [|exact Hl']. intros x Hx. apply negb_true_iff, N.eqb_neq. exact Hx. }
    split; [cbn in Hn; lia|].
    exists c_rbr, [c_colon]. split; [reflexivity|]. split; [reflexivity|].
    exists c_colon, []. repeat split.
Qed.

Lemma lrd_groups_lead ws s : spaces ws -> lrd_groups (ws ++ c_lbr :: s) = lrd_groups (c_lbr :: s).
Proof.
  intros H. induction H as [|c ws Hc H IH]; [reflexivity|]. cbn [app lrd_groups].
  assert (E : lrd_groups_at (c :: ws ++ c_lbr :: s) = None).
  { unfold lrd_groups_at. destruct (rmatch _ _) as [e|] eqn:E; [|reflexivity].
    apply definition_match in E. destruct E as (l & b & E & _). injection E as -> _. discriminate. }
  rewrite E. exact IH.
Qed.

Lemma words_take s : is_space (hd c_sp s) = false -> words s = take_while not_space s :: words (lstrip_by not_space s).
Proof.
  induction s as [|c s IH]; [discriminate|]. cbn [hd]. intros Hc. cbn [words take_while lstrip_by].
  unfold not_space at 1 3. rewrite Hc. cbn [negb]. destruct s as [|d s]; [reflexivity|].
  destruct (is_space d) eqn:Hd.
  - cbn [take_while lstrip_by]. unfold not_space. rewrite Hd. reflexivity.
  - cbn [hd] in IH. rewrite (IH Hd). reflexivity.
Qed.

Lemma words_lstrip s : words (lstrip s) = words s.
Proof. destruct (lead_decomp s) as (ws & E & Hw & _). rewrite E at 2. rewrite words_lead by exact Hw. reflexivity. Qed.

Lemma words_nonspace s : Forall (fun w => w <> [] /\ Forall (fun c => is_space c = false) w) (words s).
Proof. eapply Forall_impl; [|apply words_not_space]. intros w (H1 & _ & H2). auto. Qed.

Lemma take_while_all p s : Forall (fun c => p c = true) s -> take_while p s = s.
Proof. intros H. induction H as [|c s Hc H IH]; cbn; [reflexivity|]. rewrite Hc, IH. reflexivity. Qed.

(** * Closing quotes *)

Lemma repeat_snoc {A} (x : A) n : repeat x (S n) = repeat x n ++ [x].
Proof. induction n as [|n IH]; [reflexivity|]. cbn [repeat app] in *. rewrite <- IH. reflexivity. Qed.

Lemma unescaped_repeat k : unescaped (repeat c_bslash k) <-> Nat.even k = true.
Proof.
  split.
  - intros (b & n & E & Hb). destruct b as [|x b] using rev_ind.
    + apply (f_equal (@length _)) in E. cbn [app] in E. rewrite !repeat_length in E. subst k.
      replace (n + n) with (2 * n) by lia. apply Nat.even_spec. exists n. reflexivity.
    + exfalso. apply (Hb b). f_equal. f_equal.
      assert (G : Forall (eq c_bslash) (repeat c_bslash k)) by (apply Forall_forall; intros y Hy; symmetry; eapply repeat_spec; eauto).
      rewrite E in G. apply Forall_app in G. destruct G as [G _]. apply Forall_app in G. destruct G as [_ G].
      inversion G; auto.
  - intros H. apply Nat.even_spec in H. destruct H as (n & ->). exists [], n.
    replace (n + n) with (2 * n) by lia. split; [reflexivity|]. intros b' E. destruct b'; discriminate.
Qed.

Lemma unescaped_app pre c a : c <> c_bslash -> (unescaped (pre ++ c :: a) <-> unescaped a).
Proof.
  intros Hc. split.
  - intros (b & n & E & Hb).
    assert (G : exists a', b = pre ++ c :: a' /\ a = a' ++ repeat c_bslash (n + n)).
    { revert E Hb. generalize (n + n). intros m. revert a b. induction m as [|m IH]; intros a b E Hb.
      - cbn [repeat] in *. rewrite app_nil_r in *. subst b. exists a. rewrite app_nil_r. auto.
      - rewrite repeat_snoc in E. destruct a as [|y a] using rev_ind.
        + exfalso. rewrite app_assoc in E. apply app_inj_tail in E. destruct E as [_ E]. congruence.
        + clear IHa. rewrite app_comm_cons, !app_assoc in E. apply app_inj_tail in E. destruct E as [E ->].
          destruct (IH a b E Hb) as (a' & E1 & E2). exists a'. split; [exact E1|].
          rewrite repeat_snoc, app_assoc, <- E2. reflexivity. }
    destruct G as (a' & -> & ->). exists a', n. split; [reflexivity|]. intros b' ->.
    apply (Hb (pre ++ c :: b')). rewrite <- app_assoc. reflexivity.
  - intros (b & n & -> & Hb). exists (pre ++ c :: b), n. split; [rewrite <- app_assoc; reflexivity|].
    intros b' E. destruct b as [|y b] using rev_ind.
    + apply app_inj_tail in E. destruct E as [_ E]. congruence.
    + clear IHb. rewrite app_comm_cons, app_assoc in E. apply app_inj_tail in E. destruct E as [_ ->].
      apply (Hb b). reflexivity.
Qed.

Lemma run_decomp s : exists k s', s = repeat c_bslash k ++ s' /\ (forall t, s' <> c_bslash :: t).
Proof.
  induction s as [|c s (k & s' & E & H)]; [exists 0, []; split; [reflexivity|discriminate]|].
  destruct (N.eqb_spec c c_bslash) as [->|Hc].
  - exists (S k), s'. split; [cbn; congruence|exact H].
  - exists 0, (c :: s). split; [reflexivity|]. intros t Et. congruence.
Qed.

Section Quote.
  Variable q : char.
  Hypothesis Hq : q <> c_bslash.

  Lemma closing_match_run k s : (forall t, s <> c_bslash :: t) ->
    closing_match q (repeat c_bslash k ++ s)
    = if Nat.even k then match s with c :: _ => if N.eqb c q then Some (S k) else None | [] => None end else None.
  Proof.
    intros Hs. assert (forall n, n <= k -> forall m, m <= n -> closing_match q (repeat c_bslash m ++ s)
      = if Nat.even m then match s with c :: _ => if N.eqb c q then Some (S m) else None | [] => None end else None) as G.
    { induction n as [|n IH]; intros Hn m Hm.
      - replace m with 0 by lia. cbn [repeat app Nat.even]. destruct s as [|c s]; [reflexivity|].
        cbn [closing_match]. destruct (N.eqb_spec c c_bslash) as [->|_]; [exfalso; eapply Hs; reflexivity|]. destruct (N.eqb c q); reflexivity.
      - destruct m as [|[|m]]; [apply IH; lia| |].
        + cbn [repeat app Nat.even closing_match]. change (N.eqb c_bslash c_bslash) with true. cbn iota.
          destruct s as [|c s]; [reflexivity|]. destruct (N.eqb_spec c c_bslash) as [->|_]; [exfalso; eapply Hs; reflexivity|reflexivity].
        + cbn [repeat app closing_match]. change (N.eqb c_bslash c_bslash) with true. cbn iota.
          rewrite IH by lia. cbn [Nat.even]. destruct (Nat.even m); [|reflexivity].
          destruct s as [|c s]; [reflexivity|]. destruct (N.eqb c q); reflexivity. }
    apply (G k); lia.
  Qed.

  Lemma closing_search_run k pos s :
    closing_search q true pos (repeat c_bslash k ++ s) = closing_search q true (pos + k) s.
  Proof.
    revert pos. induction k as [|k IH]; intros pos; [rewrite Nat.add_0_r; reflexivity|].
    cbn [repeat app closing_search]. change (N.eqb c_bslash c_bslash) with true. rewrite IH. f_equal. lia.
  Qed.

  Lemma closing_search_step k pos c s : c <> c_bslash ->
    closing_search q false pos (repeat c_bslash k ++ c :: s)
    = if Nat.even k && N.eqb c q then Some (pos + S k) else closing_search q false (pos + S k) s.
  Proof.
    intros Hc. assert (M := closing_match_run k (c :: s)). 
    destruct k as [|k].
    - cbn [repeat app Nat.even andb] in *. cbn [closing_search]. rewrite M by (intros t Et; congruence).
      destruct (N.eqb c q); [reflexivity|]. destruct (N.eqb_spec c c_bslash); [congruence|]. rewrite Nat.add_1_r. reflexivity.
    - cbn [repeat app] in *. cbn [closing_search]. rewrite M by (intros t Et; congruence).
      destruct (Nat.even (S k)) eqn:Ev; cbn [andb].
      + destruct (N.eqb c q) eqn:Ec; [reflexivity|]. change (N.eqb c_bslash c_bslash) with true.
        rewrite closing_search_run. cbn [closing_search]. destruct (N.eqb_spec c c_bslash); [congruence|].
        f_equal. lia.
      + change (N.eqb c_bslash c_bslash) with true.
        rewrite closing_search_run. cbn [closing_search]. destruct (N.eqb_spec c c_bslash); [congruence|].
        f_equal. lia.
  Qed.

  Lemma closing_search_end k pos : closing_search q false pos (repeat c_bslash k) = None.
  Proof.
    assert (M := closing_match_run k []). rewrite app_nil_r in M.
    destruct k as [|k]; [reflexivity|]. cbn [closing_search repeat]. cbn [repeat] in M. rewrite M by discriminate.
    replace (if Nat.even (S k) then None else None) with (@None nat) by (destruct (Nat.even (S k)); reflexivity).
    change (N.eqb c_bslash c_bslash) with true.
    rewrite <- (app_nil_r (repeat c_bslash k)), closing_search_run. reflexivity.
  Qed.

  Definition first_quote (s a b : str) : Prop :=
    s = a ++ q :: b /\ unescaped a /\ (forall a1 b1, a = a1 ++ q :: b1 -> ~ unescaped a1).

  Lemma bslash_run_prefix k c s a b : c <> c_bslash -> repeat c_bslash k ++ c :: s = a ++ q :: b ->
    (a = repeat c_bslash k /\ c = q /\ b = s) \/ (exists a', a = repeat c_bslash k ++ c :: a' /\ s = a' ++ q :: b).
  Proof.
    intros Hc. revert a. induction k as [|k IH]; intros a E; destruct a as [|x a]; cbn [repeat app] in *.
    - injection E as -> ->. auto.
    - injection E as -> E. right. eauto.
    - injection E as E _. congruence.
    - injection E as <- E. apply IH in E. destruct E as [(-> & -> & ->)|(a' & -> & ->)]; [left|right; eexists]; eauto.
  Qed.

  Lemma closing_search_spec s pos :
    match closing_search q false pos s with
    | Some e => exists a b, first_quote s a b /\ e = pos + S (length a)
    | None => ~ has_quote q s
    end.
  Proof.
    remember (length s) as n eqn:Hn. assert (Hle : length s <= n) by lia. clear Hn. revert s pos Hle.
    induction n as [n IH] using lt_wf_ind; intros s pos Hle.
    destruct (run_decomp s) as (k & s' & -> & Hs'). destruct s' as [|c s].
    - rewrite app_nil_r, closing_search_end. intros (a & b & E & _).
      assert (G : Forall (eq c_bslash) (repeat c_bslash k)) by (apply Forall_forall; intros y Hy; symmetry; eapply repeat_spec; eauto).
      rewrite E in G. apply Forall_app in G. destruct G as [_ G]. inversion G; congruence.
    - assert (Hc : c <> c_bslash) by (intros ->; eapply Hs'; reflexivity). rewrite closing_search_step by exact Hc.
      destruct (Nat.even k && N.eqb c q) eqn:E.
      + apply andb_true_iff in E. destruct E as [Ek Ec]. apply N.eqb_eq in Ec. subst c.
        exists (repeat c_bslash k), s. split; [|rewrite repeat_length; reflexivity].
        split; [reflexivity|]. split; [apply unescaped_repeat; exact Ek|]. intros a1 b1 E1 _.
        assert (G : Forall (eq c_bslash) (repeat c_bslash k)) by (apply Forall_forall; intros y Hy; symmetry; eapply repeat_spec; eauto).
        rewrite E1 in G. apply Forall_app in G. destruct G as [_ G]. inversion G; congruence.
      + rewrite app_length in Hle. cbn [length] in Hle. specialize (IH (length s)).
        specialize (IH ltac:(lia) s (pos + S k) (le_n _)).
        assert (Skip : ~ (Nat.even k = true /\ c = q)).
        { intros [E1 ->]. rewrite E1, N.eqb_refl in E. discriminate. }
        destruct (closing_search q false (pos + S k) s) as [e|].
        * destruct IH as (a & b & (-> & Hu & Hf) & ->). exists (repeat c_bslash k ++ c :: a), b.
          split; [|rewrite app_length, repeat_length; cbn; lia].
          split; [rewrite <- app_assoc; reflexivity|]. split; [apply unescaped_app; assumption|].
          intros a1 b1 E1 Hu1. apply bslash_run_prefix in E1; [|exact Hc].
          destruct E1 as [(-> & -> & ->)|(a' & -> & ->)].
          -- apply Skip. split; [apply unescaped_repeat; exact Hu1|reflexivity].
          -- apply unescaped_app in Hu1; [|exact Hc]. eapply Hf; eauto.
        * intros (a & b & E1 & Hu). apply bslash_run_prefix in E1; [|exact Hc].
          destruct E1 as [(-> & -> & ->)|(a' & -> & ->)].
          -- apply Skip. split; [apply unescaped_repeat; exact Hu|reflexivity].
          -- apply unescaped_app in Hu; [|exact Hc]. apply IH. exists a', b. auto.
  Qed.
End Quote.

Lemma first_quote_unique q s a b a' b' : first_quote q s a b -> first_quote q s a' b' -> a = a' /\ b = b'.
Proof.
  intros (E1 & U1 & F1) (E2 & U2 & F2). rewrite E1 in E2. clear s E1.
  assert (G : forall (a a' b b' : str), a ++ q :: b = a' ++ q :: b' ->
     a = a' \/ (exists x, a' = a ++ q :: x) \/ (exists x, a = a' ++ q :: x)).
  { clear. induction a as [|c a IH]; intros [|c' a'] b b' E; auto; cbn [app] in *.
    - injection E as -> ->. right. left. eauto.
    - injection E as -> E. right. right. eauto.
    - injection E as -> E. destruct (IH _ _ _ E) as [->|[(x & ->)|(x & ->)]]; eauto. }
  destruct (G _ _ _ _ E2) as [->|[(x & ->)|(x & ->)]].
  - apply app_inv_head in E2. injection E2 as ->. auto.
  - exfalso. exact (F2 _ _ eq_refl U1).
  - exfalso. exact (F1 _ _ eq_refl U2).
Qed.

Lemma rstrip_app_rest q a b : is_space q = false -> rstrip (a ++ q :: b) = a ++ q :: rstrip b.
Proof.
  intros Hq. replace (a ++ q :: b) with ((a ++ [q]) ++ b) by (rewrite <- app_assoc; reflexivity).
  unfold rstrip. destruct (rstrip_by is_space b) as [|c r] eqn:E.
  - apply rstrip_by_nil in E. rewrite rstrip_by_app by exact E. apply rstrip_by_snoc. exact Hq.
  - rewrite rstrip_by_app_ne by congruence. rewrite E, <- app_assoc. reflexivity.
Qed.

Lemma quotation_facts q : quotation q -> q <> c_bslash /\ is_space q = false.
Proof. intros [->| ->]; split; (discriminate || reflexivity). Qed.

Lemma scan_spec q line : quotation q ->
  match closing_search q false 0 (rstrip line) with
  | Some e => has_quote q line /\ (e = length (rstrip line) <-> ends_quote q line)
  | None => ~ has_quote q line
  end.
Proof.
  intros Hq. apply quotation_facts in Hq. destruct Hq as [Hb Hs].
  assert (C := closing_search_spec q Hb (rstrip line) 0).
  destruct (rstrip_by_spec is_space line) as (post & E & Hpost). fold (rstrip line) in E.
  destruct (closing_search q false 0 (rstrip line)) as [e|].
  - destruct C as (a & b & (Er & Hu & Hf) & ->).
    assert (El : line = a ++ q :: b ++ post) by (rewrite E, Er, <- app_assoc; reflexivity).
    split; [exists a, (b ++ post); auto|]. rewrite Er, app_length. cbn [length]. split.
    + intros L. destruct b; [|cbn in L; lia]. exists a, post. split; [exact El|]. split; [exact Hu|].
      split; [apply spaces_forallb; exact Hpost|exact Hf].
    + intros (a' & b' & E' & Hu' & Hb' & Hf').
      destruct (first_quote_unique q line a (b ++ post) a' b') as [-> <-];
        [split; [exact El|split; assumption]|split; [exact E'|split; assumption]|].
      assert (G := rstrip_app_rest q a' (b ++ post) Hs). rewrite <- El, Er in G.
      apply app_inv_head in G. injection G as G. apply spaces_forallb, rstrip_by_nil in Hb'.
      unfold rstrip in G. rewrite Hb' in G. subst b. cbn. lia.
  - intros (a & b & -> & Hu). apply C. rewrite rstrip_app_rest by exact Hs. exists a, (rstrip b). auto.
Qed.

Lemma lrd_close_spec q index line gen ic i' ic' : quotation q ->
  lrd_close q index line gen ic = (i', ic') ->
  exists opened cur more, line :: gen = opened ++ cur :: more
    /\ Forall (fun x => ~ has_quote q x) opened
    /\ ((ends_quote q cur /\ i' = index + length opened + 1 /\ ic' = true)
        \/ (has_quote q cur /\ ~ ends_quote q cur /\ i' = index + length opened /\ ic' = ic)
        \/ (~ has_quote q cur /\ more = [] /\ i' = index + length opened /\ ic' = ic)).
Proof.
  intros Hq. revert index line. induction gen as [|l gen IH]; intros index line H; cbn [lrd_close] in H;
    assert (S := scan_spec q line Hq); destruct (closing_search q false 0 (rstrip line)) as [e|].
  1,3: destruct S as [Hh He]; destruct (e =? length (rstrip line)) eqn:Ee; injection H as <- <-.
  1-4: eexists [], line, _; split; [reflexivity|]; split; [constructor|].
  - left. apply Nat.eqb_eq in Ee. split; [tauto|]. cbn. split; [lia|reflexivity].
  - right. left. apply Nat.eqb_neq in Ee. split; [exact Hh|]. split; [tauto|]. cbn. split; [lia|reflexivity].
  - left. apply Nat.eqb_eq in Ee. split; [tauto|]. cbn. split; [lia|reflexivity].
  - right. left. apply Nat.eqb_neq in Ee. split; [exact Hh|]. split; [tauto|]. cbn. split; [lia|reflexivity].
  - injection H as <- <-. exists [], line, []. split; [reflexivity|]. split; [constructor|].
    right. right. cbn. split; [exact S|]. split; [reflexivity|]. split; [lia|reflexivity].
  - destruct (IH _ _ H) as (opened & cur & more & E & Ho & Hc). exists (line :: opened), cur, more.
    split; [cbn; congruence|]. split; [constructor; assumption|]. cbn [length].
    destruct Hc as [(A & B & D)|[(A & B & D & F)|(A & B & D & F)]]; [left|right; left|right; right];
      repeat (split; [first [assumption|lia]|]); assumption.
Qed.

Lemma ends_has q line : ends_quote q line -> has_quote q line.
Proof. intros (a & b & -> & Hu & _). exists a, b. auto. Qed.

Lemma lrd_close_closed q index line more rest ic : quotation q -> closed q (line :: more) ->
  lrd_close q index line (more ++ rest) ic = (index + S (length more), true).
Proof.
  intros Hq (opened & last & E & Ho & He). revert line more index E.
  induction Ho as [|x opened Hx Ho IH]; intros line more index E.
  - injection E as -> ->. assert (S := scan_spec q last Hq). cbn [app]. 
    destruct rest; cbn [lrd_close]; destruct (closing_search q false 0 (rstrip last)) as [e|].
    1,3: destruct S as [_ S]; apply S in He; subst e; rewrite Nat.eqb_refl; cbn; rewrite Nat.add_1_r; reflexivity.
    all: exfalso; exact (S (ends_has _ _ He)).
  - injection E as -> E. destruct more as [|l more]; [destruct opened; discriminate|].
    assert (S := scan_spec q x Hq). cbn [app lrd_close].
    destruct (closing_search q false 0 (rstrip x)); [exfalso; tauto|].
    rewrite (IH _ _ _ E). cbn [length]. f_equal. lia.
Qed.

Lemma blank_quote q t : quotation q -> blank (q :: t) = false.
Proof.
  intros Hq. apply quotation_facts in Hq. destruct Hq as [_ Hs].
  apply Bool.not_true_is_false. intros H. apply blank_line_spec in H. apply Forall_inv in H. congruence.
Qed.

Lemma quotation_dec q : {quotation q} + {~ quotation q}.
Proof.
  destruct (N.eq_dec q c_squote) as [->|H1]; [left; left; reflexivity|].
  destruct (N.eq_dec q c_dquote) as [->|H2]; [left; right; reflexivity|].
  right. intros [H|H]; congruence.
Qed.

Lemma quotation_eqb q : (N.eqb q c_squote || N.eqb q c_dquote)%bool = if quotation_dec q then true else false.
Proof.
  destruct (quotation_dec q) as [[->| ->]|H]; [reflexivity|reflexivity|].
  apply orb_false_iff. split; apply N.eqb_neq; intros ->; apply H; [left|right]; reflexivity.
Qed.

Lemma lrd_finish_quote lines index q t gen ic : quotation q ->
  lrd_finish lines index (q :: t) gen ic
  = let '(i, c) := lrd_close q index t gen ic in if c then (firstn i lines, skipn i lines) else ([], lines).
Proof.
  intros Hq. unfold lrd_finish. rewrite blank_quote by exact Hq. rewrite quotation_eqb.
  destruct (quotation_dec q); [|tauto]. reflexivity.
Qed.

Lemma lrd_finish_other lines index title gen ic : (forall q t, title = q :: t -> ~ quotation q) ->
  lrd_finish lines index title gen ic = if ic then (firstn index lines, skipn index lines) else ([], lines).
Proof.
  intros H. unfold lrd_finish. destruct title as [|q t]; [reflexivity|]. rewrite quotation_eqb.
  destruct (quotation_dec q) as [Hq|_]; [exfalso; exact (H q t eq_refl Hq)|]. rewrite andb_false_r. reflexivity.
Qed.

Lemma quote_start title : (exists q t, title = q :: t /\ quotation q) \/ (forall q t, title = q :: t -> ~ quotation q).
Proof.
  destruct title as [|q t]; [right; discriminate|]. destruct (quotation_dec q) as [H|H]; [left; eauto|].
  right. intros q' t' E. injection E as <- _. exact H.
Qed.

Lemma firstn_exact {A} (a b : list A) : firstn (length a) (a ++ b) = a.
Proof. rewrite firstn_app, firstn_all, Nat.sub_diag. apply app_nil_r. Qed.
Lemma skipn_exact {A} (a b : list A) : skipn (length a) (a ++ b) = b.
Proof. rewrite skipn_app, skipn_all, Nat.sub_diag. reflexivity. Qed.

Lemma lrd_finish_complete head title gen content rest :
  lrd_finish (head ++ title :: gen) (length head) title gen true = (content, rest) ->
  exists T, content = head ++ T /\ (T = [] \/ title_lines T \/ unclosed_title T rest).
Proof.
  destruct (quote_start title) as [(q & t & -> & Hq)|Ho].
  - rewrite lrd_finish_quote by exact Hq.
    destruct (lrd_close q (length head) t gen true) as [i c] eqn:E.
    apply lrd_close_spec in E; [|exact Hq]. destruct E as (opened & cur & more & E & Hop & Hc).
    assert (Ec : c = true) by (destruct Hc as [(_ & _ & ->)|[(_ & _ & _ & ->)|(_ & _ & _ & ->)]]; reflexivity).
    subst c. intros H. injection H as <- <-. destruct Hc as [(He & -> & _)|Hc].
    + destruct opened as [|x opened].
      * injection E as -> ->. exists [q :: cur]. split.
        -- cbn [length]. replace (length head + 0 + 1) with (length (head ++ [q :: cur])) by (rewrite app_length; cbn; lia).
           replace (head ++ (q :: cur) :: more) with ((head ++ [q :: cur]) ++ more) by (rewrite <- app_assoc; reflexivity).
           apply firstn_exact.
        -- right. left. exists q, cur, []. split; [reflexivity|]. split; [exact Hq|].
           exists [], cur. split; [reflexivity|]. split; [constructor|exact He].
      * cbn [app] in E. injection E as <- ->. exists ((q :: t) :: opened ++ [cur]). split.
        -- replace (length head + length (t :: opened) + 1) with (length (head ++ (q :: t) :: opened ++ [cur]))
             by (rewrite app_length; cbn; rewrite app_length; cbn; lia).
           replace (head ++ (q :: t) :: opened ++ cur :: more) with ((head ++ (q :: t) :: opened ++ [cur]) ++ more)
             by (rewrite <- app_assoc; cbn; rewrite <- app_assoc; reflexivity).
           apply firstn_exact.
        -- right. left. exists q, t, (opened ++ [cur]). split; [reflexivity|]. split; [exact Hq|].
           exists (t :: opened), cur. split; [reflexivity|]. split; [exact Hop|exact He].
    + assert (Ei : i = length head + length opened) by tauto. subst i.
      destruct opened as [|x opened].
      * exists []. rewrite app_nil_r. split; [|auto]. cbn [length]. rewrite Nat.add_0_r. apply firstn_exact.
      * cbn [app] in E. injection E as <- ->. exists ((q :: t) :: opened).
        replace (length head + length (t :: opened)) with (length (head ++ (q :: t) :: opened))
          by (rewrite app_length; reflexivity).
        replace (head ++ (q :: t) :: opened ++ cur :: more) with ((head ++ (q :: t) :: opened) ++ cur :: more)
          by (rewrite <- app_assoc; reflexivity).
        rewrite firstn_exact, skipn_exact. split; [reflexivity|]. right. right.
        exists q, t, opened, cur, more. split; [reflexivity|]. split; [reflexivity|]. split; [exact Hq|].
        split; [exact Hop|]. tauto.
  - rewrite lrd_finish_other by exact Ho. intros H. injection H as <- _. exists [].
    rewrite app_nil_r, firstn_exact. auto.
Qed.

Lemma lrd_finish_incomplete head line title gen content rest :
  lrd_finish (head ++ line :: gen) (length head) title gen false = (content, rest) -> content <> [] ->
  exists q t more, title = q :: t /\ quotation q /\ content = head ++ line :: more /\ closed q (t :: more).
Proof.
  intros H Hn. destruct (quote_start title) as [(q & t & -> & Hq)|Ho].
  - rewrite lrd_finish_quote in H by exact Hq.
    destruct (lrd_close q (length head) t gen false) as [i c] eqn:E.
    apply lrd_close_spec in E; [|exact Hq]. destruct E as (opened & cur & more & E & Hop & Hc).
    destruct c; [|injection H; congruence]. injection H as <- _.
    destruct Hc as [(He & -> & _)|[(_ & _ & _ & D)|(_ & _ & _ & D)]]; try discriminate.
    destruct opened as [|x opened].
    + injection E as -> ->. exists q, cur, []. split; [reflexivity|]. split; [exact Hq|]. split.
      * cbn [length]. replace (length head + 0 + 1) with (length (head ++ [line])) by (rewrite app_length; cbn; lia).
        replace (head ++ line :: more) with ((head ++ [line]) ++ more) by (rewrite <- app_assoc; reflexivity).
        apply firstn_exact.
      * exists [], cur. split; [reflexivity|]. split; [constructor|exact He].
    + cbn [app] in E. injection E as <- ->. exists q, t, (opened ++ [cur]). split; [reflexivity|]. split; [exact Hq|]. split.
      * replace (length head + length (t :: opened) + 1) with (length (head ++ line :: opened ++ [cur]))
          by (rewrite app_length; cbn; rewrite app_length; cbn; lia).
        replace (head ++ line :: opened ++ cur :: more) with ((head ++ line :: opened ++ [cur]) ++ more)
          by (rewrite <- app_assoc; cbn; rewrite <- app_assoc; reflexivity).
        apply firstn_exact.
      * exists (t :: opened), cur. split; [reflexivity|]. split; [exact Hop|exact He].
  - rewrite lrd_finish_other in H by exact Ho. injection H; congruence.
Qed.

(** * Label, link and title of the lines *)

Lemma take_lstrip_by p s : s = take_while p s ++ lstrip_by p s.
Proof. induction s as [|c s IH]; cbn; [reflexivity|]. destruct (p c); cbn; [congruence|reflexivity]. Qed.

Lemma Forall_take_while p s : Forall (fun c => p c = true) (take_while p s).
Proof. induction s as [|c s IH]; cbn; [constructor|]. destruct (p c) eqn:E; [constructor; assumption|constructor]. Qed.

Lemma split_max1_spec s :
  match split_max1 s with
  | [] => words s = []
  | [w] => words s = [w]
  | [_; t] => link_then s t
  | _ => False
  end.
Proof.
  unfold split_max1. rewrite <- (words_lstrip s). destruct (lead_decomp s) as (ws & Es & Hw & _).
  destruct (lstrip s) as [|c s1] eqn:E; [reflexivity|].
  assert (Hc : is_space c = false) by (eapply lstrip_by_head; exact E).
  assert (Wt := words_take (c :: s1) Hc). cbv zeta. rewrite Wt.
  set (rest := lstrip_by not_space (c :: s1)).
  assert (Hr := lead_decomp rest). destruct Hr as (ws' & Er & Hw' & _).
  destruct (lstrip rest) as [|d r] eqn:Ed; cbn [nilb].
  - f_equal. rewrite app_nil_r in Er. rewrite Er. apply words_spaces. exact Hw'.
  - assert (Hd : is_space d = false) by (eapply lstrip_by_head; exact Ed).
    exists ws, (take_while not_space (c :: s1)), ws'.
    split. { rewrite <- Er. unfold rest. rewrite <- take_lstrip_by. exact Es. }
    split; [exact Hw|]. split; [exact Hw'|]. split.
    { intros ->. cbn [app] in Er. apply lstrip_by_head in Er. unfold not_space in Er. rewrite Hd in Er. discriminate. }
    split. { cbn. unfold not_space. rewrite Hc. discriminate. }
    split; [|exact Hd]. eapply Forall_impl; [|apply Forall_take_while]. intros x Hx. apply negb_true_iff. exact Hx.
Qed.

Lemma split_max1_words_nil s : words s = [] -> split_max1 s = [].
Proof.
  intros H. unfold split_max1. rewrite <- words_lstrip in H. destruct (lstrip s) as [|c s1] eqn:E; [reflexivity|].
  assert (Hc : is_space c = false) by (eapply lstrip_by_head; exact E). rewrite words_take in H by exact Hc. discriminate.
Qed.

Lemma split_max1_words_one s w : words s = [w] -> split_max1 s = [w].
Proof.
  intros H. unfold split_max1. rewrite <- words_lstrip in H. destruct (lstrip s) as [|c s1] eqn:E; [discriminate|].
  assert (Hc : is_space c = false) by (eapply lstrip_by_head; exact E). rewrite words_take in H by exact Hc.
  assert (H2 : words (lstrip_by not_space (c :: s1)) = []) by congruence.
  assert (H3 : take_while not_space (c :: s1) = w) by congruence. rewrite H3. clear H H3. rename H2 into H.
  rewrite <- words_lstrip in H. destruct (lstrip (lstrip_by not_space (c :: s1))) as [|d r] eqn:Ed; [reflexivity|].
  assert (Hd : is_space d = false) by (eapply lstrip_by_head; exact Ed). rewrite words_take in H by exact Hd. discriminate.
Qed.

Lemma split_max1_link_then s t : link_then s t -> exists w, split_max1 s = [w; t].
Proof.
  intros (ws & link & ws' & -> & Hw & Hw' & Hn & Hl & Hs & Ht). exists link. unfold split_max1.
  destruct Hs as [|c link Hc Hs]; [congruence|]. cbn [app]. rewrite lstrip_app by assumption.
  destruct Hw' as [|d ws' Hd Hw']; [congruence|].
  assert (G : forall l, Forall (fun c => is_space c = false) l ->
    take_while not_space (l ++ (d :: ws') ++ t) = l /\ lstrip_by not_space (l ++ (d :: ws') ++ t) = (d :: ws') ++ t).
  { intros l Hls. induction Hls as [|x l Hx Hls [IH1 IH2]].
    - cbn. unfold not_space. rewrite Hd. auto.
    - cbn [app take_while lstrip_by] in *. unfold not_space at 1 3. rewrite Hx. cbn [negb]. rewrite IH1. auto. }
  destruct (G (c :: link)) as [G1 G2]; [constructor; assumption|]. cbn [app] in G1, G2 |- *. rewrite G1, G2.
  destruct t as [|x t]; [discriminate|]. cbn [hd] in Ht.
  change (d :: ws' ++ x :: t) with ((d :: ws') ++ x :: t). rewrite lstrip_app by (auto; constructor; assumption). reflexivity.
Qed.

Lemma labelled_match l e : get_indent l < 4 ->
  rmatch LINK_REFERENCE_DEFINITION_FIRST_ELEMENT_REGEX (lstrip l) = Some e ->
  labelled l (skipn e (lstrip l)).
Proof.
  intros Hi H. apply definition_match in H. destruct H as (label & body & E & Hl & Hn & ->).
  destruct (not_indented_lstrip l Hi) as (ws & El & Hw & Hk). exists ws, label. split; [|auto].
  rewrite El at 1. f_equal. rewrite E.
  replace (c_lbr :: label ++ c_rbr :: c_colon :: body) with ((c_lbr :: label ++ [c_rbr; c_colon]) ++ body)
    by (cbn [app]; rewrite <- app_assoc; reflexivity).
  replace (length label + 3) with (length (c_lbr :: label ++ [c_rbr; c_colon]))
    by (cbn [length]; rewrite app_length; cbn; lia). rewrite skipn_exact. cbn [app]. rewrite <- app_assoc. reflexivity.
Qed.

Lemma labelled_split l body : labelled l body ->
  get_indent l < 4 /\ exists e, rmatch LINK_REFERENCE_DEFINITION_FIRST_ELEMENT_REGEX (lstrip l) = Some e
    /\ skipn e (lstrip l) = body.
Proof.
  intros (ws & label & -> & Hw & Hk & Hl & Hn). split.
  { unfold get_indent. fold (lstrip (ws ++ c_lbr :: label ++ c_rbr :: c_colon :: body)).
    rewrite lstrip_app by (auto; reflexivity). rewrite app_length. lia. }
  rewrite lstrip_app by (auto; reflexivity). exists (length label + 3). split; [apply definition_rmatch; assumption|].
  replace (c_lbr :: label ++ c_rbr :: c_colon :: body) with ((c_lbr :: label ++ [c_rbr; c_colon]) ++ body)
    by (cbn [app]; rewrite <- app_assoc; reflexivity).
  replace (length label + 3) with (length (c_lbr :: label ++ [c_rbr; c_colon]))
    by (cbn [length]; rewrite app_length; cbn; lia). apply skipn_exact.
Qed.

Lemma startswith_lbr l1 : startswith [c_lbr] l1 = true <-> exists t, l1 = c_lbr :: t.
Proof. rewrite startswith_spec. reflexivity. Qed.

(** What a recognised definition consists of. *)
Lemma split_lrd_extent lines content rest :
  split_link_reference_definition lines = Ok (content, rest) -> content <> [] ->
  definition_extent content rest.
Proof.
  unfold split_link_reference_definition. destruct lines as [|l gen]; [discriminate|].
  destruct (4 <=? get_indent l) eqn:Ei; [intros H; injection H; congruence|]. apply Nat.leb_gt in Ei.
  destruct (rmatch _ _) as [e|] eqn:E; [|intros H; injection H; congruence].
  apply labelled_match in E; [|exact Ei]. set (body := skipn e (lstrip l)) in *. clearbody body.
  assert (Hb := split_max1_spec body). intros H Hn.
  destruct (split_max1 body) as [|w [|t [|? ?]]]; [| | |destruct Hb].
  - destruct gen as [|l1 gen]; [injection H as <- <-; left; exists l, body; auto 6|].
    destruct (startswith [c_lbr] l1 || blank l1) eqn:Es.
    + injection H as <- <-. left. exists l, body. split; [reflexivity|]. split; [exact E|]. split; [exact Hb|].
      right. exists l1, gen. split; [reflexivity|]. apply orb_true_iff in Es. destruct Es as [Es|Es].
      * right. apply startswith_lbr. exact Es.
      * left. apply blank_line_spec. exact Es.
    + apply orb_false_iff in Es. destruct Es as [Es _].
      assert (Hs : forall t, l1 <> c_lbr :: t).
      { intros t ->. cbn in Es. discriminate. }
      assert (H1 := split_max1_spec l1). destruct (split_max1 l1) as [|w [|t [|? ?]]]; [discriminate| | |destruct H1].
      * destruct gen as [|l2 gen]; [discriminate|]. injection H as H.
        apply (lrd_finish_complete [l; l1]) in H. destruct H as (T & -> & HT). right. left.
        exists l1, w, [l; l1], T. split; [right; exists l, body; auto|]. auto.
      * injection H as H. apply (lrd_finish_incomplete [l]) in H; [|exact Hn].
        destruct H as (q & t' & more & -> & Hq & -> & Hc). right. right.
        exists l1, q, t', [l; l1], more. split; [right; exists l, body; auto|]. auto.
  - destruct gen as [|l1 gen]; [injection H as <- <-; congruence|]. injection H as H.
    apply (lrd_finish_complete [l]) in H. destruct H as (T & -> & HT). right. left.
    exists body, w, [l], T. split; [left; exists l; auto|]. auto.
  - injection H as H. apply (lrd_finish_incomplete []) in H; [|exact Hn].
    destruct H as (q & t' & more & -> & Hq & -> & Hc). right. right.
    exists body, q, t', [l], more. split; [left; exists l; auto|]. auto.
Qed.

(** * Recognition *)

(** A label and link, and lines after it: what the rest of the detector does. *)
Lemma split_lrd_link head text link x rest :
  label_then text head -> words text = [link] ->
  split_link_reference_definition (head ++ x :: rest)
  = Ok (lrd_finish (head ++ x :: rest) (length head) x rest true).
Proof.
  intros [(l & -> & Hl)|(l & body & -> & Hl & Hb & Hs)] Ht; cbn [app]; unfold split_link_reference_definition;
    apply labelled_split in Hl; destruct Hl as (Hi & e & -> & ->); apply Nat.leb_gt in Hi; rewrite Hi.
  - rewrite (split_max1_words_one _ _ Ht). reflexivity.
  - rewrite (split_max1_words_nil _ Hb).
    destruct (startswith [c_lbr] text) eqn:E; [apply startswith_lbr in E; destruct E as (t & ->); exfalso; eapply Hs; reflexivity|].
    destruct (blank text) eqn:E2; [apply blank_line_spec in E2; rewrite words_spaces in Ht by exact E2; discriminate|].
    cbn [orb]. rewrite (split_max1_words_one _ _ Ht). reflexivity.
Qed.

Lemma split_lrd_link_then head text title rest :
  label_then text head -> link_then text title ->
  split_link_reference_definition (head ++ rest)
  = Ok (lrd_finish (head ++ rest) (length head - 1) title rest false).
Proof.
  intros Hh Ht. destruct (split_max1_link_then _ _ Ht) as (w & Hm).
  destruct Hh as [(l & -> & Hl)|(l & body & -> & Hl & Hb & Hs)]; cbn [app]; unfold split_link_reference_definition;
    apply labelled_split in Hl; destruct Hl as (Hi & e & -> & ->); apply Nat.leb_gt in Hi; rewrite Hi.
  - rewrite Hm. reflexivity.
  - rewrite (split_max1_words_nil _ Hb).
    destruct (startswith [c_lbr] text) eqn:E; [apply startswith_lbr in E; destruct E as (t & ->); exfalso; eapply Hs; reflexivity|].
    destruct (blank text) eqn:E2.
    { apply blank_line_spec in E2. unfold split_max1 in Hm.
      assert (G : lstrip text = []) by (apply lstrip_by_nil, spaces_forallb; exact E2). rewrite G in Hm. discriminate. }
    cbn [orb]. rewrite Hm. reflexivity.
Qed.

(** A definition that is well formed, given the lines after it. *)
Lemma split_lrd_recognises content rest :
  definition_whole content rest ->
  split_link_reference_definition (content ++ rest) = Ok (content, rest).
Proof.
  intros [(l & body & -> & Hl & Hb & Hr)|[(text & link & head & title & Hh & Ht & -> & HT)|(text & q & t & head & more & Hh & Ht & Hq & -> & Hc)]].
  - cbn [app]. unfold split_link_reference_definition. apply labelled_split in Hl.
    destruct Hl as (Hi & e & -> & ->). apply Nat.leb_gt in Hi. rewrite Hi, (split_max1_words_nil _ Hb).
    destruct Hr as [->|(x & rest' & -> & Hx)]; [reflexivity|].
    assert (E : startswith [c_lbr] x || blank x = true); [|rewrite E; reflexivity].
    apply orb_true_iff. destruct Hx as [Hx|Hx]; [right; apply blank_line_spec; exact Hx|left; apply startswith_lbr; exact Hx].
  - destruct HT as [(-> & x & rest' & -> & Hx)|(q & t & more & -> & Hq & Hc)].
    + rewrite app_nil_r. rewrite (split_lrd_link _ _ _ _ _ Hh Ht).
      rewrite lrd_finish_other by exact Hx. rewrite firstn_exact, skipn_exact. reflexivity.
    + rewrite <- app_assoc. cbn [app]. rewrite (split_lrd_link _ _ _ _ _ Hh Ht).
      rewrite lrd_finish_quote by exact Hq. rewrite (lrd_close_closed _ _ _ _ _ _ Hq Hc).
      replace (length head + S (length more)) with (length (head ++ (q :: t) :: more)) by (rewrite app_length; reflexivity).
      replace (head ++ (q :: t) :: more ++ rest) with ((head ++ (q :: t) :: more) ++ rest) by (rewrite <- app_assoc; reflexivity).
      rewrite firstn_exact, skipn_exact. reflexivity.
  - rewrite <- app_assoc. rewrite (split_lrd_link_then _ _ _ _ Hh Ht).
    rewrite lrd_finish_quote by exact Hq. rewrite (lrd_close_closed _ _ _ _ _ _ Hq Hc).
    assert (1 <= length head) by (destruct Hh as [(l & -> & _)|(l & b & -> & _)]; cbn; lia).
    replace (length head - 1 + S (length more)) with (length (head ++ more)) by (rewrite app_length; lia).
    rewrite app_assoc, firstn_exact, skipn_exact. reflexivity.
Qed.
