(** A set of characters that contains the input's characters and the markup characters
    the formatters write contains the output's characters. *)
From Verif Require Import Py Regex Utils TextWrap Lines Detectors Formatters Base
  ProofsParser ProofsShapes.

(** Characters the formatters write themselves. *)
Definition is_markup (c : char) : bool :=
  is_digit c || existsb (N.eqb c)
    [c_sp; c_nl; c_hash; c_dot; c_dash; c_bar; c_colon; c_gt; c_lbr; c_rbr; c_bt].

Ltac ok_subst E := apply ok_inj in E; first [subst | idtac].

(** Characters the splitting functions write themselves. *)
Definition is_inline (c : char) : bool :=
  existsb (N.eqb c) [c_sp; c_dot; c_lbr; c_rbr; c_bt].

Lemma inline_markup c : is_inline c = true -> is_markup c = true.
Proof.
  unfold is_inline, is_markup. intros H. apply orb_true_iff. right.
  apply existsb_exists in H. destruct H as (x & Hin & E). apply existsb_exists. exists x.
  split; [|exact E]. cbn in *. tauto.
Qed.

Section Tokens.
  Variable P : char -> Prop.
  Hypothesis Pm : forall c, is_inline c = true -> P c.

  Notation ok := (Forall P).
  Notation okl := (Forall (Forall P)).
  Notation okt := (Forall (fun t => Forall P (t_text t))).

  Let ok_rep c n : is_inline c = true -> ok (rep c n).
  Proof. intros H. apply Forall_rep. auto. Qed.

  Let ok_one c : is_inline c = true -> ok [c].
  Proof. auto. Qed.

  Lemma okt_app_last ts x : okt ts -> ok x -> okt (app_last ts x).
  Proof.
    intros H Hx. induction H as [|t ts Ht Hts IH]; cbn; [constructor|].
    destruct ts; constructor; auto. cbn. apply Forall_app. auto.
  Qed.

  Lemma okt_eval_last ts : okt ts -> okt (eval_last ts).
  Proof.
    intros H. induction H as [|t ts Ht Hts IH]; cbn; [constructor|].
    destruct ts; constructor; auto.
  Qed.

  Lemma okt_snoc ts t : okt ts -> ok (t_text t) -> okt (ts ++ [t]).
  Proof. intros. apply Forall_app. auto. Qed.

  Lemma okt_code_step text ls st m :
    ok text -> okt (fst (fst st)) -> okt (fst (fst (code_step text ls st m))).
  Proof.
    intros Ht Hst. destruct st as [[ts oml] le], m as [ms me]. cbn [fst] in *.
    unfold code_step. destruct (oml =? 0); [|destruct (me - ms =? oml)]; cbn [fst].
    - set (p := slice text le ms).
      assert (Hp : ok p) by (apply Forall_slice; auto).
      destruct (one_dot p && negb (nilb ts)); [set (ts0 := app_last ts [c_dot])|set (ts0 := ts)];
        (assert (H0 : okt ts0) by (subst ts0; auto using okt_app_last, ok_one));
        [set (q := tl p)|set (q := p)];
        (assert (Hq : ok q) by (subst q; auto using Forall_tl));
        (destruct (negb (blank q)); cbn [fst]; apply okt_snoc; cbn [t_text];
         [apply okt_snoc; cbn [t_text]; auto using Forall_strip|apply ok_rep; reflexivity
         |exact H0|apply ok_rep; reflexivity]).
    - apply okt_app_last; [exact Hst|]. apply Forall_app. split; [apply Forall_slice; auto|].
      apply ok_rep. reflexivity.
    - apply okt_app_last; [exact Hst|]. apply Forall_slice; auto.
  Qed.

  Lemma okt_split_tail ts rt le ls r :
    okt ts -> ok rt -> split_tail ts rt le ls = Ok r -> okt r.
  Proof.
    intros Hts Hrt H. unfold split_tail in H. bind_inv H. destruct a as [ts' rt'].
    assert (G : okt ts' /\ ok rt').
    { destruct (one_dot rt).
      - destruct ts as [|t ts]; [discriminate|].
        apply ok_inj, pair_equal_spec in E. destruct E as [<- <-].
        split; [apply okt_app_last; auto using ok_one|apply Forall_tl; auto].
      - inv E. auto. }
    destruct G as [G1 G2]. destruct (negb (blank rt')); inv H; [|exact G1].
    apply okt_snoc; [exact G1|]. cbn. apply Forall_strip. exact G2.
  Qed.

  Lemma okt_code_split text ls r : ok text -> code_split text ls = Ok r -> okt r.
  Proof.
    intros Ht H. unfold code_split in H.
    assert (G : forall ms st, okt (fst (fst st)) ->
              okt (fst (fst (fold_left (code_step text ls) ms st)))).
    { induction ms as [|m ms IH]; intros st Hst; cbn; [exact Hst|].
      apply IH. apply okt_code_step; auto. }
    specialize (G (finditer INLINE_CODE_MARKER_REGEX text) ([], 0, 0) ltac:(constructor)).
    destruct (fold_left _ _ _) as [[ts oml] le]. cbn [fst] in G.
    assert (Hsk : ok (skipn le text)) by (apply Forall_skipn; auto).
    destruct (negb (nilb ts) && _).
    - destruct (negb (blank (skipn le text))); inv H; auto using okt_eval_last.
      apply okt_app_last; auto using okt_eval_last. apply Forall_rstrip_by. auto.
    - eapply okt_split_tail; [exact G|exact Hsk|exact H].
  Qed.

  Lemma split_on2_cons a b x y s :
    split_on2 a b (x :: y :: s) =
    if N.eqb x a && N.eqb y b then [] :: split_on2 a b s
    else match split_on2 a b (y :: s) with
         | [] => [[x]]
         | w :: ws => (x :: w) :: ws
         end.
  Proof. reflexivity. Qed.

  Lemma okl_split_on2 a b s : ok s -> okl (split_on2 a b s).
  Proof.
    remember (length s) as n eqn:En. assert (Hle : length s <= n) by lia. clear En.
    revert s Hle. induction n as [|n IH]; intros s Hle H.
    - destruct s; cbn in *; [auto|lia].
    - destruct s as [|x [|y s]]; [cbn; auto|cbn; auto|]. rewrite split_on2_cons. cbn in Hle.
      inversion H as [|? ? Hx Hs]; subst.
      destruct (N.eqb x a && N.eqb y b).
      + constructor; [constructor|]. apply IH; [lia|]. inv Hs. assumption.
      + assert (G := IH (y :: s) ltac:(cbn; lia) Hs).
        destruct (split_on2 a b (y :: s)); [auto|]. inv G. auto.
  Qed.

  Lemma ok_split_link g a b : ok g -> split_link g = Ok (a, b) -> ok a /\ ok b.
  Proof.
    intros Hg H. unfold split_link in H.
    destruct (contains [c_rbr; c_lpar] g) eqn:Ec.
    - apply contains_spec in Ec. destruct Ec as (u & v & Eg).
      assert (Hlp : P c_lpar).
      { rewrite Eg in Hg. apply Forall_app in Hg. destruct Hg as [_ Hg]. inv Hg. inv H3. auto. }
      assert (Hs := okl_split_on2 c_rbr c_lpar g Hg).
      destruct (split_on2 c_rbr c_lpar g) as [|x [|y l]]; [discriminate|discriminate|].
      injection H as <- <-. inv Hs. inv H2. split.
      + apply Forall_app. split; [apply Forall_strip; auto|].
        constructor; [apply Pm; reflexivity|]. auto.
      + apply Forall_strip. auto.
    - assert (Hs := okl_split_on2 c_rbr c_lbr g Hg).
      destruct (split_on2 c_rbr c_lbr g) as [|x [|y l]]; [discriminate|discriminate|].
      injection H as <- <-. inv Hs. inv H2. split.
      + apply Forall_app. split; [apply Forall_strip; auto|]. auto.
      + apply Forall_strip. auto.
  Qed.

  Lemma okt_link_step text ls st m st' :
    ok text -> okt (fst st) -> link_step text ls st m = Ok st' -> okt (fst st').
  Proof.
    intros Ht Hst H. destruct st as [ts le], m as [ms me]. cbn [fst] in Hst.
    unfold link_step in H.
    set (n := slice text le ms) in *.
    assert (Hn : ok n) by (apply Forall_slice; auto).
    match type of H with (let '(a, b) := ?x in _) = _ => destruct x as [ts1 lead] eqn:E end.
    assert (G : okt ts1).
    { destruct (negb (blank n)); [|inv E; exact Hst].
      injection E as <- <-.
      destruct (negb (nilb ts) && one_dot n); apply okt_snoc; cbn [t_text];
        auto using okt_app_last, ok_one, Forall_strip, Forall_tl. }
    bind_inv H. destruct a as [a b].
    apply ok_split_link in E0; [|apply Forall_slice; auto]. destruct E0 as [Ha Hb].
    ok_subst H. cbn [fst]. apply Forall_app. split; [exact G|]. auto.
  Qed.

  Lemma okt_link_split text ls r : ok text -> link_split text ls = Ok r -> okt r.
  Proof.
    intros Ht H. unfold link_split in H. bind_inv H. destruct a as [ts le].
    assert (G : forall ms st st', okt (fst st) ->
              foldM (link_step text ls) ms st = Ok st' -> okt (fst st')).
    { induction ms as [|m ms IH]; intros st st' Hst Hf; cbn in Hf.
      - inv Hf. exact Hst.
      - bind_inv Hf. eapply IH; [|exact Hf]. eapply okt_link_step; eauto. }
    apply G in E; [|constructor]. cbn [fst] in E.
    eapply okt_split_tail; [exact E| |exact H]. apply Forall_skipn. exact Ht.
  Qed.

  Lemma okt_newline_step text ls st m :
    ok text -> okt (fst st) -> okt (fst (newline_step text ls st m)).
  Proof.
    intros Ht Hst. destruct st as [ts le], m as [ms me]. cbn [fst] in Hst.
    unfold newline_step.
    destruct (negb (blank (slice text le ms))); cbn [fst]; apply Forall_app; split; auto.
    - constructor; [cbn; apply Forall_strip, Forall_slice; auto|].
      constructor; [cbn; apply Forall_slice; auto|constructor].
    - constructor; [cbn; apply Forall_slice; auto|constructor].
  Qed.

  Lemma okt_newline_split text ls r : ok text -> newline_split text ls = Ok r -> okt r.
  Proof.
    intros Ht H. unfold newline_split in H.
    assert (G : forall ms st, okt (fst st) ->
              okt (fst (fold_left (newline_step text ls) ms st))).
    { induction ms as [|m ms IH]; intros st Hst; cbn; [exact Hst|].
      apply IH. apply okt_newline_step; auto. }
    specialize (G (finditer HTML_NEWLINE_REGEX text) ([], 0) ltac:(constructor)).
    destruct (fold_left _ _ _) as [ts le]. cbn [fst] in G.
    destruct (negb (blank (skipn le text))); inv H; [|exact G].
    apply okt_snoc; [exact G|]. cbn. apply Forall_strip, Forall_skipn. exact Ht.
  Qed.

  Lemma okt_space_split text ls r : ok text -> space_split text ls = Ok r -> okt r.
  Proof.
    intros Ht H. unfold space_split in H. ok_subst H.
    assert (G : forall ws ts, okl ws -> okt ts -> okt (fold_left (space_step ls) ws ts)).
    { induction ws as [|w ws IH]; intros ts Hw Hts; cbn; [exact Hts|]. inv Hw.
      apply IH; auto. unfold space_step. destruct (nilb w); [exact Hts|].
      apply okt_snoc; [exact Hts|]. cbn. apply Forall_strip. auto. }
    apply G; [|constructor]. apply Forall_split_on. exact Ht.
  Qed.

  Lemma okt_split_pass f ts r :
    (forall text ls x, ok text -> f text ls = Ok x -> okt x) ->
    okt ts -> split_pass f ts = Ok r -> okt r.
  Proof.
    intros Hf Hts H. unfold split_pass in H. bind_inv H. ok_subst H.
    apply mapM_ok in E. induction E as [|t x ts xs Hx E IH]; cbn; [constructor|].
    inv Hts. apply Forall_app. split; [|auto].
    destruct (t_eval t); [eapply Hf; eauto|]. inv Hx. auto.
  Qed.

  Lemma okl_map f lines : (forall l, ok l -> ok (f l)) -> okl lines -> okl (map f lines).
  Proof. intros H. induction 1; cbn; constructor; auto. Qed.

  Lemma okt_joined text : ok text -> ok (str_join [c_sp] (map strip (splitlines text))).
  Proof.
    intros H. apply Forall_str_join; [auto|]. apply okl_map; [|apply Forall_splitlines; exact H].
    intros. apply Forall_strip. assumption.
  Qed.

End Tokens.

Section Chars.
  Variable P : char -> Prop.
  Hypothesis Pm : forall c, is_markup c = true -> P c.

  Notation ok := (Forall P).
  Notation okl := (Forall (Forall P)).
  Notation okt := (Forall (fun t => Forall P (t_text t))).

  Lemma ok_rep c n : is_markup c = true -> ok (rep c n).
  Proof. intros H. apply Forall_rep. auto. Qed.

  Lemma ok_one c : is_markup c = true -> ok [c].
  Proof. auto. Qed.

  Lemma ok_dec n : ok (dec n).
  Proof.
    unfold dec. generalize (N.to_uint n). intros u.
    induction u; cbn [uint_str]; constructor; auto.
  Qed.

  Lemma ok_first s c : ok s -> first_char s = Ok c -> P c.
  Proof. destruct s; cbn; intros H E; inv E. inv H. assumption. Qed.

  Lemma ok_nth lines i l : okl lines -> nth_line lines i = Ok l -> ok l.
  Proof.
    unfold nth_line. intros H E. destruct (nth_error lines i) eqn:En; inv E.
    apply nth_error_In in En. rewrite Forall_forall in H. auto.
  Qed.

  Lemma ok_last lines : okl lines -> ok (last lines []).
  Proof.
    intros H. induction H as [|l ls Hl Hls IH]; [constructor|]. destruct ls; auto.
  Qed.

  Lemma okl_strip lines : okl lines -> okl (map strip lines).
  Proof. apply okl_map. intros. apply Forall_strip. assumption. Qed.

  Lemma okl_words s : ok s -> okl (words s).
  Proof. apply Forall_words. Qed.

  Lemma ok_join_nl lines : okl lines -> ok (str_join [c_nl] lines).
  Proof. apply Forall_str_join. apply ok_one. reflexivity. Qed.

  Lemma ok_join_sp lines : okl lines -> ok (str_join [c_sp] lines).
  Proof. apply Forall_str_join. apply ok_one. reflexivity. Qed.

  (** ** Wrapping *)

  Lemma ok_join ts w : okt ts -> ok (join ts w).
  Proof.
    intros H. unfold join.
    assert (G : forall ts st, okt ts -> okl (fst st) -> ok (snd st) ->
              okl (fst (fold_left (join_step w) ts st))
              /\ ok (snd (fold_left (join_step w) ts st))).
    { clear ts H. induction ts as [|t ts IH]; intros st Hts H1 H2; cbn; [auto|].
      inv Hts. destruct st as [done cur]. cbn [fst snd] in *.
      assert (Hpot : ok (if t_lead t && negb (nilb cur) then cur ++ [c_sp] ++ t_text t
                         else cur ++ t_text t)).
      { destruct (t_lead t && negb (nilb cur)); repeat (apply Forall_app; split); auto. }
      apply IH; auto; unfold join_step;
        destruct (len_le _ w || nilb cur || width_nonpos w);
        destruct (is_html_newline (t_text t)); cbn [fst snd];
        repeat (apply Forall_app; split); auto. }
    destruct (G ts ([], []) H ltac:(constructor) ltac:(constructor)) as [G1 G2].
    destruct (fold_left (join_step w) ts ([], [])) as [done cur]. cbn [fst snd] in *.
    apply ok_join_nl. destruct (nilb cur); [exact G1|]. apply Forall_app. auto.
  Qed.

  Lemma ok_wrap text w r : ok text -> wrap text w = Ok r -> ok r.
  Proof.
    intros Ht H. unfold wrap in H.
    assert (Pi : forall c, is_inline c = true -> P c) by (intros; apply Pm, inline_markup; assumption).
    set (t0 := str_join [c_sp] (map strip (splitlines text))) in *.
    assert (H0 : ok t0) by (apply okt_joined; auto).
    bind_inv H. bind_inv H. bind_inv H. bind_inv H. ok_subst H. apply ok_join.
    eapply okt_split_pass; [exact (okt_space_split P)| |eassumption].
    eapply okt_split_pass; [exact (okt_newline_split P)| |eassumption].
    eapply okt_split_pass; [exact (okt_link_split P Pi)| |eassumption].
    eapply okt_split_pass; [exact (okt_code_split P Pi)| |eassumption].
    constructor; [exact H0|constructor].
  Qed.

  (** ** Leaf formatters *)

  Lemma ok_fmt_atx lines r : okl lines -> fmt_atx_heading lines = Ok r -> ok r.
  Proof.
    intros H E. destruct lines as [|l ls]; [discriminate|]. inv H. ok_subst E.
    apply Forall_app. split; [apply ok_rep; reflexivity|].
    constructor; [apply Pm; reflexivity|].
    apply Forall_strip, Forall_lstrip_by, Forall_strip. auto.
  Qed.

  Lemma ok_fmt_indented lines r : okl lines -> fmt_indented_code_block lines = Ok r -> ok r.
  Proof.
    intros H E. ok_subst E. apply ok_join_nl. apply okl_map; [|exact H].
    intros. apply Forall_rstrip_by. auto.
  Qed.

  Lemma ok_fmt_fenced lines r : okl lines -> fmt_fenced_code_block lines = Ok r -> ok r.
  Proof.
    intros H E. destruct lines as [|l ls]; [discriminate|].
    cbn [fmt_fenced_code_block] in E. bind_inv E. ok_subst E.
    assert (Hl : ok l) by (inv H; auto).
    apply ok_first in E0; [|apply Forall_strip; exact Hl].
    apply ok_join_nl. apply okl_map; [intros; apply Forall_rstrip_by; auto|].
    repeat (apply Forall_app; split).
    - constructor; [|constructor]. apply Forall_app. split; [apply Forall_rep; auto|].
      apply Forall_strip, Forall_lstrip_by, Forall_strip. exact Hl.
    - apply Forall_inner. exact H.
    - constructor; [|constructor]. apply Forall_rep. auto.
  Qed.

  Lemma ok_fmt_thematic lines w r : okl lines -> fmt_thematic_break lines w = Ok r -> ok r.
  Proof.
    intros H E. destruct lines as [|l ls]; [destruct w; discriminate|].
    assert (Hl : ok l) by (inv H; auto).
    destruct w; cbn [fmt_thematic_break] in E; try discriminate; bind_inv E; ok_subst E;
      (apply ok_first in E0; [|apply Forall_strip; exact Hl]); apply Forall_rep; auto.
  Qed.

  Lemma ok_fmt_paragraph lines w r : okl lines -> fmt_paragraph lines w = Ok r -> ok r.
  Proof.
    intros H E. unfold fmt_paragraph in E. bind_inv E.
    apply ok_wrap in E0; [|apply ok_join_sp, okl_strip; exact H].
    destruct (rev lines); [discriminate|]. ok_subst E.
    destruct (endswith _ _); [|exact E0]. apply Forall_app. split; [exact E0|].
    constructor; [apply Pm; reflexivity|]. constructor; [apply Pm; reflexivity|constructor].
  Qed.

  Lemma ok_fmt_setext lines w r : okl lines -> fmt_setext_heading lines w = Ok r -> ok r.
  Proof.
    intros H E. unfold fmt_setext_heading in E. destruct (length lines <? 2); [discriminate|].
    bind_inv E. bind_inv E. bind_inv E. ok_subst E.
    apply ok_wrap in E0; [|apply ok_join_sp, okl_strip, Forall_removelast; exact H].
    apply ok_first in E2; [|apply Forall_strip, ok_last; exact H].
    repeat (apply Forall_app; split); [exact E0|apply ok_one; reflexivity|].
    apply Forall_rep. exact E2.
  Qed.

  Lemma ok_lrd_groups s a b c : ok s -> lrd_groups s = Some (a, b, c) -> ok a /\ ok b /\ ok c.
  Proof.
    intros H. induction s as [|x s IH].
    - cbn. discriminate.
    - assert (G : lrd_groups_at (x :: s) = Some (a, b, c) -> ok a /\ ok b /\ ok c).
      { unfold lrd_groups_at. destruct (rmatch _ _) as [e|]; [|discriminate].
        intros E. apply some_inj in E. injection E as <- <- <-.
        split; [apply Forall_slice; exact H|].
        assert (Hr : ok (lstrip (skipn e (x :: s)))).
        { apply Forall_lstrip_by, Forall_skipn. exact H. }
        split; [apply Forall_take_while; exact Hr|].
        apply Forall_take_while, Forall_lstrip_by, Forall_lstrip_by. exact Hr. }
      cbn [lrd_groups]. destruct (lrd_groups_at (x :: s)) as [g|] eqn:E.
      + intros Eg. apply G. exact Eg.
      + inv H. auto.
  Qed.

  Lemma ok_lrd_parts lines a b c : okl lines -> lrd_parts lines = Ok (a, b, c) ->
    ok a /\ ok b /\ ok c.
  Proof.
    intros H E. unfold lrd_parts in E.
    destruct (lrd_groups _) as [[[x y] z]|] eqn:Eg; [|discriminate].
    apply ok_lrd_groups in Eg; [|apply ok_join_sp; exact H]. destruct Eg as (G1 & G2 & G3).
    injection E as <- <- <-. repeat split; auto. apply ok_join_sp, okl_words. exact G3.
  Qed.

  Lemma ok_fmt_lrd lines w r :
    okl lines -> fmt_link_reference_definition lines w = Ok r -> ok r.
  Proof.
    intros H E. unfold fmt_link_reference_definition in E. bind_inv E.
    destruct a as [[name link] title]. apply ok_lrd_parts in E0; [|exact H].
    destruct E0 as (Hn & Hl & Ht).
    assert (Hstr : ok ([c_lbr] ++ name ++ [c_rbr; c_colon])).
    { repeat (apply Forall_app; split); auto; repeat constructor; apply Pm; reflexivity. }
    set (st := [c_lbr] ++ name ++ [c_rbr; c_colon]) in *. clearbody st.
    destruct (nilb link); [ok_subst E; exact Hstr|]. bind_inv E.
    assert (G : forall i s,
        (if contains link a then (0, st ++ [c_sp] ++ link) else (1, st ++ [c_nl] ++ link))
        = (i, s) -> ok s).
    { intros i s Es. destruct (contains link a); injection Es as <- <-;
        repeat (apply Forall_app; split); auto; apply ok_one; reflexivity. }
    destruct (if contains link a then _ else _) as [li s]. specialize (G _ _ eq_refl).
    destruct (words title) as [|fw ws]; [ok_subst E; exact G|]. bind_inv E.
    destruct (contains fw a0).
    - destruct (len_le _ w).
      + bind_inv E. ok_subst E. apply ok_wrap in E2.
        * apply ok_join_nl. apply Forall_app. split; [|auto].
          apply Forall_removelast, Forall_splitlines. exact G.
        * repeat (apply Forall_app; split); auto.
          apply ok_last, Forall_splitlines. exact G.
      + bind_inv E. ok_subst E. apply ok_wrap in E2; [|exact Ht].
        constructor; [apply Pm; reflexivity|exact E2].
    - bind_inv E. ok_subst E. apply ok_wrap in E2; [|exact Ht].
      repeat (apply Forall_app; split); auto.
  Qed.

  (** ** Tables *)

  Lemma okl_split_unescaped b s : ok s -> okl (split_unescaped b s).
  Proof.
    intros H. revert b. induction H as [|c s Hc Hs IH]; intros b; cbn; [auto|].
    destruct (N.eqb c c_bar && negb b); [constructor; auto|].
    assert (G := IH (N.eqb c c_bslash)).
    destruct (split_unescaped (N.eqb c c_bslash) s); [auto|]. inv G. auto.
  Qed.

  Lemma ok_center t n : ok t -> ok (center_align t n).
  Proof.
    intros H. unfold center_align. repeat (apply Forall_app; split); auto;
      apply ok_rep; reflexivity.
  Qed.
  Lemma ok_left t n : ok t -> ok (left_align t n).
  Proof. intros H. apply Forall_app. split; [auto|]. apply ok_rep. reflexivity. Qed.
  Lemma ok_right t n : ok t -> ok (right_align t n).
  Proof. intros H. apply Forall_app. split; [apply ok_rep; reflexivity|auto]. Qed.

  Lemma ok_table_row cells : okl cells -> ok (table_row cells).
  Proof.
    intros H. unfold table_row. repeat (apply Forall_app; split);
      try (apply ok_one; reflexivity).
    apply Forall_str_join; [apply ok_one; reflexivity|exact H].
  Qed.

  Lemma ok_header_cell c wa : ok c -> ok (header_cell (c, wa)).
  Proof.
    intros H. destruct wa as [n a]. unfold header_cell. apply Forall_strip in H.
    repeat (apply Forall_app; split); try (apply ok_one; reflexivity).
    destruct a; auto using ok_center, ok_left, ok_right.
  Qed.
  Lemma ok_body_cell c wa : ok c -> ok (body_cell (c, wa)).
  Proof.
    intros H. destruct wa as [n a]. unfold body_cell. apply Forall_strip in H.
    repeat (apply Forall_app; split); try (apply ok_one; reflexivity).
    destruct a; auto using ok_center, ok_left, ok_right.
  Qed.
  Lemma ok_divider_cell wa : ok (divider_cell wa).
  Proof.
    destruct wa as [n a]. unfold divider_cell.
    destruct a; repeat (apply Forall_app; split); try (apply ok_one; reflexivity);
      apply ok_rep; reflexivity.
  Qed.

  Lemma zip2_fst {A B} (l : list A) (m : list B) (Q : A -> Prop) :
    Forall Q l -> Forall (fun x => Q (fst x)) (zip2 l m).
  Proof.
    intros H. revert m. induction H as [|a l Ha Hl IH]; intros [|b m]; cbn; constructor; auto.
  Qed.

  Lemma ok_fmt_table i lines r : okl lines -> fmt_table i lines = Ok r -> ok r.
  Proof.
    intros H E. destruct lines as [|h [|d body]]; try discriminate.
    unfold fmt_table in E. bind_inv E. ok_subst E.
    inversion H as [|? ? Hh H']; subst. inversion H' as [|? ? Hd Hb]; subst.
    apply ok_join_nl. constructor; [|constructor].
    - apply ok_table_row. apply Forall_map.
      assert (G := Forall_inner _ _ (okl_split_unescaped false h Hh)).
      eapply Forall_impl; [|apply zip2_fst; exact G].
      intros [c wa] Hc. apply ok_header_cell. exact Hc.
    - apply ok_table_row. apply Forall_map. apply Forall_forall.
      intros wa _. apply ok_divider_cell.
    - apply okl_map; [|exact Hb]. intros l Hl. apply ok_table_row. apply Forall_map.
      assert (G := Forall_inner _ _ (Forall_split_on _ c_bar l Hl)).
      eapply Forall_impl; [|apply zip2_fst; exact G].
      intros [c wa] Hc. apply ok_body_cell. exact Hc.
  Qed.

  (** ** Lists and block quotes *)

  Lemma append_to_last_ok es l es' :
    append_to_last es l = Ok es' -> Forall okl es -> ok l -> Forall okl es'.
  Proof.
    revert es'. induction es as [|e es IH]; intros es' E H Hl; [discriminate|].
    cbn [append_to_last] in E. inversion H as [|? ? He Hes]; subst.
    destruct es as [|e2 es].
    - ok_subst E. constructor; [|constructor]. apply Forall_app. auto.
    - bind_inv E. ok_subst E. constructor; auto.
  Qed.

  Lemma split_list_step_ok st l st' :
    split_list_step st l = Ok st' -> Forall okl (sl_entries st) -> ok l ->
    Forall okl (sl_entries st').
  Proof.
    intros E H Hl. unfold split_list_step in E.
    match type of E with (let '(a, b) := ?x in _) = _ => destruct x as [ic ce] end.
    destruct (marker_end l) as [k|].
    - destruct (negb ic && (get_indent l <=? sl_max_indent st)).
      + ok_subst E. cbn. apply Forall_app. auto.
      + bind_inv E. ok_subst E. cbn. eapply append_to_last_ok; eauto.
    - bind_inv E. ok_subst E. cbn. eapply append_to_last_ok; eauto.
  Qed.

  Lemma split_list_chars lines es : split_list lines = Ok es -> okl lines -> Forall okl es.
  Proof.
    intros E H. unfold split_list in E. destruct lines as [|l ls]; [discriminate|].
    bind_inv E. bind_inv E. ok_subst E.
    assert (G : forall ls st st', okl ls -> foldM split_list_step ls st = Ok st' ->
              Forall okl (sl_entries st) -> Forall okl (sl_entries st')).
    { clear. induction ls as [|l ls IH]; intros st st' H E Hst; cbn in E.
      - ok_subst E. exact Hst.
      - bind_inv E. inv H. eapply IH; eauto. eapply split_list_step_ok; eauto. }
    eapply G; [exact H|exact E1|constructor].
  Qed.

  Lemma dedent_chars es ds : dedent_entries es = Ok ds -> Forall okl es -> Forall okl ds.
  Proof.
    intros E H. unfold dedent_entries in E. apply mapM_ok in E.
    induction E as [|e d es ds Hd E IH]; [constructor|]. inv H. constructor; [|auto].
    unfold dedent_entry in Hd. destruct e as [|l rest]; [discriminate|]. bind_inv Hd.
    injection Hd as <-. inv H2. constructor; [apply Forall_skipn; auto|].
    apply okl_map; [|assumption]. intros x Hx. apply Forall_app.
    split; [apply Forall_lstrip_by, Forall_firstn|apply Forall_skipn]; exact Hx.
  Qed.

  Section Nested.
    Variable nested : list str -> width -> res str.
    Hypothesis Hnested : forall lines w r, okl lines -> nested lines w = Ok r -> ok r.

    Lemma ok_format_entry prefix indent w entry r :
      ok prefix -> okl entry -> format_entry nested prefix indent w entry = Ok r -> ok r.
    Proof.
      intros Hp He E. unfold format_entry in E. bind_inv E. rewrite !with_redirect_ok in E0.
      apply Hnested in E0; [|exact He]. ok_subst E.
      repeat (apply Forall_app; split); auto; try (apply ok_one; reflexivity).
      apply Forall_str_join.
      - constructor; [apply Pm; reflexivity|]. apply ok_rep. reflexivity.
      - apply Forall_split_on, Forall_rstrip_by. exact E0.
    Qed.

    Lemma ok_fmt_bullet lines w r :
      okl lines -> fmt_bullet_list nested lines w = Ok r -> ok r.
    Proof.
      intros H E. unfold fmt_bullet_list in E.
      bind_inv E. bind_inv E. bind_inv E. bind_inv E. bind_inv E. ok_subst E.
      apply split_list_chars in E0; [|exact H]. apply dedent_chars in E1; [|exact E0].
      assert (Hm : P a2).
      { eapply ok_first; [|exact E3]. apply Forall_lstrip_by. eapply ok_nth; eauto. }
      apply ok_join_nl. apply mapM_ok in E4. clear -E4 E1 Hm Pm Hnested.
      induction E4 as [|x y xs ys Hy E4 IH]; [constructor|]. inv E1. constructor; [|auto].
      eapply ok_format_entry; [|eassumption|exact Hy]. auto.
    Qed.

    Lemma ok_fmt_ordered lines w r :
      okl lines -> fmt_ordered_list nested lines w = Ok r -> ok r.
    Proof.
      intros H E. unfold fmt_ordered_list in E.
      bind_inv E. bind_inv E. bind_inv E. bind_inv E. bind_inv E. ok_subst E.
      apply split_list_chars in E0; [|exact H]. apply dedent_chars in E3; [|exact E0].
      apply ok_join_nl. apply mapM_ok in E4.
      assert (G : Forall (fun ne => okl (snd ne)) (enumerate a1 a2)).
      { clear -E3. revert a1. induction E3; intros n; cbn; constructor; auto. }
      clear -E4 G Pm Hnested.
      induction E4 as [|[n x] y xs ys Hy E4 IH]; [constructor|]. inv G. constructor; [|auto].
      eapply ok_format_entry; [|eassumption|exact Hy].
      apply Forall_app. split; [apply ok_dec|apply ok_one; reflexivity].
    Qed.

    Lemma fully_quote_chars d lines : okl lines -> okl (fully_quote d lines).
    Proof.
      intros H. revert d. induction H as [|l ls Hl Hls IH]; intros d; cbn; [constructor|].
      destruct (is_explicit_block_quote_line l); constructor; auto.
      apply Forall_app. split; [apply ok_rep; reflexivity|exact Hl].
    Qed.

    Lemma strip_quote_marker_chars l : ok l -> ok (strip_quote_marker l).
    Proof.
      intros H. unfold strip_quote_marker. destruct (rmatch _ _); auto using Forall_skipn.
    Qed.

    Lemma ok_fmt_block_quote lines w r :
      okl lines -> fmt_block_quote nested lines w = Ok r -> ok r.
    Proof.
      intros H E. unfold fmt_block_quote in E. bind_inv E. bind_inv E. ok_subst E.
      rewrite with_redirect_ok in E1. apply Hnested in E1.
      - apply ok_join_nl. apply okl_map; [|apply Forall_splitlines; exact E1].
        intros l Hl. apply Forall_strip. apply Forall_app. split; [|exact Hl].
        destruct (quote_has_space _); repeat (apply Forall_app; split);
          try (apply ok_one; reflexivity); apply ok_rep; reflexivity.
      - assert (G : okl (map strip_quote_marker (fully_quote 0 lines))).
        { apply okl_map; [apply strip_quote_marker_chars|]. apply fully_quote_chars. exact H. }
        destruct (quote_has_space _); [|exact G]. apply okl_map; [|exact G].
        intros [|c l] Hl; [exact Hl|]. destruct (N.eqb c c_sp); [inv Hl; assumption|exact Hl].
    Qed.

    Lemma ok_reformatted ty i lines w r :
      okl lines -> reformatted nested ty i lines w = Ok r -> ok r.
    Proof.
      destruct ty; cbn [reformatted]; intros H E.
      - eapply ok_fmt_atx; eauto.
      - ok_subst E. constructor.
      - eapply ok_fmt_block_quote; eauto.
      - eapply ok_fmt_bullet; eauto.
      - eapply ok_fmt_fenced; eauto.
      - eapply ok_fmt_indented; eauto.
      - eapply ok_fmt_lrd; eauto.
      - eapply ok_fmt_ordered; eauto.
      - eapply ok_fmt_paragraph; eauto.
      - eapply ok_fmt_setext; eauto.
      - eapply ok_fmt_table; eauto.
      - eapply ok_fmt_thematic; eauto.
    Qed.
  End Nested.

  (** ** A whole pass *)

  Lemma pep479_ok {A} (x : res A) a : pep479 x = Ok a <-> x = Ok a.
  Proof. destruct x; cbn; split; congruence. Qed.

  Lemma build_formatters_chars i last secs fs :
    build_formatters i last secs = Ok fs ->
    Forall (fun s => okl (snd s)) secs -> Forall (fun f => okl (snd f)) fs.
  Proof.
    revert i last fs. induction secs as [|[ty content] secs IH]; intros i last fs E H;
      cbn [build_formatters] in E.
    - ok_subst E. constructor.
    - bind_inv E. bind_inv E. ok_subst E. inv H. cbn [snd] in *.
      apply Forall_app. split.
      + destruct ty; try constructor. destruct last as [[]|]; repeat constructor.
      + constructor; [assumption|]. eapply IH; eauto.
  Qed.

  Lemma ok_pass lim text w r :
    okl (splitlines text) -> reformat_pass lim text w = Ok r -> ok r.
  Proof.
    revert text w r. induction lim as [|lim IH]; intros text w r H E; [discriminate|].
    cbn [reformat_pass] in E. bind_inv E. bind_inv E. bind_inv E. ok_subst E.
    rewrite pep479_ok in E2. apply parse_markdown_lossless in E0. destruct E0 as [Hc _].
    apply build_formatters_chars in E1.
    - apply mapM_ok in E2. apply Forall_app. split; [|apply ok_one; reflexivity].
      apply ok_join_nl.
      assert (Hn : forall lines w' r', okl lines ->
                 reformat_pass lim (str_join [c_nl] lines ++ [c_nl]) w' = Ok r' -> ok r').
      { intros lines w' r' Hl. apply IH. apply Forall_splitlines.
        apply Forall_app. split; [apply ok_join_nl; exact Hl|apply ok_one; reflexivity]. }
      clear -E1 E2 Hn Pm.
      induction E2 as [|[[ty i] ls] y fs ys Hy E2 IHf]; [constructor|]. inv E1.
      constructor; [|auto]. eapply ok_reformatted; [exact Hn| |exact Hy]. assumption.
    - rewrite <- Hc in H. clear -H. induction a as [|s secs IHs]; [constructor|].
      cbn [map concat] in H. apply Forall_app in H. destruct H. constructor; auto.
  Qed.
End Chars.
