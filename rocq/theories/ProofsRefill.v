(** Filling lines with the pieces of wrapped text with inline links. *)
From Coq Require Import String.
From Verif Require Import Py Regex Utils TextWrap Base SpecLines ProofsLines ProofsRegex SpecWrap
  ProofsScan ProofsWrap ProofsTokens ProofsParser ProofsLinks ProofsPieces ProofsFilled ProofsCode
  ProofsGaps ProofsSeams SpecFormat PropsWrap ProofsApart SpecInline ProofsStable ProofsBrackets ProofsRestable ProofsReread.

(** * Filling the same lines *)

Definition fitb (w : width) (s : str) : bool := len_le (length s) w || width_nonpos w.

(** [jr w d c ts ts' d' c']: from the lines [d] and [c] the tokens [ts] fill [d'] and [c'], and
    [ts'] has a space before those that begin a line. *)
Inductive jr (w : width) : list str -> str -> list tok -> list tok -> list str -> str -> Prop :=
| jr_nil d c : jr w d c [] [] d c
| jr_stay d c x l e r r' d' c' : fitb w (c ++ lead_str l ++ x) = true ->
    jr w d (c ++ lead_str l ++ x) r r' d' c' -> jr w d c (Tok x l e :: r) (Tok x l e :: r') d' c'
| jr_break d c x l e r r' d' c' : fitb w (c ++ lead_str l ++ x) = false ->
    jr w (d ++ [c]) x r r' d' c' -> jr w d c (Tok x l e :: r) (Tok x true e :: r') d' c'.

Lemma step_fine w d c x l e : c <> [] -> is_html_newline x = false ->
  join_step w (d, c) (Tok x l e) = if fitb w (c ++ lead_str l ++ x) then (d, c ++ lead_str l ++ x) else (d ++ [c], x).
Proof.
  intros Hc Hh. apply nilb_false in Hc. unfold join_step, fitb. cbn [t_text t_lead].
  assert (P : (if l && negb (nilb c) then c ++ [c_sp] ++ x else c ++ x) = c ++ lead_str l ++ x).
  { rewrite Hc. destruct l; reflexivity. }
  rewrite P, Hc, Hh, orb_false_r. destruct (len_le _ w || width_nonpos w); reflexivity.
Qed.

Lemma fitb_shorter w a b : length a <= length b -> fitb w b = true -> fitb w a = true.
Proof. intros H E. apply fits_spec. apply (fits_shorter w _ (length b)); [exact H|]. apply fits_spec, E. Qed.

Lemma jr_exists w ts : Forall fine ts -> forall d c, trimmed c -> Forall trimmed d ->
  exists ts' d' c', jr w d c ts ts' d' c' /\ Forall2 raise ts ts'
    /\ fold_left (join_step w) ts (d, c) = (d', c')
    /\ trimmed c' /\ Forall trimmed d'
    /\ str_join [c_sp] (d' ++ [c']) = str_join [c_sp] (d ++ [c]) ++ render ts'.
Proof.
  intros H. induction H as [|[x l e] ts [Ht Hh] H IH]; intros d c Hc Hd.
  { exists [], d, c. cbn. rewrite app_nil_r. repeat split; auto; [constructor|apply Hc|apply Hc]. }
  cbn [t_text] in Ht, Hh. assert (Hcn : c <> []) by (apply ink_last_ne, Hc).
  destruct (fitb w (c ++ lead_str l ++ x)) eqn:Ef.
  - destruct (IH d (c ++ lead_str l ++ x)) as (ts' & d' & c' & J & R & E1 & Hc' & Hd' & Ej);
      [apply trimmed_app; assumption|exact Hd|].
    exists (Tok x l e :: ts'), d', c'. split; [apply jr_stay; assumption|].
    split; [constructor; [split; [|split]; auto|exact R]|].
    cbn [fold_left]. rewrite step_fine, Ef by assumption. split; [exact E1|]. split; [exact Hc'|]. split; [exact Hd'|].
    rewrite Ej, str_join_last, render_cons. cbn [t_lead t_text]. rewrite <- !app_assoc. reflexivity.
  - destruct (IH (d ++ [c]) x) as (ts' & d' & c' & J & R & E1 & Hc' & Hd' & Ej);
      [exact Ht|apply Forall_app; auto|].
    exists (Tok x true e :: ts'), d', c'. split; [eapply jr_break; eassumption|].
    split; [constructor; [split; [|split]; auto|exact R]|].
    cbn [fold_left]. rewrite step_fine, Ef by assumption. split; [exact E1|]. split; [exact Hc'|]. split; [exact Hd'|].
    rewrite Ej, <- app_assoc. cbn [app]. rewrite str_join_snoc, render_cons. cbn [t_lead t_text lead_str].
    rewrite <- !app_assoc. reflexivity.
Qed.

Lemma jr_rs w d c ts ts' d' c' : jr w d c ts ts' d' c' -> forall x ts2, rs x ts ts2 ts' -> c <> [] ->
  Forall fine ts2 -> (x = [] \/ fitb w (c ++ x) = true) /\ fold_left (join_step w) ts2 (d, c ++ x) = (d', c').
Proof.
  intros H. induction H as [d c|d c x l e r r' d' c' Ef H IH|d c x l e r r' d' c' Ef H IH]; intros y ts2 Hr Hc Hf.
  - inversion Hr; subst. rewrite app_nil_r. split; [left|]; reflexivity.
  - inversion Hr as [|y' a l1 l2 l3 e' z r1 r2 r3 A1 A2 A3 A4 A5 E1 E2 E3 E4]; subst. clear Hr.
    inversion Hf as [|? ? [Ht Hh] Hf']; subst. cbn [t_text] in Ht, Hh.
    assert (l2 = l) by (destruct l, l2; auto; try (symmetry; apply A2; reflexivity)). subst l2.
    destruct (IH z r2 A5) as [B1 B2]; [|exact Hf'|].
    { intros E. apply app_eq_nil in E. tauto. }
    assert (EQ : (c ++ y) ++ lead_str l ++ a ++ z = (c ++ lead_str l ++ y ++ a) ++ z).
    { destruct y as [|q y]; [cbn [app]; rewrite app_nil_r, <- !app_assoc; reflexivity|].
      rewrite A3 by discriminate. eqapp. }
    split.
    + destruct y as [|q y]; [left; reflexivity|right]. eapply fitb_shorter; [|exact Ef]. rewrite !app_length. lia.
    + cbn [fold_left]. rewrite step_fine; [|intros E; apply app_eq_nil in E; tauto|exact Hh]. rewrite EQ.
      assert (F : fitb w ((c ++ lead_str l ++ y ++ a) ++ z) = true).
      { destruct B1 as [->|B1]; [rewrite app_nil_r; exact Ef|exact B1]. }
      rewrite F. exact B2.
  - inversion Hr as [|y' a l1 l2 l3 e' z r1 r2 r3 A1 A2 A3 A4 A5 E1 E2 E3 E4]; subst. clear Hr.
    assert (y = []) by (destruct y; [reflexivity|discriminate A3; discriminate]). subst y. cbn [app] in *.
    inversion Hf as [|? ? [Ht Hh] Hf']; subst. cbn [t_text] in Ht, Hh.
    destruct (IH z r2 A5) as [B1 B2]; [exact A4|exact Hf'|].
    split; [left; reflexivity|]. rewrite app_nil_r. cbn [fold_left]. rewrite step_fine by assumption.
    assert (F : fitb w (c ++ lead_str l2 ++ a ++ z) = false).
    { destruct (fitb w (c ++ lead_str l2 ++ a ++ z)) eqn:F; [|reflexivity]. rewrite <- Ef. symmetry. eapply fitb_shorter; [|exact F].
      rewrite !app_length. destruct l; [rewrite A1 by reflexivity|]; cbn [lead_str length]; lia. }
    rewrite F. exact B2.
Qed.

(** The wrapped text on one line is made of raised tokens, and other readings of it fill the
    same lines. *)
Lemma join_reread w ts : Forall fine ts -> first_flush ts -> Forall one_line (map t_text ts) ->
  exists ts', Forall2 raise ts ts' /\ first_flush ts' /\ joined (join ts w) = render ts'
    /\ forall ts2, rs [] ts ts2 ts' -> Forall fine ts2 -> join ts2 w = join ts w.
Proof.
  intros Hf Hl Ho. destruct ts as [|t r].
  { exists []. split; [constructor|]. split; [exact Hl|]. split; [reflexivity|]. intros ts2 H _. inversion H. reflexivity. }
  inversion Hf as [|? ? [Ht Hh] Hr]; subst.
  destruct t as [x l e]. assert (l = false) by (apply (Hl _ _ eq_refl)). subst l. cbn [t_text] in *.
  assert (S0 : forall y e, is_html_newline y = false -> join_step w ([], []) (Tok y false e) = ([], y)).
  { intros y e0 Hy. unfold join_step. cbn [t_text t_lead nilb andb app]. rewrite Hy, orb_true_r. reflexivity. }
  destruct (jr_exists w r Hr [] x Ht (Forall_nil _)) as (ts' & done & cur & J & R & E1 & Hc & Hd & Ej).
  exists (Tok x false e :: ts'). split; [constructor; [repeat split; auto|exact R]|].
  split; [intros t2 r2 E; injection E as <- _; reflexivity|].
  assert (Hcn : nilb cur = false) by (apply nilb_false, ink_last_ne, Hc).
  split.
  - unfold join. cbn [fold_left]. rewrite S0, E1, Hcn by exact Hh.
    assert (HL : Forall trimmed (done ++ [cur])) by (apply Forall_app; auto).
    assert (Er : str_join [c_sp] (done ++ [cur]) = render (Tok x false e :: ts')).
    { rewrite Ej, render_cons. reflexivity. }
    assert (Hone : Forall one_line (done ++ [cur])).
    { apply (Forall_join_inv _ [c_sp]). rewrite Er, render_cons. cbn [t_lead t_text lead_str app].
      inversion Ho as [|? ? O1 O2]; subst. apply Forall_app. split; [exact O1|]. clear -R O2.
      induction R as [|t t' r r' (E1 & _) R IH]; [constructor|]. cbn [map] in O2. inversion O2; subst.
      rewrite render_cons, E1. apply Forall_app. split; [destruct (t_lead t'); repeat constructor|].
      apply Forall_app. split; [assumption|apply IH; assumption]. }
    unfold joined. rewrite splitlines_join_ne; [|eapply Forall_impl; [|exact HL]; intros a Ha; apply ink_last_ne, Ha|exact Hone].
    rewrite <- Er. f_equal. clear -HL. induction HL as [|a l [H1 H2] HL IH]; [reflexivity|]. cbn [map].
    rewrite IH, (proj1 (ink_ends_strip a H1 H2)). reflexivity.
  - intros ts2 H H2. inversion H as [|y' a l1 l2 l3 e' z r1 r2 r3 A1 A2 A3 A4 A5 E1' E2 E3 E4]; subst. cbn [app] in *.
    assert (l2 = false) by (destruct l2; [symmetry; apply A2; reflexivity|reflexivity]). subst l2.
    inversion H2 as [|? ? [Ht2 Hh2] Hf2]; subst. cbn [t_text] in Ht2, Hh2.
    destruct (jr_rs w [] _ r ts' done cur J z r2 A5 A4 Hf2) as [_ B].
    unfold join. cbn [fold_left]. rewrite !S0, E1, B by assumption. reflexivity.
Qed.

(** * What the tokens of a reading are like *)

Lemma wp_Forall (P : str -> Prop) l ws : Forall P ws -> Forall (fun t => P (t_text t)) (wp l ws).
Proof.
  intros H. destruct H as [|w ws Hw H]; [constructor|]. cbn [wp]. constructor; [exact Hw|]. apply Forall_map. exact H.
Qed.

Lemma nobr_words_fine l s : nobr s -> Forall fine (wp l (words s)).
Proof.
  intros H. apply (wp_Forall (fun x => trimmed x /\ is_html_newline x = false)). apply Forall_forall. intros w Hw. split.
  - apply word_trimmed. assert (Q := words_word s). rewrite Forall_forall in Q. apply Q, Hw.
  - apply nobr_not_html. apply word_infix in Hw. destruct Hw as (a & b & ->). eapply nobr_infix, H.
Qed.

Lemma second_trimmed p t u r : fit p t u r -> trimmed (second_half u r).
Proof.
  intros H. unfold second_half. split.
  - assert (Q := f_un _ _ _ _ H). destruct (lstrip u) as [|c v] eqn:E.
    + exfalso. apply ink_ne_blank in Q. destruct (lstrip_by_spec is_space u) as (w & Ew & Hw). fold (lstrip u) in Ew.
      rewrite E, app_nil_r in Ew. apply Q. rewrite Ew. apply ink_spaces, spaces_forallb, Hw.
    + exists c. eexists. split; [reflexivity|]. eapply lstrip_by_head. exact E.
  - apply ink_last_app. destruct r as [|c r _] using rev_ind; [exists [], c_rpar; auto|].
    exists (c_rpar :: r), c. split; [reflexivity|]. assert (Q := f_rs _ _ _ _ H). apply Forall_app in Q. destruct Q as [_ Q].
    apply (Forall_inv Q).
Qed.

Lemma lk_fine o s ts : lk o s ts -> Forall fine ts.
Proof.
  intros H. induction H as [o g H1 H2 H3 H4|o g p t u r s ts H1 H2 H3 H4 H5 H6 IH].
  - apply nobr_words_fine, H2.
  - apply Forall_app. split; [apply nobr_words_fine, H2|]. apply Forall_app. split; [eapply nobr_words_fine, fit_first, H4|].
    constructor; [|exact IH]. split; cbn [t_text]; [eapply second_trimmed, H4|eapply fit_second, H4].
Qed.

Lemma lk_Forall (P : char -> Prop) o s ts : lk o s ts -> Forall P s -> Forall (fun t => Forall P (t_text t)) ts.
Proof.
  intros H. induction H as [o g H1 H2 H3 H4|o g p t u r s ts H1 H2 H3 H4 H5 H6 IH]; intros Hp.
  - apply wp_Forall, words_Forall, Hp.
  - unfold link_str in Hp. rewrite !Forall_app in Hp. destruct Hp as (P1 & (P2 & P3 & P4 & P5 & P6 & P7 & P8) & P9).
    apply Forall_app. split; [apply wp_Forall, words_Forall, P1|]. apply Forall_app. split.
    + apply wp_Forall, words_Forall. unfold first_half. rewrite !Forall_app. repeat split; auto. apply Forall_rstrip_by, P4.
    + constructor; [|apply IH, P9]. cbn [t_text]. unfold second_half. rewrite !Forall_app. repeat split; auto. apply Forall_lstrip_by, P6.
Qed.

Lemma ink_render_wp l s : ink (render (wp l (words s))) = ink s.
Proof.
  destruct (words s) as [|w ws] eqn:E.
  - rewrite (ink_words s), E. reflexivity.
  - rewrite <- E, render_wp by (rewrite E; discriminate). rewrite ink_app. replace (ink (lead_str l)) with (@nil char) by (destruct l; reflexivity).
    cbn [app]. rewrite !ink_words, words_of_words by apply words_word. reflexivity.
Qed.

Lemma ink_lstrip s : ink (lstrip s) = ink s.
Proof.
  destruct (lstrip_by_spec is_space s) as (w & E & Hw). fold (lstrip s) in E. rewrite E at 2.
  apply spaces_forallb in Hw. rewrite ink_app, (ink_spaces w Hw). reflexivity.
Qed.

Lemma lk_ink o s ts : lk o s ts -> ink (render ts) = ink s.
Proof.
  intros H. induction H as [o g H1 H2 H3 H4|o g p t u r s ts H1 H2 H3 H4 H5 H6 IH].
  - apply ink_render_wp.
  - rewrite !render_app, render_cons. cbn [t_lead t_text lead_str app]. unfold link_str. rewrite !ink_app, !ink_render_wp, IH.
    unfold first_half, second_half. rewrite !ink_app, ink_rstrip, ink_lstrip. rewrite <- !app_assoc. reflexivity.
Qed.

Lemma raise_ink ts ts' : Forall2 raise ts ts' -> ink (render ts') = ink (render ts).
Proof.
  intros H. induction H as [|t t' ts ts' (E1 & _) H IH]; [reflexivity|]. rewrite !render_cons, !ink_app, IH, E1.
  destruct (t_lead t), (t_lead t'); reflexivity.
Qed.

Lemma raise_fine ts ts' : Forall2 raise ts ts' -> Forall fine ts -> Forall fine ts'.
Proof.
  intros H. induction H as [|t t' ts ts' (E1 & _) H IH]; intros F; [constructor|]. inversion F; subst.
  constructor; [unfold fine; rewrite E1; assumption|apply IH; assumption].
Qed.

Lemma raise_Forall (P : char -> Prop) ts ts' : Forall2 raise ts ts' -> P c_sp -> Forall (fun t => Forall P (t_text t)) ts -> Forall P (render ts').
Proof.
  intros H Hp. induction H as [|t t' ts ts' (E1 & _) H IH]; intros F; [constructor|]. inversion F; subst.
  rewrite render_cons, E1. apply Forall_app. split; [destruct (t_lead t'); repeat constructor; exact Hp|].
  apply Forall_app. split; [assumption|apply IH; assumption].
Qed.

Lemma fine_last ts : Forall fine ts -> ts <> [] -> ink_last (render ts).
Proof.
  intros H Hn. destruct ts as [|t ts _] using rev_ind; [congruence|]. apply Forall_app in H. destruct H as [_ H]. apply Forall_inv in H.
  rewrite render_app, render_cons. apply ink_last_app, ink_last_app. rewrite app_nil_r. apply H.
Qed.

(** ** The first token *)

Lemma lk_first l s t r : lk (Some l) s (t :: r) -> exists w y v, t_text t = w ++ y /\ s = w ++ v /\ w <> []
  /\ (w = [c_dot] -> y = [] /\ forall v', v <> c_dot :: v').
Proof.
  intros H. remember (Some l) as o eqn:Eo. remember (t :: r) as ts eqn:E.
  assert (W : forall g v0, ink_first g -> (g = [c_dot] -> forall v', v0 <> c_dot :: v') -> forall ws w0, words g = w0 :: ws -> exists w y v, w0 = w ++ y /\ g ++ v0 = w ++ v /\ w <> []
     /\ (w = [c_dot] -> y = [] /\ forall v', v <> c_dot :: v')).
  { intros g v0 Hg Hv ws w0 E0. destruct (words_head g Hg) as (w & v & Eg & Ew & [Hw _] & Hv0). rewrite Ew in E0. injection E0 as -> _.
    exists w0, [], (v ++ v0). rewrite app_nil_r, app_assoc. split; [reflexivity|]. split; [congruence|]. split; [exact Hw|].
    intros ->. split; [reflexivity|]. destruct Hv0 as [->|(c & v' & -> & Hc)].
    - cbn [app]. apply Hv. rewrite Eg. reflexivity.
    - intros z Ez. injection Ez as -> _. discriminate. }
  destruct H as [o g H1 H2 H3 H4|o g p q u r0 s ts H1 H2 H3 H4 H5 H6]; subst o.
  - destruct H3 as [H3| ->]; [|discriminate]. destruct (words g) as [|w0 ws] eqn:Ew; [discriminate|]. cbn [wp] in E. injection E as <- _. cbn [t_text].
    destruct (W g [] H3 ltac:(discriminate) ws w0 Ew) as (w & y & v & A). rewrite app_nil_r in A. eauto.
  - destruct (blank g) eqn:Eb.
    + assert (g = []).
      { destruct g as [|d g]; [reflexivity|]. destruct H5 as (e & a & E5 & He). injection E5 as <- _. apply ink_blank in Eb.
        unfold ink in Eb. cbn [filter] in Eb. unfold not_space in Eb. rewrite He in Eb. discriminate. }
      subst g. cbn [words wp app] in E.
      destruct (words_prefix (p ++ [c_lbr]) (rstrip q ++ [c_rbr; c_lpar])) as (w & ws & Ew).
      { destruct p; discriminate. }
      { apply Forall_app. split; [apply H4|repeat constructor]. }
      unfold first_half in E. rewrite <- app_assoc in Ew. rewrite Ew in E. cbn [wp app] in E. injection E as <- _. cbn [t_text].
      exists (p ++ [c_lbr]), w, (q ++ [c_rbr; c_lpar] ++ u ++ [c_rpar] ++ r0 ++ s).
      split; [reflexivity|]. split; [unfold link_str; eqapp|]. split; [destruct p; discriminate|].
      intros Ep. destruct p as [|? [|? ?]]; discriminate.
    + assert (Wn := words_ne g Eb). destruct (words g) as [|w0 ws] eqn:Ew; [congruence|]. cbn [wp app] in E. injection E as <- _. cbn [t_text].
      apply (W g _) with (ws := ws); [| |exact Ew].
      * destruct g as [|d g]; [discriminate|]. destruct H5 as (e & a & E5 & He). injection E5 as <- _. exists d, g. auto.
      * intros ->. destruct H3 as [H3|(g' & d & E3 & Hd)]; [discriminate|]. destruct g' as [|? [|? ?]]; try discriminate. injection E3 as <-.
        destruct Hd as [?|[?|?]]; discriminate.
Qed.

Lemma lk_prefix l s ts z v : lk (Some l) s ts -> s = z ++ v -> z <> [] -> spaceless z -> off [c_lbr; c_rbr; c_rpar] z ->
  exists y l' e r, ts = Tok (z ++ y) l' e :: r.
Proof.
  intros H E Hn Hz Ho. remember (Some l) as o eqn:Eo.
  destruct H as [o g H1 H2 H3 H4|o g p q u r0 s ts H1 H2 H3 H4 H5 H6]; subst o.
  - subst g. destruct (words_prefix z v Hn Hz) as (w & ws & ->). cbn [wp]. eauto.
  - assert (ZL : forall c, In c z -> is_space c = false /\ c <> c_lbr /\ c <> c_rpar /\ c <> c_rbr).
    { unfold spaceless, off in Hz, Ho. rewrite Forall_forall in Hz, Ho. intros c Hc. split; [auto|]. specialize (Ho c Hc). cbn [In] in Ho.
      repeat split; intros ->; tauto. }
    destruct g as [|d g _] using rev_ind.
    + cbn [app words wp] in *. unfold link_str in E. rewrite <- app_assoc in E.
      symmetry in E. apply app_first in E. destruct E as [(a & -> & _)|(e & a & -> & E)].
      * destruct (words_prefix z (a ++ [c_lbr] ++ rstrip q ++ [c_rbr; c_lpar]) Hn Hz) as (w & ws & Ew).
        unfold first_half. rewrite <- app_assoc. rewrite Ew. cbn [wp app]. eauto.
      * exfalso. injection E as <- _. destruct (ZL c_lbr) as (_ & K & _); [apply in_app_iff; right; left; reflexivity|congruence].
    + assert (Hd : d = c_sp \/ d = c_rpar \/ d = c_rbr).
      { destruct H3 as [H3|(g' & d' & E3 & Hd)]; [destruct g; discriminate|]. apply app_inj_tail in E3. destruct E3 as [_ ->]. exact Hd. }
      rewrite <- app_assoc in E. symmetry in E.
      apply app_first in E. destruct E as [(a & -> & _)|(e & a & -> & E)].
      * destruct (words_prefix z (a ++ [d]) Hn Hz) as (w & ws & Ew). rewrite <- app_assoc. rewrite Ew. cbn [wp app]. eauto.
      * exfalso. injection E as <- _. destruct (ZL d) as (K1 & _ & K2 & K3); [apply in_app_iff; right; left; reflexivity|].
        destruct Hd as [->|[->| ->]]; [discriminate|congruence|congruence].
Qed.

Lemma lk_head_lead l s t r : lk (Some l) s (t :: r) -> t_lead t = l.
Proof.
  intros H. remember (Some l) as o eqn:Eo. remember (t :: r) as ts eqn:E.
  destruct H as [o g H1 H2 H3 H4|o g p q u r0 s ts H1 H2 H3 H4 H5 H6]; subst o; cbn [lead_in] in E.
  - destruct (words g); [discriminate|]. cbn [wp] in E. injection E as <- _. reflexivity.
  - unfold lead_ln in E. destruct (blank g) eqn:Eb.
    + rewrite words_blank in E by exact Eb. cbn [wp app] in E.
      destruct (words (first_half p q)) as [|w ws] eqn:Ew.
      * exfalso. apply (words_ne (first_half p q)); [|exact Ew]. apply ink_ne_blank. unfold first_half. rewrite !ink_app.
        intros E0. apply app_eq_nil in E0. destruct E0 as [_ E0]. discriminate.
      * cbn [wp app] in E. injection E as <- _. reflexivity.
    + assert (W := words_ne g Eb). destruct (words g); [congruence|]. cbn [wp app] in E. injection E as <- _. reflexivity.
Qed.

(** * Readings with inline code *)

Lemma lks_app_inv a b ts : lks (a ++ b) ts -> exists ta tb, ts = ta ++ tb /\ lks a ta /\ lks b tb.
Proof.
  revert ts. induction a as [|t a IH]; intros ts H; [exists [], ts; split; [reflexivity|split; [constructor|exact H]]|].
  cbn [app] in H. inversion H as [|? ? rs0 He Hr E1 E2|? x ? rs0 He Hl Hr E1 E2]; subst; destruct (IH _ Hr) as (ta & tb & -> & A & B).
  - exists (t :: ta), tb. split; [reflexivity|]. split; [apply lks_lit; assumption|exact B].
  - exists (x ++ ta), tb. split; [apply app_assoc|]. split; [apply lks_read; assumption|exact B].
Qed.

Lemma lks_app a b ta tb : lks a ta -> lks b tb -> lks (a ++ b) (ta ++ tb).
Proof.
  intros H Hb. induction H as [|t r rs0 He H IH|t x r rs0 He Hl H IH]; [exact Hb| |].
  - cbn [app]. apply lks_lit; assumption.
  - cbn [app]. rewrite <- app_assoc. apply lks_read; assumption.
Qed.

Lemma lks_one x l ts : lks [Tok x l true] ts -> lk (Some l) x ts.
Proof.
  intros H. inversion H as [|? ? rs0 He Hr E1 E2|? y ? rs0 He Hl Hr E1 E2]; subst; [discriminate|]. inversion Hr; subst.
  rewrite app_nil_r. exact Hl.
Qed.

Lemma one_lks x l ts : lk (Some l) x ts -> lks [Tok x l true] ts.
Proof. intros H. rewrite <- (app_nil_r ts). apply lks_read; [reflexivity|exact H|constructor]. Qed.

Lemma lit_lks x l r ts : lks (Tok x l false :: r) ts -> exists ts', ts = Tok x l false :: ts' /\ lks r ts'.
Proof. intros H. inversion H as [|? ? rs0 He Hr E1 E2|? y ? rs0 He Hl Hr E1 E2]; subst; [eauto|discriminate]. Qed.

Lemma lks_fine cts ts : lks cts ts -> Forall (fun t => t_eval t = false -> fine t) cts -> Forall fine ts.
Proof.
  intros H. induction H as [|t r rs0 He H IH|t x r rs0 He Hl H IH]; intros F; [constructor| |]; inversion F; subst.
  - constructor; auto.
  - apply Forall_app. split; [eapply lk_fine, Hl|auto].
Qed.

Lemma gap_lit st g : Forall (fun t => t_eval t = false -> fine t) (gap_toks st g).
Proof. unfold gap_toks. destruct (blank g); constructor; [discriminate|constructor]. Qed.

Lemma rc_lit st s cts : rc st s cts -> Forall (fun t => t_eval t = false -> fine t) cts.
Proof.
  intros H. induction H as [st g Hg|st g k x j dot rest ts Hg Hk Hx Hj Hc Hr Hd H IH|st g k b Hg Hk Hb].
  - apply gap_lit.
  - apply Forall_app. split; [apply gap_lit|]. constructor; [|exact IH]. intros _. split; cbn [t_text].
    + split.
      * rewrite <- !app_assoc. apply ink_first_rep, Hk.
      * destruct Hd as [(-> & _)|(-> & _)].
        -- eexists. exists c_dot. split; reflexivity.
        -- rewrite app_nil_r. destruct j as [|j]; [lia|]. rewrite rep_snoc.
           exists (rep c_bt k ++ x ++ rep c_bt j), c_bt. rewrite <- !app_assoc. auto.
    + destruct k as [|k]; [lia|]. reflexivity.
  - apply Forall_app. split; [apply gap_lit|]. constructor; [discriminate|constructor].
Qed.

Lemma rs_glue x a a2 a' b b2 b' : rs x a a2 a' -> rs [] b b2 b' -> rs x (a ++ b) (a2 ++ b2) (a' ++ b').
Proof. intros H Hb. induction H; [exact Hb|]. cbn [app]. apply rs_cons; assumption. Qed.

Lemma mid_facts l J e : trimmed J ->
  let g := lead_str l ++ J ++ lead_str e in
  blank g = false /\ strip g = J /\ startswith [c_sp] g = l /\ endswith [c_sp] g = e.
Proof.
  intros [F L] g. destruct (ink_ends_strip _ F L) as [Es Eb].
  split; [|split; [|split]].
  - apply ink_ne_blank. unfold g. rewrite !ink_app. apply ink_ne_blank in Eb.
    intros E. apply app_eq_nil in E. destruct E as [_ E]. apply app_eq_nil in E. tauto.
  - unfold g, strip, lstrip. assert (E : lstrip_by is_space (lead_str l ++ J ++ lead_str e) = J ++ lead_str e).
    { destruct F as (c & a & -> & Hc). destruct l; cbn [lead_str app lstrip_by]; rewrite ?Hc; reflexivity. }
    rewrite E. unfold rstrip. rewrite rstrip_by_app by (destruct e; reflexivity).
    destruct L as (a & c & -> & Hc). apply rstrip_by_snoc. exact Hc.
  - unfold g. destruct l; [reflexivity|]. destruct F as (c & a & -> & Hc). cbn [lead_str app startswith].
    destruct (N.eqb_spec c_sp c) as [<-|]; [discriminate|reflexivity].
  - unfold g. destruct e; cbn [lead_str].
    + rewrite !app_assoc. apply endswith_sp.
    + rewrite app_nil_r. apply endswith_sp_ink, ink_last_app, L.
Qed.

Lemma trimmed_ink s : trimmed s -> ink s <> [].
Proof.
  intros [(c & a & -> & Hc) _]. unfold ink. cbn [filter]. unfold not_space. rewrite Hc. discriminate.
Qed.

(** A token that is read again. *)
Lemma tok_reread l s ts ts' : lk (Some l) s ts -> spacing s -> trimmed s -> Forall2 raise ts ts' ->
  exists l' s2 ts2, lk (Some l') s2 ts2 /\ rs [] ts ts2 ts' /\ render ts' = lead_str l' ++ s2 /\ trimmed s2
    /\ exists t r, ts' = t :: r /\ t_lead t = l'.
Proof.
  intros H Hs Ht HR. destruct (lk_raise _ _ _ H Hs ts' HR) as (o' & x & s2 & ts2 & L & Q & _ & _ & [->|(-> & l' & -> & E & _)]).
  { exfalso. apply trimmed_ink in Ht. apply Ht. reflexivity. }
  exists l', s2, ts2. split; [exact L|]. split; [exact Q|]. split; [exact E|].
  assert (HF := raise_fine _ _ HR (lk_fine _ _ _ H)).
  assert (Hi : ink (render ts') = ink s) by (rewrite (raise_ink _ _ HR); eapply lk_ink, H).
  assert (Hn : ts' <> []).
  { intros ->. apply trimmed_ink in Ht. apply Ht. rewrite <- Hi. reflexivity. }
  assert (Hs2 : ink_first s2).
  { remember (Some l') as o eqn:Eo. destruct L as [o g H1 H2 H3 H4|o g p q u r0 s2 ts2 H1 H2 H3 H4 H5 H6]; subst o; [|exact H5].
    destruct H3 as [H3| ->]; [exact H3|]. exfalso. apply trimmed_ink in Ht. apply Ht. rewrite <- Hi, E. destruct l'; reflexivity. }
  assert (Hl2 : ink_last s2).
  { apply (ink_last_suffix (lead_str l')); [destruct Hs2 as (c & a & -> & _); discriminate|]. rewrite <- E. apply fine_last; assumption. }
  split; [split; assumption|].
  destruct ts' as [|t r]; [congruence|]. exists t, r. split; [reflexivity|].
  inversion HF as [|? ? [[(c & a & Ea & Hc) _] _] _]; subst. destruct Hs2 as (d & b & Eb & Hd). rewrite render_cons, Ea, Eb in E.
  destruct (t_lead t), l'; auto; injection E as E _; subst; discriminate.
Qed.

Lemma gap_reread st g ts ts' e : spacing g -> no_tick g -> lks (gap_toks st g) ts ->
  Forall2 raise ts ts' -> (st = true -> first_flush ts') -> (st = true -> ts' = [] -> e = false) ->
  let g' := render ts' ++ lead_str e in
  no_tick g' /\ span_lead st g' = e /\ exists ts2, lks (gap_toks st g') ts2 /\ rs [] ts ts2 ts'.
Proof.
  intros Hs Ht HL HR Hf He g'. unfold gap_toks in HL. destruct (blank g) eqn:Eb.
  - inversion HL; subst. inversion HR; subst. unfold g'. change (render []) with (@nil char). cbn [app].
    split; [apply no_tick_lead|]. unfold gap_toks, span_lead.
    assert (Eb' : blank (lead_str e) = true) by (destruct e; reflexivity). rewrite Eb', andb_true_r. split.
    + destruct st; [symmetry; apply He; reflexivity|destruct e; reflexivity].
    + exists []. split; constructor.
  - apply lks_one in HL.
    destruct (tok_reread _ _ _ _ HL (Forall_strip _ _ Hs) (strip_ends g Eb) HR) as (l' & s2 & ts2 & L & Q & E & T & t & r & Et & El).
    destruct (mid_facts l' s2 e T) as (F1 & F2 & F3 & F4).
    assert (G : g' = lead_str l' ++ s2 ++ lead_str e) by (unfold g'; rewrite E, <- app_assoc; reflexivity).
    split; [|split].
    + unfold g'. apply Forall_app. split; [|apply no_tick_lead].
      apply (raise_Forall (fun c => c <> c_bt) _ _ HR); [discriminate|]. eapply lk_Forall; [exact HL|]. apply Forall_strip, Ht.
    + unfold span_lead. rewrite G, F1, andb_false_r. exact F4.
    + exists ts2. split; [|exact Q]. unfold gap_toks. rewrite G, F1, F2, F3. apply one_lks. destruct st; [|exact L].
      assert (l' = false) as <-; [|exact L]. rewrite <- El. apply (Hf eq_refl t r Et).
Qed.

(** ** The first token of the rest *)

Definition begins (x s : str) : Prop := exists w y v, x = w ++ y /\ s = w ++ v /\ w <> []
  /\ (w = [c_dot] -> y = [] /\ forall v', v <> c_dot :: v').

Lemma begins_app x s z : begins x s -> (forall z', z <> c_dot :: z') -> begins x (s ++ z).
Proof.
  intros (w & y & v & -> & -> & Hw & H) Hz. exists w, y, (v ++ z). split; [reflexivity|]. split; [rewrite <- app_assoc; reflexivity|].
  split; [exact Hw|]. intros E. destruct (H E) as [H1 H2]. split; [exact H1|]. intros v' Ev. destruct v as [|c v]; [exact (Hz _ Ev)|].
  injection Ev as -> _. exact (H2 _ eq_refl).
Qed.

Lemma gap_begins g ta tb t r : spacing g -> blank g = false -> lks (gap_toks false g) ta -> ta ++ tb = t :: r ->
  t_lead t = false -> begins (t_text t) g.
Proof.
  intros Hs Eb HL E Hl. unfold gap_toks in HL. rewrite Eb in HL. apply lks_one in HL.
  destruct ta as [|t0 ta].
  { exfalso. apply lk_ink in HL. rewrite ink_strip in HL. apply ink_ne_blank in Eb. apply Eb. rewrite <- HL. reflexivity. }
  injection E as -> _. assert (El := lk_head_lead _ _ _ _ HL). rewrite Hl in El.
  destruct (lk_first _ _ _ _ HL) as (w & y & v & E1 & E2 & Hw & Hd).
  destruct (strip_spec g) as (a & b & Eg & Ha & Hb). 
  assert (a = []).
  { destruct a as [|c a]; [reflexivity|]. exfalso. rewrite Eg in Hs, El. apply Forall_inv in Hs. cbn [forallb] in Ha. apply andb_prop in Ha.
    destruct Ha as [Ha _]. rewrite (Hs Ha) in El. discriminate. }
  subst a. cbn [app] in Eg. rewrite Eg. apply begins_app; [exists w, y, v; auto|].
  intros z' ->. discriminate.
Qed.

Lemma rc_begins s cts t r : rc false s cts -> spacing s -> lks cts (t :: r) -> t_lead t = false -> begins (t_text t) s.
Proof.
  intros H Hs HL Hl. remember false as st eqn:Est.
  destruct H as [st g Hg|st g k x j dot rest ts Hg Hk Hx Hj Hc Hr Hd H|st g k b Hg Hk Hb]; subst st.
  - destruct (blank g) eqn:Eb; [unfold gap_toks in HL; rewrite Eb in HL; inversion HL|].
    eapply (gap_begins g (t :: r) []); eauto. apply app_nil_r.
  - apply lks_app_inv in HL. destruct HL as (ta & tb & E & L1 & L2). apply spacing_app in Hs. destruct Hs as [Hs _].
    destruct (blank g) eqn:Eb.
    + unfold gap_toks in L1. rewrite Eb in L1. inversion L1; subst. cbn [app] in E. subst tb. apply lit_lks in L2.
      destruct L2 as (ts' & E & _). injection E as -> _. cbn [t_lead t_text] in *. apply blank_flush in Hl; [|exact Hs|exact Eb]. subst g.
      destruct k as [|k]; [lia|]. exists ((rep c_bt (S k) ++ x ++ rep c_bt j) ++ dot), [], rest.
      split; [rewrite app_nil_r; reflexivity|]. split; [rewrite <- !app_assoc; reflexivity|]. split; discriminate.
    + apply begins_app; [eapply gap_begins; eauto|]. destruct k as [|k]; [lia|]. discriminate.
  - apply lks_app_inv in HL. destruct HL as (ta & tb & E & L1 & L2). apply spacing_app in Hs. destruct Hs as [Hs _].
    destruct (blank g) eqn:Eb.
    + unfold gap_toks in L1. rewrite Eb in L1. inversion L1; subst. cbn [app] in E. subst tb. apply lks_one in L2.
      assert (El := lk_head_lead _ _ _ _ L2). rewrite Hl in El. symmetry in El. apply blank_flush in El; [|exact Hs|exact Eb]. subst g.
      destruct (lk_first _ _ _ _ L2) as (w & y & v & E1 & E2 & Hw & _).
      destruct (rstrip_by_spec is_space b) as (b' & Eb' & _). fold (rstrip b) in Eb'.
      exists w, y, (v ++ b'). split; [exact E1|]. split; [cbn [app]; rewrite Eb' at 1; rewrite app_assoc, E2, <- app_assoc; reflexivity|].
      split; [exact Hw|]. intros ->. destruct k as [|k]; [lia|]. discriminate.
    + apply begins_app; [eapply gap_begins; eauto|]. destruct k as [|k]; [lia|]. discriminate.
Qed.

Lemma begins_dot x s : begins x s -> one_dot x = true -> one_dot s = true.
Proof.
  intros (w & y & v & -> & -> & Hw & H) Ho. destruct w as [|c [|d w]]; [congruence| |exact Ho].
  apply one_dot_spec in Ho. destruct Ho as (u & E & Hu). injection E as -> _. destruct (H eq_refl) as [-> Hv].
  apply one_dot_spec. exists v. auto.
Qed.

Lemma reread_first s cts ts ts' : rc false s cts -> spacing s -> lks cts ts -> Forall fine ts -> Forall2 raise ts ts' ->
  (forall x, render ts' = c_bt :: x -> exists y, s = c_bt :: y)
  /\ (forall x, render ts' = c_dot :: x -> exists y, s = c_dot :: y)
  /\ (one_dot (render ts') = true -> one_dot s = true).
Proof.
  intros H Hs HL HF HR. destruct ts' as [|t' r']; [split; [|split]; intros; discriminate|].
  inversion HR as [|t t2 r r2 (E1 & E2 & E3) Hr E4]; subst. rewrite render_cons.
  destruct (t_lead t') eqn:El'.
  { cbn [lead_str app]. split; [|split]; intros; discriminate. }
  destruct (t_lead t) eqn:El; [discriminate (E3 eq_refl)|].
  assert (B := rc_begins s cts t r H Hs HL El). rewrite E1. cbn [lead_str app].
  assert (B' := B). destruct B' as (w & y & v & Ew & Es & Hw & _). rewrite Ew. destruct w as [|c w]; [congruence|].
  split; [|split].
  - intros x E. injection E as -> _. rewrite Es. cbn. eauto.
  - intros x E. injection E as -> _. rewrite Es. cbn. eauto.
  - intros Hod. apply (begins_dot _ _ B). rewrite Ew. apply one_dot_spec in Hod. destruct Hod as (z & E & Hz). injection E as -> E.
    apply one_dot_spec. exists (w ++ y). split; [reflexivity|]. intros u' E'. apply (Hz (u' ++ render r')). rewrite <- E, E'. reflexivity.
Qed.

(** ** Reading again *)

Lemma rc_reread st s cts : rc st s cts -> spacing s -> forall ts ts', lks cts ts -> Forall2 raise ts ts' ->
  (st = true -> first_flush ts') ->
  exists cts' ts2, rc st (render ts') cts' /\ lks cts' ts2 /\ rs [] ts ts2 ts'.
Proof.
  intros H. induction H as [st g Hg|st g k x j dot rest cts Hg Hk Hx Hj Hc Hr Hd H IH|st g k b Hg Hk Hb];
    intros Hs ts ts' HL HR Hf.
  - destruct (gap_reread st g ts ts' false Hs Hg HL HR Hf) as (G1 & _ & ts2 & G2 & G3); [reflexivity|].
    cbn [lead_str] in *. rewrite app_nil_r in *. exists (gap_toks st (render ts')), ts2.
    split; [apply rc_end, G1|]. auto.
  - rewrite !spacing_app in Hs. destruct Hs as (S1 & _ & _ & S6).
    apply lks_app_inv in HL. destruct HL as (ta & tb & -> & L1 & L2). apply lit_lks in L2. destruct L2 as (tr & -> & L3).
    apply Forall2_app_inv_l in HR. destruct HR as (a' & b' & R1 & R2 & ->).
    inversion R2 as [|t t' r r' (E1 & E2 & E3) R3]; subst. destruct t' as [tx e ev]. cbn in E1, E2, E3. subst tx ev.
    destruct (gap_reread st g ta a' e S1 Hg L1 R1) as (G1 & G4 & ta2 & G2 & G3).
    { intros Est t r E. apply (Hf Est t (r ++ Tok ((rep c_bt k ++ x ++ rep c_bt j) ++ dot) e false :: r')). rewrite E. reflexivity. }
    { intros Est ->. apply (Hf Est _ _ eq_refl). }
    destruct (IH S6 tr r' L3 R3) as (cts' & tr2 & C1 & C2 & C3); [discriminate|].
    destruct (reread_first rest cts tr r' H S6 L3) as (F1 & F2 & F3); [eapply lks_fine; [exact L3|eapply rc_lit, H]|exact R3|].
    exists (gap_toks st (render a' ++ lead_str e)
            ++ Tok ((rep c_bt k ++ x ++ rep c_bt j) ++ dot) (span_lead st (render a' ++ lead_str e)) false :: cts').
    eexists. split; [|split].
    + rewrite render_app, render_cons. cbn [t_lead t_text].
      replace (render a' ++ lead_str e ++ ((rep c_bt k ++ x ++ rep c_bt j) ++ dot) ++ render r')
        with ((render a' ++ lead_str e) ++ (rep c_bt k ++ x ++ rep c_bt j) ++ dot ++ render r')
        by (rewrite <- !app_assoc; reflexivity).
      apply rc_span; auto.
      * destruct Hc as [Hc|Hc]; [left; exact Hc|right]. assert (Ets := rc_no_tick _ _ _ H Hc). subst cts.
        destruct (gap_reread false rest tr r' false S6 Hc L3 R3) as (K & _); try discriminate.
        cbn [lead_str] in K. rewrite app_nil_r in K. exact K.
      * intros s' E. destruct Hd as [(-> & Hd)|(-> & Hd)]; [discriminate|]. cbn [app] in *.
        destruct (F1 _ E) as (y & Ey). apply (Hr y). exact Ey.
      * destruct Hd as [(-> & Hd)|(-> & Hd)].
        -- left. split; [reflexivity|]. apply one_dot_spec. exists (render r'). split; [reflexivity|].
           intros u' E. destruct (F2 _ E) as (y & ->). discriminate.
        -- right. split; [reflexivity|]. destruct (one_dot (render r')) eqn:E; [|reflexivity].
           rewrite F3 in Hd by reflexivity. discriminate.
    + apply lks_app; [exact G2|]. apply lks_lit; [reflexivity|exact C2].
    + apply rs_glue; [exact G3|]. rewrite G4.
      set (X := (rep c_bt k ++ x ++ rep c_bt j) ++ dot) in *. rewrite <- (app_nil_r X) at 2. apply (rs_cons [] X); auto; try congruence.
      unfold X. destruct k as [|k]; [lia|]. discriminate.
  - rewrite !spacing_app in Hs. destruct Hs as (S1 & S2 & S3).
    apply lks_app_inv in HL. destruct HL as (ta & tb & -> & L1 & L2). apply lks_one in L2.
    apply Forall2_app_inv_l in HR. destruct HR as (a' & b' & R1 & R2 & ->).
    assert (Hz : spaceless (rep c_bt k)) by (clear; induction k; constructor; [reflexivity|exact IHk]).
    assert (Hzn : rep c_bt k <> []) by (destruct k; [lia|discriminate]).
    destruct (lk_prefix _ _ _ (rep c_bt k) (rstrip b) L2 eq_refl Hzn Hz) as (y & l0 & e0 & r0 & Etb).
    { clear. induction k; constructor; [cbn; intuition discriminate|exact IHk]. }
    assert (HT : trimmed (rep c_bt k ++ rstrip b)).
    { split; [apply ink_first_rep, Hk|apply ink_last_tick_rstrip, Hk]. }
    destruct (tok_reread _ _ _ b' L2) as (e & s2 & tb2 & L & Q & E & T & t & r & Et & El);
      [apply spacing_app; split; [exact S2|apply Forall_rstrip_by, S3]|exact HT|exact R2|].
    destruct (gap_reread st g ta a' e S1 Hg L1 R1) as (G1 & G4 & ta2 & G2 & G3).
    { intros Est t1 r1 E1. apply (Hf Est t1 (r1 ++ b')). rewrite E1. reflexivity. }
    { intros Est ->. rewrite <- El. apply (Hf Est t r). cbn [app]. exact Et. }
    assert (P : exists b2, s2 = rep c_bt k ++ b2).
    { rewrite Etb, Et in R2. inversion R2 as [|? ? ? ? (E1 & _) _]; subst. cbn [t_text] in E1.
      rewrite render_cons, E1 in E. apply app_inv_head in E. exists (y ++ render r). rewrite <- E, <- app_assoc. reflexivity. }
    destruct P as (b2 & ->).
    assert (N : no_tick b2).
    { assert (I : ink (rep c_bt k ++ b2) = ink (rep c_bt k ++ rstrip b)).
      { rewrite <- (lk_ink _ _ _ L2), <- (raise_ink _ _ R2), E, !ink_app. destruct e; reflexivity. }
      rewrite !ink_app, ink_rstrip in I. apply app_inv_head in I. unfold no_tick in *. rewrite Forall_forall in *. intros c Hc ->.
      apply (Hb c_bt); [|reflexivity]. assert (In c_bt (ink b)) as K by (rewrite <- I; apply filter_In; auto). apply filter_In in K. apply K. }
    exists (gap_toks st (render a' ++ lead_str e)
            ++ [Tok (rep c_bt k ++ rstrip b2) (span_lead st (render a' ++ lead_str e)) true]).
    exists (ta2 ++ tb2). split; [|split].
    + rewrite render_app, E, app_assoc. apply rc_open; auto.
    + apply lks_app; [exact G2|]. rewrite G4. apply one_lks.
      assert (Er : rep c_bt k ++ rstrip b2 = rep c_bt k ++ b2); [|rewrite Er; exact L].
      f_equal. destruct b2 as [|c b2 _] using rev_ind; [reflexivity|]. apply rstrip_by_snoc.
      destruct T as [_ (a & d & Ed & Hd)]. rewrite app_assoc in Ed. apply app_inj_tail in Ed. destruct Ed as [_ ->]. exact Hd.
    + apply rs_glue; assumption.
Qed.

(** * The tokens of a text with inline links *)

Lemma rep_Forall (P : char -> Prop) c k : P c -> Forall P (rep c k).
Proof. intros H. apply Forall_forall. intros x Hx. apply repeat_spec in Hx. subst x. exact H. Qed.

Lemma tick_not_bracket k : Forall not_bracket (rep c_bt k).
Proof. apply rep_Forall. unfold not_bracket. cbn. intuition discriminate. Qed.

Lemma piece_run a k b : 0 < k -> piece (a ++ rep c_bt k ++ b) -> piece a /\ piece b.
Proof.
  intros Hk H. destruct k as [|k]; [lia|]. rewrite rep_S in H. cbn [app] in H. apply piece_cut in H. destruct H as [H1 H2].
  split; [exact H1|]. apply piece_lead in H2; [exact H2|]. apply tick_not_bracket.
Qed.

Definition readable (t : tok) : Prop :=
  spacing (t_text t) /\ (t_eval t = true -> piece (t_text t) /\ nobr (t_text t) /\ ink_first (t_text t)).

Lemma gap_readable st g : spacing g -> piece g -> nobr g -> Forall readable (gap_toks st g).
Proof.
  intros H1 H2 H3. unfold gap_toks. destruct (blank g) eqn:Eb; [constructor|]. constructor; [|constructor].
  split; cbn [t_text]; [apply Forall_strip, H1|]. intros _. split; [apply piece_strip, H2|]. split; [apply nobr_strip, H3|apply strip_ends, Eb].
Qed.

Lemma rc_readable st s cts : rc st s cts -> spacing s -> piece s -> nobr s -> Forall readable cts.
Proof.
  intros H. induction H as [st g Hg|st g k x j dot rest ts Hg Hk Hx Hj Hc Hr Hd H IH|st g k b Hg Hk Hb]; intros HS HI HB.
  - apply gap_readable; assumption.
  - assert (HS' := HS). rewrite !spacing_app in HS'. destruct HS' as (S1 & (S2 & S3 & S4) & S5 & S6).
    assert (E : g ++ (rep c_bt k ++ x ++ rep c_bt j) ++ dot ++ rest = g ++ rep c_bt k ++ x ++ rep c_bt j ++ dot ++ rest) by eqapp.
    rewrite E in HI. destruct (piece_run _ _ _ Hk HI) as [I1 I2]. destruct (piece_run x j (dot ++ rest) Hj I2) as [_ I3].
    assert (I4 : piece rest).
    { apply piece_lead in I3; [exact I3|]. destruct Hd as [(-> & _)|(-> & _)]; repeat constructor. unfold not_bracket. cbn. intuition discriminate. }
    apply Forall_app. split; [apply gap_readable; auto; apply (nobr_infix [] g _ HB)|]. constructor.
    + split; cbn [t_text t_eval]; [|discriminate]. rewrite !spacing_app. auto.
    + apply IH; auto. apply (nobr_infix (g ++ (rep c_bt k ++ x ++ rep c_bt j) ++ dot) rest []).
      rewrite app_nil_r, <- !app_assoc. rewrite <- !app_assoc in HB. exact HB.
  - assert (HS' := HS). rewrite !spacing_app in HS'. destruct HS' as (S1 & S2 & S3). destruct (piece_run _ _ _ Hk HI) as [I1 I2].
    apply Forall_app. split; [apply gap_readable; auto; apply (nobr_infix [] g _ HB)|]. constructor; [|constructor].
    split; cbn [t_text t_eval].
    + apply spacing_app. split; [exact S2|apply Forall_rstrip_by, S3].
    + intros _. split; [|split].
      * apply piece_lead; [apply tick_not_bracket|]. apply piece_rstrip, I2.
      * destruct (rstrip_by_spec is_space b) as (b' & Eb & _). fold (rstrip b) in Eb. rewrite Eb in HB.
        apply (nobr_infix g (rep c_bt k ++ rstrip b) b'). rewrite <- app_assoc. exact HB.
      * apply ink_first_rep, Hk.
Qed.

Lemma gok_link_matches q s : gok q s -> link_matches s = [].
Proof. intros H. apply links_scan; [eapply scan_end, url_none, H|eapply gok_ref, H]. Qed.

Lemma readable_lks cts r : Forall readable cts -> split_pass link_split cts = Ok r -> exists ts, lks cts ts.
Proof.
  intros H. revert r. induction H as [|t cts [H1 H2] H IH]; intros r E; [exists []; constructor|].
  rewrite split_pass_cons in E. apply bind_ok in E. destruct E as (a & Ea & E). apply bind_ok in E. destruct E as (b & Eb & _).
  destruct (IH b Eb) as (ts & L). destruct (t_eval t) eqn:Ev; [|exists (t :: ts); apply lks_lit; assumption].
  destruct (H2 eq_refl) as (I1 & I2 & I3).
  destruct (lk_exists (t_text t) (t_lead t) I1 I2 H1 I3) as [(ts0 & L0)|(O1 & O2)];
    [exists (ts0 ++ ts); apply lks_read; assumption|].
  exfalso. unfold link_split in Ea. rewrite (gok_link_matches _ _ O1) in Ea. cbn [foldM bind skipn] in Ea. unfold split_tail in Ea.
  rewrite O2 in Ea. discriminate.
Qed.

Lemma wrap_tokens_lks text ts : piece (joined text) -> nobr (joined text) -> spacing (joined text) -> wrap_tokens text = Ok ts ->
  exists cts, rc true (joined text) cts /\ lks cts ts.
Proof.
  intros HI HB HS E. destruct (rc_exists (joined text) true) as (cts & Hrc). exists cts. split; [exact Hrc|].
  assert (HR := rc_readable _ _ _ Hrc HS HI HB). unfold wrap_tokens in E. rewrite split_pass_one in E.
  apply bind_ok in E. destruct E as (t1 & E1 & E).
  assert (E1' : t1 = cts).
  { destruct (one_dot (joined text)) eqn:Ed; [|rewrite (code_split_rc _ _ Hrc) in E1 by auto; congruence].
    destruct (no_tick_dec (joined text)) as [Hn|Hn]; [|rewrite (code_split_rc _ _ Hrc) in E1 by auto; congruence].
    exfalso. unfold code_split in E1. unfold INLINE_CODE_MARKER_REGEX in E1.
    rewrite (finditer_ticks_eq (joined text) []) in E1 by (constructor; exact Hn).
    cbn [fold_left nilb negb andb skipn] in E1. unfold split_tail in E1. rewrite Ed in E1. discriminate. }
  subst t1. assert (E' := E). apply bind_ok in E'. destruct E' as (t2 & E2 & _).
  destruct (readable_lks cts t2 HR E2) as (ts0 & L).
  rewrite (lks_sound _ _ L) in E; [injection E as ->; exact L|]. eapply Forall_impl; [|exact HR]. intros t [Ht _]. exact Ht.
Qed.

Lemma lks_Forall (P : char -> Prop) cts ts : lks cts ts -> Forall (fun t => Forall P (t_text t)) cts ->
  Forall (fun t => Forall P (t_text t)) ts.
Proof.
  intros H. induction H as [|t r rs0 He H IH|t x r rs0 He Hl H IH]; intros F; [constructor| |]; inversion F; subst.
  - constructor; auto.
  - apply Forall_app. split; [eapply lk_Forall; eassumption|auto].
Qed.

Lemma gap_spacing st g : spacing g -> Forall (fun t => spacing (t_text t)) (gap_toks st g).
Proof. intros H. unfold gap_toks. destruct (blank g); constructor; [apply Forall_strip, H|constructor]. Qed.

Lemma rc_spacing st s cts : rc st s cts -> spacing s -> Forall (fun t => spacing (t_text t)) cts.
Proof.
  intros H. induction H as [st g Hg|st g k x j dot rest ts Hg Hk Hx Hj Hc Hr Hd H IH|st g k b Hg Hk Hb]; intros HS.
  - apply gap_spacing, HS.
  - rewrite !spacing_app in HS. destruct HS as (S1 & S2 & S5 & S6). apply Forall_app. split; [apply gap_spacing, S1|].
    constructor; [|apply IH, S6]. cbn [t_text]. rewrite !spacing_app. tauto.
  - rewrite !spacing_app in HS. destruct HS as (S1 & S2 & S3). apply Forall_app. split; [apply gap_spacing, S1|].
    constructor; [|constructor]. cbn [t_text]. apply spacing_app. split; [exact S2|apply Forall_rstrip_by, S3].
Qed.

Lemma gap_lks_flush g ta tb t r : lks (gap_toks true g) ta -> blank g = false -> ta ++ tb = t :: r -> t_lead t = false.
Proof.
  intros HL Eb E. unfold gap_toks in HL. rewrite Eb in HL. apply lks_one in HL. destruct ta as [|t0 ta].
  { exfalso. apply lk_ink in HL. rewrite ink_strip in HL. apply ink_ne_blank in Eb. apply Eb. rewrite <- HL. reflexivity. }
  injection E as -> _. eapply lk_head_lead, HL.
Qed.

Lemma rc_lks_flush s cts ts : rc true s cts -> lks cts ts -> first_flush ts.
Proof.
  intros H HL t r E. subst ts. remember true as st eqn:Est.
  destruct H as [st g Hg|st g k x j dot rest ts Hg Hk Hx Hj Hc Hr Hd H|st g k b Hg Hk Hb]; subst st.
  - destruct (blank g) eqn:Eb; [unfold gap_toks in HL; rewrite Eb in HL; inversion HL|].
    eapply (gap_lks_flush g (t :: r) []); eauto. apply app_nil_r.
  - apply lks_app_inv in HL. destruct HL as (ta & tb & E & L1 & L2). destruct (blank g) eqn:Eb; [|eapply gap_lks_flush; eauto].
    unfold gap_toks in L1. rewrite Eb in L1. inversion L1; subst. cbn [app] in E. subst tb. apply lit_lks in L2.
    destruct L2 as (ts' & E & _). injection E as -> _. cbn [t_lead]. unfold span_lead. rewrite Eb. reflexivity.
  - apply lks_app_inv in HL. destruct HL as (ta & tb & E & L1 & L2). destruct (blank g) eqn:Eb; [|eapply gap_lks_flush; eauto].
    unfold gap_toks in L1. rewrite Eb in L1. inversion L1; subst. cbn [app] in E. subst tb. apply lks_one in L2.
    rewrite (lk_head_lead _ _ _ _ L2). unfold span_lead. rewrite Eb. reflexivity.
Qed.

Lemma rc_lks_tick st s cts ts ts' : rc st s cts -> lks cts ts -> Forall2 raise ts ts' -> no_tick (render ts') -> no_tick s.
Proof.
  intros H HL HR HN.
  assert (G : forall a t b, ts = a ++ t :: b -> no_tick (t_text t)).
  { intros a t b ->. apply Forall2_app_inv_l in HR. destruct HR as (a' & b' & _ & R & ->). inversion R as [|? t' ? ? (E1 & _) _]; subst.
    rewrite render_app, render_cons, E1 in HN. unfold no_tick in *. rewrite !Forall_app in HN. tauto. }
  destruct H as [st g Hg|st g k x j dot rest cts Hg Hk Hx Hj Hc Hr Hd H|st g k b Hg Hk Hb]; [exact Hg| |]; exfalso.
  - apply lks_app_inv in HL. destruct HL as (ta & tb & -> & L1 & L2). apply lit_lks in L2. destruct L2 as (tr & -> & _).
    specialize (G ta _ tr eq_refl). cbn [t_text] in G. destruct k as [|k]; [lia|]. apply (Forall_inv G). reflexivity.
  - apply lks_app_inv in HL. destruct HL as (ta & tb & -> & L1 & L2). apply lks_one in L2.
    destruct (lk_prefix _ _ _ (rep c_bt k) (rstrip b) L2 eq_refl) as (y & l0 & e0 & r0 & ->).
    { destruct k; [lia|discriminate]. }
    { apply rep_Forall. reflexivity. }
    { apply rep_Forall. cbn. intuition discriminate. }
    specialize (G ta _ r0 eq_refl). cbn [t_text] in G. destruct k as [|k]; [lia|]. apply (Forall_inv G). reflexivity.
Qed.

(** A text that does not begin with a lone full stop does not begin with one afterwards. *)
Lemma dot_reread s cts ts ts' : rc true s cts -> lks cts ts -> Forall2 raise ts ts' -> first_flush ts' ->
  ink_first s \/ s = [] -> one_dot s = false \/ ~ no_tick s -> one_dot (render ts') = false \/ ~ no_tick (render ts').
Proof.
  intros H HL HR Hf Hs Hd. destruct (no_tick_dec (render ts')) as [Hn|Hn]; [left|right; exact Hn].
  assert (Hns := rc_lks_tick _ _ _ _ _ H HL HR Hn). destruct Hd as [Hd|Hd]; [|contradiction].
  assert (E := rc_no_tick _ _ _ H Hns). subst cts. unfold gap_toks in HL. destruct (blank s) eqn:Eb.
  { inversion HL; subst. inversion HR; subst. reflexivity. }
  apply lks_one in HL. destruct ts' as [|t' r']; [reflexivity|]. inversion HR as [|t ? r ? (E1 & _) _]; subst.
  destruct (lk_first _ _ _ _ HL) as (w & y & v & Ew & Es & Hw & Hwd).
  assert (B : begins (t_text t) s).
  { destruct Hs as [(c & a & -> & Hc)| ->]; [|discriminate]. destruct (strip_spec (c :: a)) as (x & z & Eg & Ha & Hb).
    assert (x = []).
    { destruct x as [|d x]; [reflexivity|]. cbn [app] in Eg. injection Eg as <- _. cbn [forallb] in Ha. rewrite Hc in Ha. discriminate. }
    subst x. cbn [app] in Eg. rewrite Eg. apply begins_app; [exists w, y, v; auto|]. intros z' ->. discriminate. }
  rewrite render_cons, E1, (Hf t' r' eq_refl). cbn [lead_str app].
  destruct (one_dot (t_text t ++ render r')) eqn:Eo; [|reflexivity]. rewrite <- Hd. symmetry. apply (begins_dot _ _ B).
  rewrite Ew in *. destruct w as [|c w]; [congruence|]. apply one_dot_spec in Eo. destruct Eo as (z & E & Hz). injection E as -> E.
  apply one_dot_spec. exists (w ++ y). split; [reflexivity|]. intros u' E'. apply (Hz (u' ++ render r')). rewrite <- E, E'. reflexivity.
Qed.

(** * Whitespace does not matter to links *)

Lemma good_spaced q : good (spaced_out q) <-> good q.
Proof. destruct q; reflexivity. Qed.

Lemma good_same_words s s' : words s = words s' -> good (run Out s) -> good (run Out s').
Proof.
  intros E H. assert (A := fold_onesp step spaced_out step_space spaced_twice s' Out).
  assert (B := fold_onesp step spaced_out step_space spaced_twice s Out). unfold onesp in A, B. rewrite <- E, <- B in A.
  apply good_spaced. unfold run. cbn [spaced_out] in A. rewrite A. apply good_spaced, H.
Qed.

(** * Wrapping twice *)

Lemma first_line_joined text : (forall l ls, splitlines text = l :: ls -> blank l = false) -> ink_first (joined text) \/ joined text = [].
Proof.
  intros H. unfold joined. destruct (splitlines text) as [|l ls]; [right; reflexivity|left]. specialize (H l ls eq_refl).
  destruct (strip_ends l H) as [(c & a & E & Hc) _]. cbn [map]. destruct (map strip ls) as [|l' ls'].
  - cbn [str_join]. exists c, a. auto.
  - rewrite str_join_cons by discriminate. rewrite E. exists c. eexists. split; [reflexivity|exact Hc].
Qed.

Lemma nobr_joined text : (forall word a b, In word (words text) -> word <> a ++ lit "<br" ++ b) -> nobr (joined text).
Proof.
  intros Hb a b E. destruct (words_infix (lit "<br") a b) as (w & x & y & Hin & Ew); [discriminate|repeat constructor|].
  rewrite <- E, words_joined in Hin. exact (Hb w x y Hin Ew).
Qed.

Lemma wrap_links_stable text w out : good (run Out text) -> plain_space text ->
  (forall word a b, In word (words text) -> word <> a ++ lit "<br" ++ b) ->
  (forall l ls, splitlines text = l :: ls -> blank l = false) ->
  wrap text w = Ok out -> wrap out w = Ok out.
Proof.
  intros Hl Hp Hb Hfl E.
  assert (HI : piece (joined text)).
  { exists Out. split; [auto|]. apply (good_same_words text); [symmetry; apply words_joined|exact Hl]. }
  assert (HB := nobr_joined text Hb). assert (HS := joined_spacing text Hp).
  rewrite wrap_by_tokens in E. apply bind_ok in E. destruct E as (ts & Et & E). apply ok_inj in E.
  assert (Hone := wrap_tokens_one_line _ _ Et).
  destruct (wrap_tokens_lks text ts HI HB HS Et) as (cts & Hrc & HL).
  assert (Hdot : one_dot (joined text) = false \/ ~ no_tick (joined text)).
  { destruct (one_dot (joined text)) eqn:Ed; [right; intros Hn|auto]. unfold wrap_tokens in Et. rewrite split_pass_one in Et.
    apply bind_ok in Et. destruct Et as (t1 & E1 & _). unfold code_split in E1. unfold INLINE_CODE_MARKER_REGEX in E1.
    rewrite (finditer_ticks_eq (joined text) []) in E1 by (constructor; exact Hn).
    cbn [fold_left nilb negb andb skipn] in E1. unfold split_tail in E1. rewrite Ed in E1. discriminate. }
  destruct (join_reread w ts) as (ts' & R & Hf & Ej & Ew).
  { eapply lks_fine; [exact HL|eapply rc_lit, Hrc]. }
  { eapply rc_lks_flush; eassumption. }
  { apply Forall_map in Hone. rewrite map_map in Hone. exact Hone. }
  destruct (rc_reread true (joined text) cts Hrc HS ts ts' HL R) as (cts' & ts2 & Hrc' & HL' & Q); [auto|].
  assert (HS' : spacing (render ts')).
  { apply (raise_Forall _ _ _ R); [reflexivity|]. eapply lks_Forall; [exact HL|]. eapply rc_spacing; eassumption. }
  rewrite wrap_by_tokens. assert (G : wrap_tokens out = Ok ts2).
  { unfold wrap_tokens. rewrite split_pass_one. rewrite <- E at 1. rewrite Ej. rewrite (code_split_rc _ _ Hrc').
    - cbn [bind]. apply lks_sound; [exact HL'|]. eapply rc_spacing; eassumption.
    - apply (dot_reread _ _ _ _ Hrc HL R Hf); [apply first_line_joined, Hfl|exact Hdot]. }
  rewrite G. cbn [bind]. rewrite (Ew ts2 Q); [congruence|]. eapply lks_fine; [exact HL'|eapply rc_lit, Hrc'].
Qed.

(** * Inline links are apart *)

Lemma run_target s b : run (Target b) s = Bad \/ (exists b', run (Target b) s = Target b')
  \/ exists s1 s2, s = s1 ++ [c_rpar] ++ s2 /\ run (Target b) s = run Out s2.
Proof.
  revert b. induction s as [|c s IH]; intros b; [right; left; exists b; reflexivity|]. rewrite run_cons. cbn [step].
  destruct (_ || _); [left; apply run_bad|]. destruct (N.eqb c c_rpar) eqn:Ec.
  - apply N.eqb_eq in Ec. subst c. destruct b; [|left; apply run_bad]. right. right. exists [], s. split; reflexivity.
  - destruct (IH (b || negb (is_space c))) as [H|[H|(s1 & s2 & -> & H)]]; auto.
    right. right. exists (c :: s1), s2. split; [reflexivity|exact H].
Qed.

Lemma run_text s q b : run q s = Text b -> In c_lbr s \/ exists b', q = Text b'.
Proof.
  revert q. induction s as [|c s IH]; intros q H; [right; exists b; exact H|]. rewrite run_cons in H.
  destruct (N.eqb c c_lbr) eqn:Ec; [apply N.eqb_eq in Ec; left; left; exact Ec|].
  apply IH in H. destruct H as [H|(b' & H)]; [left; right; exact H|].
  destruct q as [|b1|b1|b1|]; cbn [step] in H; rewrite ?Ec in H; cbn [orb] in H.
  - destruct (N.eqb c c_rbr); discriminate.
  - right. exists b1. reflexivity.
  - destruct (N.eqb c c_lpar); [destruct b1; discriminate|]. destruct (N.eqb c c_rbr); discriminate.
  - destruct (N.eqb c c_rbr || N.eqb c c_bt); [discriminate|]. destruct (N.eqb c c_rpar); [destruct b1|]; discriminate.
  - discriminate.
Qed.

(** The two characters between the text and the target of a link. *)
Lemma run_joint q o s : In o [c_lpar; c_lbr] -> run q ([c_rbr; o] ++ s) = Bad
  \/ o = c_lpar /\ (exists b, q = Text b) /\ run q ([c_rbr; o] ++ s) = run (Target false) s.
Proof.
  intros Ho. cbn [app]. rewrite !run_cons.
  destruct q as [|b|b|b|]; try (left; destruct Ho as [<-|[<-|[]]]; cbn; apply run_bad).
  destruct Ho as [<-|[<-|[]]]; [|left; apply run_bad]. destruct b; [|left; apply run_bad].
  right. split; [reflexivity|]. split; [exists true; reflexivity|reflexivity].
Qed.

Lemma good_apart s : good (run Out s) -> links_apart s.
Proof.
  intros H a z close b z' close' c E Hz Hz'.
  destruct (joint_shape _ _ Hz) as (o & -> & K). destruct (joint_shape _ _ Hz') as (o' & -> & K').
  assert (Ho : In o [c_lpar; c_lbr]) by (destruct K as [[-> _]|[-> _]]; cbn; auto).
  assert (Ho' : In o' [c_lpar; c_lbr]) by (destruct K' as [[-> _]|[-> _]]; cbn; auto).
  rewrite E, run_app in H.
  destruct (run_joint (run Out a) o (b ++ [c_rbr; o'] ++ c) Ho) as [G|(-> & _ & G)]; rewrite G in H; [destruct H|].
  destruct K as [[_ ->]|[K _]]; [|discriminate]. rewrite run_app in H.
  destruct (run_joint (run (Target false) b) o' c Ho') as [G'|(-> & (i & G') & _)]; [rewrite G' in H; destruct H|].
  destruct (run_target b false) as [T|[(j & T)|(b1 & b2 & -> & T)]]; rewrite T in G'; try discriminate.
  apply run_text in G'. destruct G' as [G'|(j & G')]; [|discriminate].
  apply in_split in G'. destruct G' as (b3 & b4 & ->). exists b1, b3, b4. auto.
Qed.

Lemma links_joined text : good (run Out text) -> links_apart (joined text).
Proof. intros H. apply good_apart, (good_same_words text); [symmetry; apply words_joined|exact H]. Qed.
