(** Properties C30 and C31: block quotes. *)
From Coq Require Import String QArith.
From Verif Require Import Py Regex Utils TextWrap Lines Detectors Formatters Base
  SpecLines SpecParser SpecFormat SpecWrap SpecQuote ProofsLines ProofsParser ProofsShapes ProofsPass
  ProofsTokens ProofsPieces ProofsFilled PropsParser PropsLeaf PropsWrap.
Local Open Scope nat_scope.

(** * Quote markers *)

Lemma rmatch_upto p k c l :
  rmatch [Upto p k; Is c] l
  = match k, l with
    | S k', x :: l' =>
        if p x then match rmatch [Upto p k'; Is c] l' with
                    | Some n => Some (S n) | None => rmatch [Is c] l end
        else rmatch [Is c] l
    | _, _ => rmatch [Is c] l
    end.
Proof. destruct k, l; reflexivity. Qed.

Lemma rmatch_is c l n : rmatch [Is c] l = Some n <-> exists r, l = c :: r /\ n = 1.
Proof.
  destruct l as [|x l]; cbn.
  - split; [discriminate|]. intros (r & H & _). discriminate.
  - destruct (N.eqb c x) eqn:E; split.
    + intros H. injection H as <-. apply N.eqb_eq in E. subst x. eauto.
    + intros (r & _ & ->). reflexivity.
    + discriminate.
    + intros (r & H & _). injection H as -> _. rewrite N.eqb_refl in E. discriminate.
Qed.

Lemma rmatch_indented p k c l n : p c = false ->
  rmatch [Upto p k; Is c] l = Some n <->
  exists ws body, l = ws ++ c :: body /\ Forall (fun x => p x = true) ws /\ length ws <= k /\ n = S (length ws).
Proof.
  intros Hc. revert l n. induction k as [|k IH]; intros l n; rewrite rmatch_upto.
  - rewrite rmatch_is. split.
    + intros (r & -> & ->). exists [], r. repeat split; auto.
    + intros (ws & body & -> & _ & Hl & ->). destruct ws; [|cbn in Hl; lia]. exists body. split; reflexivity.
  - destruct l as [|x l].
    { rewrite rmatch_is. split; [intros (r & H & _); discriminate|].
      intros (ws & body & H & _). destruct ws; discriminate. }
    destruct (p x) eqn:Hx.
    + assert (Hxc : x <> c) by congruence. destruct (rmatch [Upto p k; Is c] l) as [m|] eqn:Em.
      * split.
        -- intros E. injection E as <-. apply IH in Em. destruct Em as (ws & body & -> & Hw & Hl & ->).
           exists (x :: ws), body. repeat split; auto. cbn. lia.
        -- intros (ws & body & E & Hw & Hl & ->). destruct ws as [|y ws]; [cbn in E; injection E as -> _; congruence|].
           cbn [app] in E. injection E as -> ->. inversion Hw; subst. cbn [length] in *.
           assert (G : Some m = Some (S (length ws))).
           { rewrite <- Em. apply IH. exists ws, body. repeat split; auto. lia. }
           injection G as ->. reflexivity.
      * rewrite rmatch_is. split.
        -- intros (r & E & _). injection E as -> _. congruence.
        -- intros (ws & body & E & Hw & Hl & ->). destruct ws as [|y ws]; [cbn in E; injection E as -> _; congruence|].
           cbn [app] in E. injection E as -> ->. inversion Hw; subst. cbn [length] in *.
           assert (G : None = Some (S (length ws))).
           { rewrite <- Em. apply IH. exists ws, body. repeat split; auto. lia. }
           discriminate.
    + rewrite rmatch_is. split.
      * intros (r & E & ->). injection E as -> ->. exists [], r. repeat split; auto. cbn. lia.
      * intros (ws & body & E & Hw & Hl & ->). destruct ws as [|y ws].
        -- cbn in E. injection E as -> ->. exists body. auto.
        -- cbn [app] in E. injection E as -> ->. inversion Hw; subst. congruence.
Qed.

Lemma Forall_sp_repeat ws : Forall (fun x => N.eqb c_sp x = true) ws -> ws = repeat c_sp (length ws).
Proof.
  intros H. apply Forall_eq_repeat. eapply Forall_impl; [|exact H]. intros x Hx.
  apply N.eqb_eq in Hx. congruence.
Qed.

Lemma strip_quote_marker_spec l : unmarked l (strip_quote_marker l).
Proof.
  unfold strip_quote_marker. destruct (rmatch _ l) as [n|] eqn:E.
  - apply rmatch_indented in E; [|reflexivity]. destruct E as (ws & body & -> & Hw & Hl & ->).
    left. exists (length ws). split; [exact Hl|]. apply Forall_sp_repeat in Hw. rewrite <- Hw.
    f_equal. change (c_gt :: body) with ([c_gt] ++ body). rewrite app_assoc, skipn_app, skipn_all2
      by (rewrite app_length; cbn; lia). rewrite app_length. cbn [length].
    replace (S (length ws) - (length ws + 1)) with 0 by lia. reflexivity.
  - right. split; [reflexivity|]. intros n body Hn ->.
    assert (G : rmatch [Upto (N.eqb c_sp) 3; Is c_gt] (repeat c_sp n ++ c_gt :: body) = Some (S n)).
    { apply rmatch_indented; [reflexivity|]. exists (repeat c_sp n), body.
      rewrite repeat_length. repeat split; auto. apply Forall_forall. intros x Hx.
      apply repeat_spec in Hx. subst x. reflexivity. }
    congruence.
Qed.

Lemma strip_quote_marker_lead body : strip_quote_marker (c_gt :: body) = body.
Proof. reflexivity. Qed.

Lemma depth_spec l :
  quote_depth l (length (concat (words l)) - length (lstrip_by (N.eqb c_gt) (concat (words l)))).
Proof.
  rewrite <- ink_words. destruct (run_decomp c_gt (ink l)) as (n & t & E & Ht). exists t. split; [|exact Ht].
  rewrite E at 1. rewrite E. rewrite (run_length c_gt n t Ht). reflexivity.
Qed.

Lemma quote_depth_pos l d : quote_line l -> quote_depth l d -> exists d', d = S d'.
Proof.
  intros (ws & body & -> & Hw & _) (t & E & Ht). destruct d as [|d]; [|eauto]. exfalso.
  unfold ink in E. rewrite filter_app in E.
  assert (Hn : filter not_space ws = []) by (apply ink_spaces; exact Hw).
  rewrite Hn in E. cbn in E. apply (Ht (filter not_space body)). symmetry. exact E.
Qed.

Lemma unquoted_spec ls d : (match ls with l :: _ => quote_line l \/ 0 < d | [] => True end) ->
  unquoted d ls (map strip_quote_marker (fully_quote d ls)).
Proof.
  revert d. induction ls as [|l ls IH]; intros d H; [constructor|]. cbn [fully_quote].
  destruct (is_explicit_block_quote_line l) eqn:El.
  - apply quote_spec in El. cbn [map]. assert (Hd := depth_spec l).
    destruct (quote_depth_pos _ _ El Hd) as (d' & Ed).
    eapply unquoted_marked; [exact El|exact Hd|apply strip_quote_marker_spec|].
    apply IH. destruct ls; [exact I|]. right. rewrite Ed. lia.
  - assert (Hq : ~ quote_line l) by (intros G; apply quote_spec in G; congruence).
    destruct H as [H|H]; [tauto|]. destruct d as [|d]; [lia|]. cbn [map].
    change (rep c_gt (S d) ++ l) with (c_gt :: (rep c_gt d ++ l)). rewrite strip_quote_marker_lead.
    apply unquoted_lazy; [exact Hq|]. apply IH. destruct ls; [exact I|]. right. lia.
Qed.

Lemma indented_by_get l n : indented_by n l <-> blank l = false /\ get_indent l = n.
Proof.
  split.
  - intros (ws & c & r & -> & Hw & Hl & Hc). split; [apply blank_app_false; exact Hc|].
    rewrite get_indent_app by assumption. exact Hl.
  - intros [Hb Hg]. destruct (lead_decomp l) as (ws & El & Hw & _).
    destruct (lstrip l) as [|c r] eqn:Es.
    + exfalso. rewrite app_nil_r in El. subst ws. apply blank_iff in Hw. congruence.
    + exists ws, c, r. repeat split; auto.
      * rewrite El in Hg. rewrite get_indent_app in Hg; auto. eapply lstrip_by_head. exact Es.
      * eapply lstrip_by_head. exact Es.
Qed.

Lemma has_space_spec ls : quote_has_space ls = true <-> spaced ls.
Proof.
  induction ls as [|l ls IH]; cbn [quote_has_space].
  - split; [discriminate|]. intros ([|b before] & x & after & E & _); discriminate.
  - assert (Skip : ~ indented_by 0 l -> ~ indented_by 1 l -> spaced ls <-> spaced (l :: ls)).
    { intros H0 H1. split.
      - intros (before & x & after & -> & Hx & Hb). exists (l :: before), x, after. repeat split; auto.
      - intros (before & x & after & E & Hx & Hb). destruct before as [|y before]; injection E as -> ->.
        + tauto.
        + exists before, x, after. inversion Hb; subst. auto. }
    destruct (blank l) eqn:Eb.
    + rewrite IH. apply Skip; intros G; apply indented_by_get in G; destruct G; congruence.
    + destruct (get_indent l =? 1) eqn:E1; [|destruct (get_indent l =? 0) eqn:E0].
      * apply Nat.eqb_eq in E1. split; [|reflexivity]. intros _. exists [], l, ls.
        repeat split; auto. apply indented_by_get. auto.
      * apply Nat.eqb_eq in E0. split; [discriminate|]. intros (before & x & after & E & Hx & Hb).
        assert (H0 : indented_by 0 l) by (apply indented_by_get; auto).
        destruct before as [|y before]; injection E as -> ->.
        -- apply indented_by_get in Hx. destruct Hx. congruence.
        -- inversion Hb; subst. tauto.
      * rewrite IH. apply Nat.eqb_neq in E0, E1.
        apply Skip; intros G; apply indented_by_get in G; destruct G; congruence.
Qed.

Lemma unspaced_spec l :
  unspaced l (match l with c :: l' => if N.eqb c c_sp then l' else l | [] => l end).
Proof.
  destruct l as [|c l]; [right; split; [reflexivity|discriminate]|].
  destruct (N.eqb c c_sp) eqn:E.
  - apply N.eqb_eq in E. subst c. left. reflexivity.
  - right. split; [reflexivity|]. intros r H. injection H as -> _. discriminate.
Qed.

Lemma narrower_sub w a b w' : narrower w a w' -> narrower w (a + b) (width_sub w' b).
Proof.
  unfold narrower. destruct w, w'; cbn; try tauto; intros H.
  - lia.
  - rewrite H, inject_Z_plus. ring.
Qed.

Lemma narrower_refl w : narrower w 0 w.
Proof. destruct w; cbn; [lia|exact I|ring]. Qed.

Lemma strip_quoted prefix l : In prefix [lit ">"; lit "> "] -> strip (prefix ++ l) = rstrip (prefix ++ l).
Proof.
  intros H. unfold strip. assert (E : exists s, prefix ++ l = c_gt :: s).
  { destruct H as [<-|[<-|[]]]; cbn; eauto. }
  destruct E as (s & ->). reflexivity.
Qed.

(** * C30 *)

(** The output of a block quote is the formatted text inside it, line by line after the
    prefix and without trailing whitespace. The text is formatted to the width that the
    prefix leaves, plus the indentation of the first line. *)
Theorem C30_block_quote : forall lim w i content r,
  section_shape BLOCK_QUOTE content -> section_text lim w i BLOCK_QUOTE content r ->
  exists ws l rest inner prefix w' text outs,
    content = (ws ++ c_gt :: l) :: rest /\ spaces ws
    /\ quotes content inner prefix
    /\ narrower w (Z.of_nat (length prefix) - Z.of_nat (length ws)) w'
    /\ reformat_pass lim (str_join [c_nl] inner ++ [c_nl]) w' = Ok text
    /\ Forall2 (fun line out => rtrims (prefix ++ line) out) (splitlines text) outs
    /\ has_lines r outs
    /\ Forall (fun out => exists o, out = c_gt :: o) outs.
Proof.
  intros lim w i content r (l & rest & -> & Hq & _) H.
  destruct Hq as (ws & body & -> & Hw & Hl4).
  assert (Hq : quote_line (ws ++ c_gt :: body)) by (exists ws, body; auto).
  unfold section_text in H. cbn [reformatted] in H. unfold fmt_block_quote in H.
  cbn [nth_line nth_error bind] in H.
  set (content := (ws ++ c_gt :: body) :: rest) in *.
  assert (Hu : unquoted 0 content (map strip_quote_marker (fully_quote 0 content))).
  { apply unquoted_spec. left. exact Hq. }
  set (stripped := map strip_quote_marker (fully_quote 0 content)) in *.
  assert (Ei : (Z.of_nat (length (lstrip (ws ++ c_gt :: body))) - Z.of_nat (length (ws ++ c_gt :: body))
               = - Z.of_nat (length ws))%Z).
  { rewrite lstrip_app by (auto; reflexivity). rewrite app_length. cbn [length]. lia. }
  rewrite Ei in H.
  assert (Er : rep c_sp (Z.to_nat (- Z.of_nat (length ws))) = []).
  { replace (Z.to_nat (- Z.of_nat (length ws))) with 0 by lia. reflexivity. }
  rewrite Er in H. cbn [app] in H.
  assert (G : exists inner prefix w', quotes content inner prefix
    /\ narrower w (Z.of_nat (length prefix) - Z.of_nat (length ws)) w'
    /\ In prefix [lit ">"; lit "> "]
    /\ (text <- with_redirect (reformat_pass lim (str_join [c_nl] inner ++ [c_nl]) w') ;;
        Ok (str_join [c_nl] (map (fun line => strip (prefix ++ line)) (splitlines text)))) = Ok r).
  { destruct (quote_has_space stripped) eqn:Es.
    - eexists _, (lit "> "), _. split; [|split; [|split; [|exact H]]].
      + exists stripped. split; [exact Hu|]. left. split; [apply has_space_spec; exact Es|].
        split; [reflexivity|]. clear. induction stripped as [|x ls IH]; constructor; auto. apply unspaced_spec.
      + assert (N1 := narrower_sub _ _ (- Z.of_nat (length ws)) _ (narrower_refl w)).
        apply (narrower_sub _ _ 1) in N1. apply (narrower_sub _ _ 1) in N1.
        replace (Z.of_nat (length (lit "> ")) - Z.of_nat (length ws))%Z
          with (0 + - Z.of_nat (length ws) + 1 + 1)%Z by (change (length (lit "> ")) with 2; lia). exact N1.
      + right. left. reflexivity.
    - eexists _, (lit ">"), _. split; [|split; [|split; [|exact H]]].
      + exists stripped. split; [exact Hu|]. right. split; [|split; reflexivity].
        intros G. apply has_space_spec in G. congruence.
      + assert (N1 := narrower_sub _ _ (- Z.of_nat (length ws)) _ (narrower_refl w)).
        apply (narrower_sub _ _ 1) in N1.
        replace (Z.of_nat (length (lit ">")) - Z.of_nat (length ws))%Z
          with (0 + - Z.of_nat (length ws) + 1)%Z by (change (length (lit ">")) with 1; lia). exact N1.
      + left. reflexivity. }
  destruct G as (inner & prefix & w' & G1 & G2 & Gp & G3).
  apply bind_ok in G3. destruct G3 as (text & Et & G3). rewrite with_redirect_ok in Et.
  apply ok_inj in G3. subst r.
  set (outs := map (fun line => strip (prefix ++ line)) (splitlines text)).
  exists ws, body, rest, inner, prefix, w', text, outs.
  repeat (split; [solve [auto]|]).
  assert (F : Forall2 (fun line out => rtrims (prefix ++ line) out) (splitlines text) outs).
  { unfold outs. clear -Gp. induction (splitlines text) as [|x ls IH]; constructor; auto.
    rewrite strip_quoted by exact Gp. apply rtrims_rstrip. reflexivity. }
  split; [exact F|].
  assert (Ht : exists t, text = t ++ [c_nl]).
  { destruct lim as [|lim]; [discriminate|]. apply reformat_pass_inv in Et.
    destruct Et as (secs & texts & _ & _ & ->). rewrite finish_pass_join. eauto. }
  split.
  - split; [reflexivity|]. split.
    + destruct Ht as (t & ->). unfold outs. intros E. apply map_eq_nil in E. revert E.
      clear. destruct t as [|c t]; [discriminate|]. cbn [app splitlines].
      destruct (is_linebreak c).
      * destruct (t ++ [c_nl]); [discriminate|]. destruct (_ && _); discriminate.
      * destruct (splitlines (t ++ [c_nl])); discriminate.
    + apply Forall_map. assert (S1 := splitlines_no_linebreak text). eapply Forall_impl; [|exact S1].
      intros x Hx. apply one_line_no_nl, strip_one_line, Forall_app. split; [|exact Hx].
      destruct Gp as [<-|[<-|[]]]; repeat constructor.
  - unfold outs. apply Forall_map, Forall_forall. intros x _. rewrite strip_quoted by exact Gp.
    assert (E : exists s, prefix ++ x = c_gt :: s) by (destruct Gp as [<-|[<-|[]]]; cbn; eauto).
    destruct E as (s & ->). change (c_gt :: s) with ([c_gt] ++ s).
    destruct (blank s) eqn:Eb.
    + apply blank_iff in Eb. unfold rstrip. rewrite rstrip_by_app by (apply spaces_forallb; exact Eb).
      exists []. reflexivity.
    + unfold rstrip. rewrite rstrip_by_app_ne; [eexists; reflexivity|]. intros E.
      apply rstrip_by_nil in E. apply spaces_forallb, blank_iff in E. congruence.
Qed.

(** * C31 *)

Lemma splitlines_nl_app a b :
  splitlines (a ++ c_nl :: b) = splitlines (a ++ [c_nl]) ++ splitlines b.
Proof.
  induction a as [|c a IH IH2] using splitlines_ind_aux.
  { apply (splitlines_app_nl []). constructor. }
  cbn [app splitlines]. destruct (is_linebreak c) eqn:Hc.
  - destruct a as [|d a].
    + cbn [app]. change (N.eqb c_nl c_nl) with true. rewrite andb_true_r.
      destruct (N.eqb c c_cr); [reflexivity|]. cbn [app] in *. f_equal. exact IH.
    + cbn [app]. destruct (N.eqb c c_cr && N.eqb d c_nl).
      * rewrite (IH2 d a eq_refl). reflexivity.
      * cbn [app] in IH. rewrite IH. reflexivity.
  - rewrite IH. destruct (splitlines (a ++ [c_nl])) as [|l ls] eqn:E; [|reflexivity].
    exfalso. destruct a as [|d a]; [discriminate|]. cbn [app splitlines] in E. destruct (is_linebreak d).
    + destruct (a ++ [c_nl]); [discriminate|]. destruct (_ && _); discriminate.
    + destruct (splitlines (a ++ [c_nl])); discriminate.
Qed.

Lemma splitlines_newline_terminated_concat rs :
  splitlines (newline_terminated rs) = concat (map (fun r => splitlines (r ++ [c_nl])) rs).
Proof.
  unfold newline_terminated. induction rs as [|r rs IH]; [reflexivity|]. cbn [map concat].
  rewrite <- app_assoc. cbn [app]. rewrite splitlines_nl_app, IH. reflexivity.
Qed.

Lemma in_separated last l r : In r (separated last l) -> r = [] \/ exists ty, In (ty, r) l.
Proof.
  revert last. induction l as [|[ty t] l IH]; intros last H; [destruct H|]. cbn [separated] in H.
  apply in_app_iff in H. destruct H as [H|[<-|H]].
  - left. destruct last as [[]|]; try destruct H. destruct ty; try destruct H; destruct H; congruence.
  - right. exists ty. left. reflexivity.
  - destruct (IH _ H) as [->|(ty' & H')]; [left; reflexivity|right; exists ty'; right; exact H'].
Qed.

Lemma section_texts_in lim w i secs texts ty t : section_texts lim w i secs texts ->
  In (ty, t) (combine (map fst secs) texts) ->
  exists c j, In (ty, c) secs /\ section_text lim w j ty c t.
Proof.
  intros H. induction H as [|i ty' c secs r outs H1 H IH]; intros Hin; [destruct Hin|].
  cbn [map fst combine] in Hin. destruct Hin as [Hin|Hin].
  - injection Hin as -> ->. exists c, i. split; [left; reflexivity|exact H1].
  - destruct (IH Hin) as (c' & j & Hc & Hj). exists c', j. split; [right; exact Hc|exact Hj].
Qed.

Lemma rstrip_app_spaces a b : spaces b -> rstrip (a ++ b) = rstrip a.
Proof. intros H. unfold rstrip. apply rstrip_by_app. apply spaces_forallb. exact H. Qed.

Lemma rstrip_length s : length (rstrip s) <= length s.
Proof.
  destruct (rstrip_by_spec is_space s) as (post & E & _). unfold rstrip. rewrite E at 2.
  rewrite app_length. lia.
Qed.

Lemma paragraph_lines lim w i c t line : section_text lim w i PARAGRAPH c t ->
  In line (splitlines (t ++ [c_nl])) ->
  exists l0 tail, line = l0 ++ tail /\ spaces tail
    /\ (fits w (length l0) \/ solid (joined (str_join [c_sp] (map strip c))) l0).
Proof.
  intros H Hin. unfold section_text in H. cbn [reformatted] in H. unfold fmt_paragraph in H.
  apply bind_ok in H. destruct H as (wrapped & Ew & H).
  destruct (rev c) as [|cl cs]; [discriminate|]. apply ok_inj in H.
  destruct (C20_lines_fit _ w wrapped Ew) as (lines & -> & Ho & Hl). clear Ew.
  assert (T : exists tail, spaces tail /\ one_line tail /\ t = str_join [c_nl] lines ++ tail).
  { subst t. destruct (endswith [c_sp; c_sp] cl).
    - exists [c_sp; c_sp]. repeat split; repeat constructor.
    - exists []. repeat split; try constructor. rewrite app_nil_r. reflexivity. }
  clear H. destruct T as (tail & Ht & Ht1 & ->).
  assert (Fin : forall x, In x lines ->
    fits w (length x) \/ solid (joined (str_join [c_sp] (map strip c))) x).
  { intros x Hx. rewrite Forall_forall in Hl. apply (Hl x Hx). }
  destruct lines as [|x lines _] using rev_ind.
  - cbn [str_join app] in Hin. change (tail ++ [c_nl]) with (str_join [c_nl] [tail] ++ [c_nl]) in Hin.
    rewrite splitlines_join in Hin by (try discriminate; repeat constructor; exact Ht1).
    destruct Hin as [<-|[]]. exists [], tail. split; [reflexivity|]. split; [exact Ht|].
    right. left. cbn. tauto.
  - assert (E : str_join [c_nl] (lines ++ [x]) ++ tail = str_join [c_nl] (lines ++ [x ++ tail])).
    { destruct lines as [|y lines]; [reflexivity|]. rewrite !str_join_app by discriminate.
      cbn [str_join]. rewrite <- !app_assoc. reflexivity. }
    rewrite E in Hin. apply Forall_app in Ho. destruct Ho as [Ho Hx]. apply Forall_inv in Hx.
    rewrite splitlines_join in Hin;
      [| destruct lines; discriminate
       | apply Forall_app; split; [exact Ho|]; constructor; [|constructor]; apply Forall_app; auto].
    apply in_app_iff in Hin. destruct Hin as [Hin|[<-|[]]].
    + exists line, []. rewrite app_nil_r. split; [reflexivity|]. split; [constructor|].
      apply Fin. apply in_app_iff. left. exact Hin.
    + exists x, tail. split; [reflexivity|]. split; [exact Ht|]. apply Fin. apply in_app_iff. right. left. reflexivity.
Qed.

(** If the quote is not indented and the width leaves room for text after the prefix, the
    lines of the paragraphs in it fit the width together with their prefix, except for
    lines that cannot be broken. *)
Theorem C31_partial : forall lim z i content r l rest,
  section_shape BLOCK_QUOTE content -> content = (c_gt :: l) :: rest -> (2 < z)%Z ->
  section_text lim (WInt z) i BLOCK_QUOTE content r ->
  exists inner prefix lim' secs outs,
    quotes content inner prefix
    /\ lim = S lim' /\ parse_markdown lim' (splitlines (str_join [c_nl] inner ++ [c_nl])) = Ok secs
    /\ has_lines r outs
    /\ Forall (fun out =>
         out = [c_gt] \/
         exists ty c j t line,
           In (ty, c) secs
           /\ section_text lim' (WInt (z - Z.of_nat (length prefix))) j ty c t
           /\ In line (splitlines (t ++ [c_nl])) /\ rtrims (prefix ++ line) out
           /\ (ty = PARAGRAPH ->
               (Z.of_nat (length out) <= z)%Z
               \/ exists p, solid (joined (str_join [c_sp] (map strip c))) p /\ rtrims (prefix ++ p) out)) outs.
Proof.
  intros lim z i content r l rest Hs Ec Hz H.
  destruct (C30_block_quote _ _ _ _ _ Hs H)
    as (ws & l' & rest' & inner & prefix & w' & text & outs & E1 & Hw & Hq & Hn & Ht & F & Hl & _).
  rewrite Ec in E1. destruct ws as [|x ws].
  2: { exfalso. injection E1 as <- _ _. inversion Hw; discriminate. }
  destruct w' as [z'| |q]; try (cbn in Hn; contradiction). cbn [length narrower] in Hn. 
  assert (Hp : In prefix [lit ">"; lit "> "]).
  { destruct Hq as (st & _ & [(_ & -> & _)|(_ & -> & _)]); cbn; auto. }
  assert (Hpl : length prefix <= 2) by (destruct Hp as [<-|[<-|[]]]; cbn; lia).
  assert (Ez : z' = (z - Z.of_nat (length prefix))%Z) by lia. clear Hn. subst z'.
  destruct lim as [|lim']; [discriminate|]. apply reformat_pass_inv in Ht.
  destruct Ht as (secs & texts & Eparse & Hst & ->).
  exists inner, prefix, lim', secs, outs. repeat (split; [solve [auto]|]).
  set (rs := separated None (combine (map fst secs) texts)) in *.
  assert (Lines : forall line, In line (splitlines (finish_pass rs)) ->
            line = [] \/ exists t, In t rs /\ In line (splitlines (t ++ [c_nl]))).
  { intros line Hin. destruct rs as [|t rs0].
    - cbn in Hin. destruct Hin as [<-|[]]. left. reflexivity.
    - rewrite finish_pass_ne in Hin by discriminate.
      rewrite splitlines_newline_terminated_concat in Hin. apply in_concat in Hin.
      destruct Hin as (ls & Hls & Hin). apply in_map_iff in Hls. destruct Hls as (t' & <- & Ht').
      right. exists t'. auto. }
  assert (Blank : forall out, rtrims (prefix ++ []) out -> out = [c_gt]).
  { intros out Ho. apply rtrims_rstrip in Ho. subst out. destruct Hp as [<-|[<-|[]]]; reflexivity. }
  clear H Hl. revert F Lines. generalize (splitlines (finish_pass rs)). intros lines F Lines.
  induction F as [|line out lines outs Ho F IH]; [constructor|]. constructor.
  - destruct (Lines line (or_introl eq_refl)) as [->|(t & Htr & Hin)]; [left; apply Blank; exact Ho|].
    destruct (in_separated _ _ _ Htr) as [->|(ty & Hty)].
    + left. apply Blank. cbn in Hin. destruct Hin as [<-|[]]. exact Ho.
    + destruct (section_texts_in _ _ _ _ _ _ _ Hst Hty) as (c & j & Hc & Hj).
      right. exists ty, c, j, t, line. repeat (split; [solve [auto]|]).
      intros ->. destruct (paragraph_lines _ _ _ _ _ _ Hj Hin) as (l0 & tail & -> & Htail & Hfit).
      assert (Er : out = rstrip (prefix ++ l0)).
      { apply rtrims_rstrip in Ho. rewrite app_assoc, rstrip_app_spaces in Ho by exact Htail. exact Ho. }
      destruct Hfit as [Hf|Hp1].
      * left. assert (Lr := rstrip_length (prefix ++ l0)). rewrite <- Er, app_length in Lr.
        cbn [fits] in Hf. lia.
      * right. exists l0. split; [exact Hp1|]. apply rtrims_rstrip. exact Er.
  - apply IH. intros x Hx. apply Lines. right. exact Hx.
Qed.

(** A width that leaves no room after the prefix means no limit at all for the text in the
    quote. *)
Theorem C31_narrow_refuted : exists text out,
  reformat_markdown_text 9 text (WInt 2) = Ok out /\ out = lit "> a b c d" ++ [c_nl].
Proof. exists (lit "> a b c d"), (lit "> a b c d" ++ [c_nl]). split; vm_compute; reflexivity. Qed.

(** The indentation of the quote makes the text in it wider instead of narrower, so that
    the line is longer than the width although it could be broken; the second pass, which
    finds no indentation, then disagrees. *)
Theorem C31_indented_refuted : exists line out,
  section_shape BLOCK_QUOTE [line]
  /\ section_text 9 (WInt 10) 0 BLOCK_QUOTE [line] out
  /\ out = lit "> aaaaa bbbbb" /\ length out = 13
  /\ reformat_markdown_text 9 line (WInt 10) = Err ReformatInconsistentException.
Proof.
  exists (lit "   > aaaaa bbbbb"), (lit "> aaaaa bbbbb"). split.
  { exists (lit "   > aaaaa bbbbb"), []. split; [reflexivity|]. split; [|constructor].
    apply quote_spec. reflexivity. }
  split; [vm_compute; reflexivity|]. split; [reflexivity|]. split; [reflexivity|]. vm_compute. reflexivity.
Qed.

(** * Examples *)

Example C30_nonvacuous :
  let content := [lit "> a"; lit ">> b"; lit "c"; lit "  >"; lit ">   # d"] in
  section_shape BLOCK_QUOTE content
  /\ quotes content [lit "a"; lit "> b"; lit ">c"; []; lit "  # d"] (lit "> ")
  /\ section_text 9 (WInt 20) 0 BLOCK_QUOTE content
       (lit "> a" ++ [c_nl] ++ lit "> > b c" ++ [c_nl] ++ lit ">" ++ [c_nl] ++ lit "> # d").
Proof.
  cbv zeta. split; [|split].
  - apply (C10_section_shapes 9 [lit "> a"; lit ">> b"; lit "c"; lit "  >"; lit ">   # d"]
             [(BLOCK_QUOTE, [lit "> a"; lit ">> b"; lit "c"; lit "  >"; lit ">   # d"])]);
      [vm_compute; reflexivity|left; reflexivity].
  - exists (map strip_quote_marker (fully_quote 0 [lit "> a"; lit ">> b"; lit "c"; lit "  >"; lit ">   # d"])).
    split; [apply unquoted_spec; left; apply quote_spec; reflexivity|]. left.
    split; [apply has_space_spec; reflexivity|]. split; [reflexivity|].
    match goal with |- Forall2 unspaced ?a _ => let a' := eval vm_compute in a in change a with a' end.
    repeat (constructor; [first [left; reflexivity|right; split; [reflexivity|discriminate]]|]). constructor.
  - vm_compute. reflexivity.
Qed.

Example C31_nonvacuous :
  section_text 9 (WInt 8) 0 BLOCK_QUOTE [lit "> aa bb cc dd"] (lit "> aa bb" ++ [c_nl] ++ lit "> cc dd").
Proof. vm_compute. reflexivity. Qed.
