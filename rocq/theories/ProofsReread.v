(** Reading wrapped text with inline links again. *)
From Coq Require Import String.
From Verif Require Import Py Regex Utils TextWrap Base SpecLines ProofsLines ProofsRegex SpecWrap
  ProofsScan ProofsWrap ProofsTokens ProofsParser ProofsLinks ProofsPieces ProofsFilled ProofsCode
  ProofsGaps ProofsSeams SpecFormat PropsWrap SpecInline ProofsStable ProofsBrackets ProofsRestable.

(** * Normal whitespace *)

Definition onesp (s : str) : str := str_join [c_sp] (words s).

Lemma words_norm s : words (onesp s) = words s.
Proof. apply words_of_words, words_word. Qed.

Lemma norm_Forall (P : char -> Prop) s : P c_sp -> Forall P s -> Forall P (onesp s).
Proof. intros H1 H2. apply Forall_str_join; [repeat constructor; exact H1|apply words_Forall, H2]. Qed.

Lemma nobr_join ws : Forall nobr ws -> nobr (str_join [c_sp] ws).
Proof.
  intros H. induction H as [|w ws Hw H IH]; [apply nobr_nil|]. destruct ws as [|w' ws]; [exact Hw|].
  rewrite str_join_cons by discriminate. apply nobr_sep; [cbn; intuition discriminate|exact Hw|exact IH].
Qed.

Lemma nobr_norm s : nobr s -> nobr (onesp s).
Proof.
  intros H. apply nobr_join. apply Forall_forall. intros w Hw. apply word_infix in Hw. destruct Hw as (a & b & ->).
  eapply nobr_infix, H.
Qed.

Lemma words_ne s : blank s = false -> words s <> [].
Proof. intros Eb E. apply ink_ne_blank in Eb. rewrite ink_words, E in Eb. apply Eb. reflexivity. Qed.

Lemma norm_ends s : blank s = false -> ink_first (onesp s) /\ ink_last (onesp s).
Proof. intros H. apply join_ends; [apply words_ne, H|apply words_word]. Qed.

(** Gluing something without spaces in front or behind. *)
Lemma words_glue x z w ws : spaceless x -> ink_first z -> words z = w :: ws -> words (x ++ z) = (x ++ w) :: ws.
Proof.
  intros Hx Hz E. induction Hx as [|c x Hc Hx IH]; [exact E|]. cbn [app].
  destruct x as [|d x].
  - cbn [app] in *. destruct Hz as (d & a & -> & Hd). apply words_cons_ink2; assumption.
  - cbn [app] in *. apply words_cons_ink2; [exact Hc|apply (Forall_inv Hx)|exact IH].
Qed.

Lemma words_last_word w y : word w -> spaceless y -> words (w ++ y) = [w ++ y].
Proof.
  intros [H1 H2] Hy. apply words_one; [destruct w; [congruence|discriminate]|]. apply Forall_app. auto.
Qed.

Lemma words_tail b y : ink_last b -> spaceless y -> exists ws w, words b = ws ++ [w] /\ words (b ++ y) = ws ++ [w ++ y].
Proof.
  intros Hb Hy. remember (length b) as n eqn:Hn. assert (Hle : length b <= n) by lia. clear Hn. revert b Hle Hb.
  induction n as [|n IH]; intros b Hle Hb; [destruct b; [destruct Hb as ([|] & ? & E & _); discriminate|cbn in Hle; lia]|].
  destruct b as [|c b]; [destruct Hb as ([|] & ? & E & _); discriminate|]. cbn in Hle.
  destruct (is_space c) eqn:Hc.
  - assert (Hb' : ink_last b).
    { destruct Hb as ([|d a] & e & E & He).
      - injection E as -> _. congruence.
      - injection E as _ ->. exists a, e. auto. }
    destruct (IH b ltac:(lia) Hb') as (ws & w & E1 & E2). exists ws, w. cbn [app]. rewrite !words_cons_space by exact Hc. auto.
  - destruct (words_head (c :: b)) as (w & v & E & Ew & Hw & Hv); [exists c, b; auto|].
    destruct Hv as [->|(d & v' & -> & Hd)].
    + rewrite app_nil_r in E. rewrite Ew. cbn [words]. exists [], w. split; [reflexivity|]. rewrite E. apply words_last_word; assumption.
    + assert (Hv : ink_last (d :: v')).
      { rewrite E in Hb. destruct Hb as (a & e & Eb & He). destruct (exists_last (l := d :: v') ltac:(discriminate)) as (v0 & x0 & Ev).
        rewrite Ev, app_assoc in Eb. rewrite Ev. apply app_inj_tail in Eb. destruct Eb as [_ ->]. exists v0, e. auto. }
      assert (L := f_equal (@length N) E). rewrite app_length in L. cbn [length] in L. destruct Hw as [Hw _].
      destruct (IH (d :: v')) as (ws & u & E1 & E2); [destruct w; [congruence|]; cbn [length] in *; lia|exact Hv|].
      exists (w :: ws), u. rewrite Ew, E1. split; [reflexivity|]. rewrite E, <- app_assoc.
      change ((d :: v') ++ y) with (d :: v' ++ y). rewrite words_app_space by exact Hd.
      cbn [app] in E2. rewrite words_cons_space in E2 by exact Hd. rewrite E2.
      assert (Eww : words w = [w]).
      { assert (Q := Ew). rewrite E, words_app_space in Q by exact Hd. rewrite (words_cons_space d v') in Q by exact Hd.
        apply app_inv_tail in Q || idtac. 
        destruct (words_head w) as (w1 & v1 & F1 & F2 & F3 & F4).
        - destruct w as [|e w]; [congruence|]. injection E as <- _. exists c, w. auto.
        - rewrite F2 in Q. injection Q as -> Q. assert (v1 = []) as ->.
          { assert (L2 := f_equal (@length N) F1). rewrite app_length in L2. destruct v1; [reflexivity|cbn in L2; lia]. }
          rewrite F2. reflexivity. }
      rewrite Eww. reflexivity.
Qed.

Lemma str_join_last_app sep ws (w y : str) : str_join sep (ws ++ [w ++ y]) = str_join sep (ws ++ [w]) ++ y.
Proof. apply str_join_last. Qed.

Lemma norm_behind b y : ink_last b -> spaceless y -> onesp (b ++ y) = onesp b ++ y.
Proof.
  intros Hb Hy. unfold onesp. destruct (words_tail b y Hb Hy) as (ws & w & -> & ->). apply str_join_last_app.
Qed.

Lemma norm_front x b : x <> [] -> spaceless x -> spacing b -> blank b = false ->
  onesp (x ++ b) = x ++ lead_str (startswith [c_sp] b) ++ onesp b.
Proof.
  intros Hn Hx Hs Hb. assert (W := words_ne b Hb). unfold onesp. destruct b as [|c b]; [discriminate|].
  destruct (is_space c) eqn:Hc.
  - assert (c = c_sp) by (apply (Forall_inv Hs), Hc). subst c.
    rewrite words_app_space by reflexivity. rewrite (words_one x) by assumption. rewrite words_cons_space in * by reflexivity.
    cbn [app]. rewrite str_join_cons by exact W. reflexivity.
  - destruct (words (c :: b)) as [|w ws] eqn:Ew; [congruence|].
    rewrite (words_glue x (c :: b) w ws); [|exact Hx|exists c, b; auto|exact Ew].
    assert (E : startswith [c_sp] (c :: b) = false).
    { cbn [startswith]. destruct (N.eqb_spec c_sp c) as [<-|]; [discriminate|reflexivity]. }
    rewrite E. cbn [lead_str app]. destruct ws as [|w' ws]; [reflexivity|]. rewrite !str_join_cons by discriminate.
    rewrite <- app_assoc. reflexivity.
Qed.

Lemma norm_same_first g c g' : g = c :: g' -> is_space c = false -> exists n, onesp g = c :: n.
Proof.
  intros -> Hc. unfold onesp. destruct (words_cons_ink c g' Hc) as (w & ws & -> & _).
  destruct ws; [exists w; reflexivity|]. rewrite str_join_cons by discriminate. eexists. reflexivity.
Qed.

Lemma norm_same_last g' c : is_space c = false -> exists n, onesp (g' ++ [c]) = n ++ [c].
Proof.
  intros Hc. destruct (words_tail (g' ++ [c]) []) as (ws & w & E & _); [exists g', c; auto|constructor|].
  unfold onesp. rewrite E. destruct (words_infix [c] g' []) as (w0 & x & y & _ & _); [discriminate|repeat constructor; exact Hc|].
  assert (L : ink (g' ++ [c]) = concat (ws ++ [w])) by (rewrite ink_words, E; reflexivity).
  rewrite ink_app in L. unfold ink at 2 in L. cbn [filter] in L. change (not_space c) with (negb (is_space c)) in L. rewrite Hc in L. cbn [negb] in L.
  rewrite concat_app in L. cbn [concat] in L. rewrite app_nil_r in L.
  assert (Hw : w <> []).
  { assert (Q := words_word (g' ++ [c])). rewrite E in Q. apply Forall_app in Q. destruct Q as [_ Q]. apply Forall_inv in Q. apply Q. }
  destruct w as [|d w _] using rev_ind; [congruence|]. rewrite app_assoc in L. apply app_inj_tail in L. destruct L as [_ <-].
  rewrite str_join_last_app. eexists. reflexivity.
Qed.

(** What is read character by character, and takes all whitespace for the same. *)
Lemma fold_spaces {Q} (f : Q -> char -> Q) (sp : Q -> Q) :
  (forall q c, is_space c = true -> f q c = sp q) -> (forall q, sp (sp q) = sp q) ->
  forall s q, words s = [] -> fold_left f s (sp q) = sp q.
Proof.
  intros F1 F2 s q. induction s as [|c s IH]; intros H; [reflexivity|]. destruct (is_space c) eqn:Hc.
  - rewrite words_cons_space in H by exact Hc. cbn [fold_left]. rewrite F1, F2 by exact Hc. apply IH, H.
  - destruct (words_cons_ink c s Hc) as (w & ws & E & _). congruence.
Qed.

Lemma fold_onesp {Q} (f : Q -> char -> Q) (sp : Q -> Q) :
  (forall q c, is_space c = true -> f q c = sp q) -> (forall q, sp (sp q) = sp q) ->
  forall s q, sp (fold_left f s (sp q)) = sp (fold_left f (onesp s) (sp q)).
Proof.
  intros F1 F2 s. remember (length s) as n eqn:Hn. assert (Hle : length s <= n) by lia. clear Hn. revert s Hle.
  induction n as [|n IH]; intros s Hle q; [destruct s; [reflexivity|cbn in Hle; lia]|].
  destruct s as [|c s]; [reflexivity|]. cbn in Hle. destruct (is_space c) eqn:Hc.
  - cbn [fold_left]. rewrite F1, F2 by exact Hc. unfold onesp. rewrite words_cons_space by exact Hc. apply IH. lia.
  - destruct (words_head (c :: s)) as (w & v & E & Ew & Hw & Hv); [exists c, s; auto|]. unfold onesp. rewrite Ew.
    assert (L := f_equal (@length N) E). rewrite app_length in L. cbn [length] in L. destruct Hw as [Hw _].
    rewrite E, fold_left_app. set (q1 := fold_left f w (sp q)). destruct Hv as [->|(d & v' & -> & Hd)].
    + cbn [words str_join]. reflexivity.
    + rewrite words_cons_space by exact Hd. cbn [fold_left]. rewrite F1 by exact Hd.
      destruct (words v') as [|w' ws] eqn:Ev.
      * rewrite (fold_spaces f sp F1 F2 v' q1 Ev). cbn [str_join]. fold q1. apply F2.
      * rewrite <- Ev, str_join_cons by (rewrite Ev; discriminate).
        rewrite fold_left_app. fold q1. cbn [app fold_left].
        rewrite F1 by reflexivity. apply IH. cbn [length] in L. destruct w; [congruence|]. cbn [length] in *. lia.
Qed.

Lemma gok_onesp q g : gplain q -> gok q g <-> gok q (onesp g).
Proof.
  intros Hq. assert (E := fold_onesp gstep gsp gstep_space gsp_twice g q).
  assert (F : gsp q = q) by (destruct Hq as [->| ->]; reflexivity). rewrite F in E. unfold gok, grun.
  split; intros H E1; rewrite E1 in E; [|symmetry in E]; destruct (fold_left gstep _ q) eqn:E2 in E; try discriminate; congruence.
Qed.

Lemma gok_lead q l s : gplain q -> gok q (lead_str l ++ s) <-> gok q s.
Proof.
  intros Hq. destruct l; [|reflexivity]. unfold gok. rewrite grun_app. cbn [lead_str].
  assert (E : grun q [c_sp] = q) by (destruct Hq as [->| ->]; reflexivity). rewrite E. reflexivity.
Qed.

(** A gap before a link, with normal whitespace and perhaps a space at its end. *)
Lemma gok_gap q g p l : gplain q -> spaceless p -> blank g = false -> (endswith [c_sp] g = true -> l = true) -> spacing g ->
  gok q ((g ++ p) ++ [c_lbr]) -> gok q (((onesp g ++ lead_str l) ++ p) ++ [c_lbr]).
Proof.
  intros Hq Hp Hb Hl Hs H. destruct l; cbn [lead_str].
  - assert (H1 := gok_prefix _ _ _ (gok_prefix _ _ _ H)). rewrite <- !app_assoc in *. apply gok_suffix in H.
    apply (gok_onesp q g Hq) in H1. unfold gok. rewrite grun_app. cbn [app]. rewrite grun_cons, gstep_space by reflexivity.
    apply (gle_ok _ (grun q g)); [|exact H].
    assert (E := fold_onesp gstep gsp gstep_space gsp_twice g q).
    assert (F : gsp q = q) by (destruct Hq as [->| ->]; reflexivity). rewrite F in E. unfold grun. rewrite <- E. apply gsp_le.
  - rewrite app_nil_r. rewrite <- app_assoc in *.
    assert (Hi : ink_last g).
    { destruct g as [|c g _] using rev_ind; [discriminate|]. exists g, c. split; [reflexivity|]. destruct (is_space c) eqn:Hc; [|reflexivity].
      exfalso. apply spacing_app in Hs. destruct Hs as [_ Hs]. apply Forall_inv in Hs. assert (c = c_sp) by (apply Hs, Hc). subst c.
      rewrite endswith_sp in Hl. discriminate (Hl eq_refl). }
    rewrite <- norm_behind; [apply (proj1 (gok_onesp q _ Hq)), H|exact Hi|]. apply Forall_app. split; [exact Hp|repeat constructor].
Qed.

(** The first half of a link with normal whitespace. *)
Definition norm_text (t : str) : str := lead_str (startswith [c_sp] t) ++ onesp t.

Lemma norm_first_half p t : spaceless p -> spacing t -> blank t = false ->
  onesp (first_half p t) = first_half p (norm_text t) /\ rstrip (norm_text t) = norm_text t.
Proof.
  intros Hp Hs Hb.
  assert (Hr : rstrip (norm_text t) = norm_text t).
  { unfold norm_text. destruct (norm_ends t Hb) as [_ (a & c & E & Hc)]. rewrite E, app_assoc. apply rstrip_by_snoc. exact Hc. }
  split; [|exact Hr]. unfold first_half. rewrite Hr.
  destruct (rstrip_by_spec is_space t) as (ws & E & Hw). fold (rstrip t) in E.
  assert (Hb' : blank (rstrip t) = false).
  { apply ink_ne_blank. rewrite ink_rstrip. apply ink_ne_blank, Hb. }
  assert (Hl : ink_last (rstrip t)).
  { destruct (rstrip t) as [|c b _] eqn:Er using rev_ind; [discriminate|]. exists b, c. split; [reflexivity|]. eapply rstrip_by_last. exact Er. }
  assert (Hs' : spacing (rstrip t)) by (apply Forall_rstrip_by, Hs).
  replace (p ++ [c_lbr] ++ rstrip t ++ [c_rbr; c_lpar]) with (((p ++ [c_lbr]) ++ rstrip t) ++ [c_rbr; c_lpar])
    by (rewrite <- !app_assoc; reflexivity).
  rewrite norm_behind; [|apply ink_last_app, Hl|repeat constructor].
  rewrite norm_front; [|destruct p; discriminate|apply Forall_app; split; [exact Hp|repeat constructor]|exact Hs'|exact Hb'].
  unfold norm_text. rewrite <- !app_assoc. do 2 f_equal. f_equal; [|f_equal].
  - rewrite E at 2. destruct (rstrip t) as [|c b]; [discriminate|]. reflexivity.
  - unfold onesp. rewrite E at 2. rewrite words_trail; [reflexivity|]. apply spaces_forallb, Hw.
Qed.

Ltac eqapp := cbn [lead_str]; repeat first [rewrite <- app_assoc | progress cbn [app]]; reflexivity.

(** * Reading again *)

(** [rs x ts ts2 ts']: the tokens [ts'] are [ts] with flags raised, and [ts2] is a reading of
    them: their flags are in between, and [x] went to the token before. *)
Inductive rs : str -> list tok -> list tok -> list tok -> Prop :=
| rs_nil : rs [] [] [] []
| rs_cons x a l l2 l' e y r r2 r' :
    (l = true -> l2 = true) -> (l2 = true -> l' = true) -> (x <> [] -> l' = false) -> a <> [] -> rs y r r2 r' ->
    rs x (Tok (x ++ a) l e :: r) (Tok (a ++ y) l2 e :: r2) (Tok (x ++ a) l' e :: r').

Lemma rs_app a a2 a' r r2 r' : Forall2 raise a a2 -> Forall2 raise a2 a' -> Forall (fun t => t_text t <> []) a ->
  rs [] r r2 r' -> rs [] (a ++ r) (a2 ++ r2) (a' ++ r').
Proof.
  intros H. revert a'. induction H as [|t t2 a a2 (E1 & E2 & E3) H IH]; intros a' H' Hn Hr.
  - inversion H'. exact Hr.
  - inversion H' as [|? t' ? a'' (F1 & F2 & F3) H'']; subst. inversion Hn; subst. cbn [app].
    destruct t as [x l e], t2 as [x2 l2 e2], t' as [x' l' e']. cbn [t_text t_lead t_eval] in *. subst.
    rewrite <- (app_nil_r x) at 2. change x with ([] ++ x) at 1 3.
    apply rs_cons; auto; congruence.
Qed.

Lemma raise_refl ts : Forall2 raise ts ts.
Proof. induction ts; constructor; [split; [|split]; auto|assumption]. Qed.

Lemma wp_raise l l' ws : (l = true -> l' = true) -> Forall2 raise (wp l ws) (wp l' ws).
Proof.
  intros H. destruct ws as [|w ws]; [constructor|]. cbn [wp]. constructor; [split; [|split]; auto|]. apply raise_refl.
Qed.

Lemma wp_ne l ws : Forall word ws -> Forall (fun t => t_text t <> []) (wp l ws).
Proof.
  intros H. destruct H as [|w ws Hw H]; [constructor|]. cbn [wp]. constructor; [apply Hw|]. apply Forall_map.
  eapply Forall_impl; [|exact H]. intros x Hx. apply Hx.
Qed.

Lemma wp_rs l l2 l' ws : (l = true -> l2 = true) -> (l2 = true -> l' = true) -> Forall word ws ->
  forall r r2 r', rs [] r r2 r' -> rs [] (wp l ws ++ r) (wp l2 ws ++ r2) (wp l' ws ++ r').
Proof. intros H1 H2 H3 r r2 r' H. apply rs_app; auto using wp_raise, wp_ne. Qed.

Lemma render_norm l s : words s <> [] -> render (wp l (words s)) = lead_str l ++ onesp s.
Proof. intros H. apply render_wp, H. Qed.

Lemma cut_lpar p : exists x p2, p = x ++ p2 /\ off [c_lpar] x /\ (p2 = [] \/ exists p3, p2 = c_lpar :: p3).
Proof.
  induction p as [|c p (x & p2 & -> & E1 & E2)]; [exists [], []; repeat split; [constructor|auto]|].
  destruct (N.eq_dec c c_lpar) as [->|Hc].
  - exists [], (c_lpar :: x ++ p2). repeat split; [constructor|eauto].
  - exists (c :: x), p2. repeat split; [|exact E2]. constructor; [cbn; intuition congruence|exact E1].
Qed.

Lemma lk_raise o s ts : lk o s ts -> spacing s -> forall ts', Forall2 raise ts ts' ->
  exists o' x s2 ts2, lk o' s2 ts2 /\ rs x ts ts2 ts' /\ spaceless x /\ off [c_lbr; c_rbr; c_lpar] x
    /\ match o with
       | None => o' = None /\ render ts' = x ++ s2
       | Some l => s = [] \/ x = [] /\ exists l', o' = Some l' /\ render ts' = lead_str l' ++ s2 /\ (l = true -> l' = true)
       end.
Proof.
  intros H. induction H as [o g H1 H2 H3 H4|o g p t u r s ts H1 H2 H3 H4 H5 H6 IH]; intros Hs ts' HR.
  - apply raise_wp in HR. destruct HR as (l' & -> & Hl). destruct (blank g) eqn:Eb.
    + rewrite words_blank by exact Eb. cbn [wp]. exists None, [], [], []. split; [|split; [constructor|split; [constructor|split; [constructor|]]]].
      * apply (lk_end None []); [discriminate|apply nobr_nil|auto|congruence].
      * destruct o as [l|]; [left|split; reflexivity]. destruct H3 as [(c & a & -> & Hc)|H3]; [|exact H3].
        apply ink_blank in Eb. unfold ink in Eb. cbn [filter] in Eb. unfold not_space in Eb. rewrite Hc in Eb. discriminate.
    + assert (W := words_ne g Eb).
      destruct H3 as [H3| ->]; [|discriminate].
      assert (Hg : gok (st0 o) (onesp g)) by (apply (proj1 (gok_onesp _ _ (st0_plain o))), H1).
      assert (Hrs : forall l0, (l0 = true -> l' = true) -> rs [] (wp l0 (words g)) (wp l' (words g)) (wp l' (words g))).
      { intros l0 Hl0. rewrite <- (app_nil_r (wp l0 _)), <- (app_nil_r (wp l' _)). apply wp_rs; auto; [apply words_word|constructor]. }
      destruct o as [l|].
      * exists (Some l'), [], (onesp g), (wp l' (words g)). split; [|split; [apply Hrs, Hl|split; [constructor|split; [constructor|]]]].
        -- rewrite <- words_norm at 1. apply (lk_end (Some l') (onesp g)); [exact Hg|apply nobr_norm, H2|left; apply norm_ends, Eb|].
           intros _. specialize (H4 ltac:(discriminate)). destruct (words g) as [|w ws] eqn:Ew; [congruence|].
           rewrite (one_dot_words g w ws) in H4 by assumption.
           rewrite (one_dot_words (onesp g) w ws); [exact H4|apply norm_ends, Eb|rewrite words_norm; exact Ew].
        -- right. split; [reflexivity|]. exists l'. split; [reflexivity|]. split; [apply render_norm, W|exact Hl].
      * cbn [lead_in] in *. exists None, [], (lead_str l' ++ onesp g), (wp l' (words g)).
        assert (Ew : words (lead_str l' ++ onesp g) = words g) by (destruct l'; cbn [lead_str app]; rewrite ?words_cons_space by reflexivity; apply words_norm).
        assert (Es : startswith [c_sp] (lead_str l' ++ onesp g) = l').
        { destruct (gapw_facts l' (words g) false W (words_word g)) as (_ & _ & F & _). cbn [lead_str] in F. rewrite app_nil_r in F. exact F. }
        split; [|split; [apply Hrs, Hl|split; [constructor|split; [constructor|]]]].
        -- rewrite <- Es at 2. rewrite <- Ew. apply (lk_end None); [| |left|congruence].
           ++ apply (proj2 (gok_lead _ _ _ (st0_plain None))), Hg.
           ++ destruct l'; [apply (nobr_sep [] c_sp); [cbn; intuition discriminate|apply nobr_nil|]|]; apply nobr_norm, H2.
           ++ destruct l'; [right; exists c_sp; eexists; split; [reflexivity|auto]|]. cbn [lead_str app].
              destruct H3 as [->|(c & g' & -> & Hc)]; [discriminate|].
              destruct (is_space c) eqn:Hsp.
              ** exfalso. assert (c = c_sp) by (apply (Forall_inv Hs), Hsp). subst c. discriminate (Hl eq_refl).
              ** destruct (norm_same_first _ c g' eq_refl Hsp) as (n & ->). right. exists c, n. auto.
        -- split; [reflexivity|]. cbn [app]. apply render_norm, W.
  - rewrite !spacing_app in Hs. destruct Hs as (S1 & S2 & S3).
    unfold link_str in S2. rewrite !spacing_app in S2. destruct S2 as (_ & _ & St & _ & Su & _ & _).
    apply Forall2_app_inv_l in HR. destruct HR as (A' & X & RA & HR & ->).
    apply Forall2_app_inv_l in HR. destruct HR as (B' & Y & RB & HR & ->).
    inversion HR as [|? C' ? D' (EC1 & EC2 & _) RD]; subst. destruct C' as [cx c ce]. cbn [t_text t_eval] in EC1, EC2. subst cx ce. clear HR.
    destruct (IH S3 D' RD) as (o1 & x1 & s1 & ts1 & L1 & Q1 & X1 & X2 & -> & RE).
    apply raise_wp in RA, RB. destruct RA as (la & -> & Hla), RB as (lb & -> & Hlb).
    destruct (norm_first_half p t) as [NF NR]; [apply H4|exact St|apply H4|].
    set (t' := norm_text t) in *. set (u' := lead_str c ++ lstrip u). set (r1 := r ++ x1).
    assert (Hbt : blank t' = false).
    { apply ink_ne_blank. unfold t', norm_text. rewrite ink_app. intros E. apply app_eq_nil in E. destruct E as [_ E].
      destruct (norm_ends t (f_tn _ _ _ _ H4)) as [(d & a & Ed & Hd) _]. rewrite Ed in E. unfold ink in E. cbn [filter] in E.
      unfold not_space in E. rewrite Hd in E. discriminate. }
    assert (Hlu : lstrip u' = lstrip u).
    { unfold u'. assert (I : lstrip (lstrip u) = lstrip u) by apply lstrip_by_idem. destruct c; exact I. }
    assert (Hlk : blank u' = false).
    { apply ink_ne_blank. unfold u'. rewrite ink_app. intros E. apply app_eq_nil in E. destruct E as [_ E].
      assert (Q := f_un _ _ _ _ H4). apply ink_ne_blank in Q. apply Q. destruct (lstrip_by_spec is_space u) as (w & Ew & Hw).
      rewrite Ew, ink_app. fold (lstrip u). rewrite E, app_nil_r. apply ink_spaces. apply spaces_forallb, Hw. }
    assert (Ft : off sq t' /\ nobr t').
    { unfold t', norm_text. split.
      - apply off_app. split; [destruct (startswith _ _); repeat constructor; cbn; intuition discriminate|].
        apply norm_Forall; [cbn; intuition discriminate|apply H4].
      - assert (N := nobr_norm _ (f_tb _ _ _ _ H4)). destruct (startswith _ _); [|exact N].
        apply (nobr_sep [] c_sp); [cbn; intuition discriminate|apply nobr_nil|exact N]. }
    assert (Fu : off [c_lbr; c_rbr; c_rpar] u' /\ nobr u').
    { unfold u'. split.
      - apply off_app. split; [destruct c; repeat constructor; cbn; intuition discriminate|]. apply Forall_lstrip_by, H4.
      - assert (N := nobr_lstrip _ (f_ub _ _ _ _ H4)). destruct c; [|exact N].
        apply (nobr_sep [] c_sp); [cbn; intuition discriminate|apply nobr_nil|exact N]. }
    assert (Fr : off [c_lbr; c_rbr; c_lpar] r1 /\ spaceless r1).
    { split; apply Forall_app; split; try assumption; apply H4. }
    assert (FIT : forall q, off [c_lbr; c_rbr; c_rpar] q -> spaceless q -> nobr q -> fit q t' u' r1).
    { intros q Q1' Q2 Q3. constructor; try assumption; tauto. }
    assert (PSQ : off sq p) by (eapply off_incl; [|apply (f_p _ _ _ _ H4)]; cbn; tauto).
    assert (SH : second_half u' r1 = second_half u r ++ x1).
    { unfold second_half, r1. rewrite Hlu, <- !app_assoc. reflexivity. }
    assert (FHn : words (first_half p t') = words (first_half p t)) by (rewrite <- NF; apply words_norm).
    assert (FW : words (first_half p t) <> []).
    { apply words_ne, ink_ne_blank. unfold first_half. rewrite !ink_app. intros E. apply app_eq_nil in E. destruct E as [_ E]. discriminate. }
    assert (RB : render (wp lb (words (first_half p t))) = lead_str lb ++ p ++ [c_lbr] ++ t' ++ [c_rbr; c_lpar]).
    { rewrite render_norm, NF by exact FW. unfold first_half. rewrite NR. reflexivity. }
    assert (QT : rs [] (Tok (second_half u r) false false :: ts) (Tok (second_half u' r1) false false :: ts1) (Tok (second_half u r) c false :: D')).
    { rewrite SH. apply (rs_cons [] (second_half u r)); auto; try congruence. unfold second_half. destruct (lstrip u); discriminate. }
    rewrite !render_app, render_cons, RB. cbn [t_lead t_text]. rewrite RE.
    destruct (blank g) eqn:Eb.
    + rewrite words_blank by exact Eb. cbn [wp app]. change (render []) with (@nil char). cbn [app].
      destruct o as [l|].
      * assert (g = []) as ->.
        { destruct g as [|d g]; [reflexivity|]. destruct H5 as (e & a & E & He). injection E as <- _. apply ink_blank in Eb.
          unfold ink in Eb. cbn [filter] in Eb. unfold not_space in Eb. rewrite He in Eb. discriminate. }
        cbn [lead_ln blank] in Hlb. 
        exists (Some lb), [], (link_str p t' u' r1 ++ s1), (wp lb (words (first_half p t')) ++ Tok (second_half u' r1) false false :: ts1).
        split; [|split; [|split; [constructor|split; [constructor|]]]].
        -- apply (lk_link (Some lb) [] p t' u' r1 s1 ts1); [apply gok_off_open; [apply st0_plain|apply PSQ]|apply nobr_nil|left; reflexivity|apply FIT; apply H4| |exact L1].
           cbn [app start_ok]. unfold link_str. destruct (f_ps _ _ _ _ H4) as [|d p' Hd _]; [eexists; eexists; split; [reflexivity|reflexivity]|].
           exists d. eexists. split; [reflexivity|exact Hd].
        -- rewrite FHn. apply wp_rs; auto. apply words_word.
        -- right. split; [reflexivity|]. exists lb. split; [reflexivity|]. split; [|exact Hlb].
           unfold link_str, second_half, u', r1. eqapp.
      * destruct lb.
        -- exists None, [], ([c_sp] ++ link_str p t' u' r1 ++ s1), (wp false (words (first_half p t')) ++ Tok (second_half u' r1) false false :: ts1).
           split; [|split; [|split; [constructor|split; [constructor|]]]].
           ++ apply (lk_link None [c_sp] p t' u' r1 s1 ts1); [apply gok_off_open; [apply st0_plain|constructor; [cbn; intuition discriminate|apply PSQ]]| | |apply FIT; apply H4| |exact L1].
              ** apply (nobr_sep [] c_sp []); [cbn; intuition discriminate|apply nobr_nil|apply nobr_nil].
              ** right. exists [], c_sp. auto.
              ** right. exists c_sp. eexists. split; [reflexivity|auto].
           ++ rewrite FHn. apply wp_rs; auto; [|apply words_word]. unfold lead_ln. rewrite Eb. congruence.
           ++ split; [reflexivity|]. unfold link_str, second_half, u', r1. eqapp.
        -- destruct (cut_lpar p) as (x & p2 & -> & Hx & Hp2).
           assert (Hpo := f_p _ _ _ _ H4). assert (Hps := f_ps _ _ _ _ H4). assert (Hpb := f_pb _ _ _ _ H4).
           apply off_app in Hpo. apply Forall_app in Hps. destruct Hpo as [Ho1 Ho2], Hps as [Hs1 Hs2].
           assert (Zf : ink_first (first_half p2 t')).
           { unfold first_half. destruct Hs2 as [|d p' Hd _]; [eexists; eexists; split; [reflexivity|reflexivity]|].
             exists d. eexists. split; [reflexivity|exact Hd]. }
           destruct (words (first_half p2 t')) as [|w ws] eqn:Ew2.
           { exfalso. apply (words_ne (first_half p2 t')); [|exact Ew2]. destruct Zf as (d & a & -> & Hd).
             apply ink_ne_blank. unfold ink. cbn [filter]. unfold not_space. rewrite Hd. discriminate. }
           assert (Eg : words (first_half (x ++ p2) t) = (x ++ w) :: ws).
           { rewrite <- FHn. unfold first_half. rewrite <- app_assoc. apply words_glue; [exact Hs1|exact Zf|exact Ew2]. }
           exists None, x, (link_str p2 t' u' r1 ++ s1), (wp false (words (first_half p2 t')) ++ Tok (second_half u' r1) false false :: ts1).
           split; [|split; [|split; [exact Hs1|split]]].
           ++ apply (lk_link None [] p2 t' u' r1 s1 ts1); [apply gok_off_open; [apply st0_plain|eapply off_incl; [|exact Ho2]; cbn; tauto]|apply nobr_nil|left; reflexivity| | |exact L1].
              ** apply FIT; [exact Ho2|exact Hs2|]. apply (nobr_infix x p2 []). rewrite app_nil_r. exact Hpb.
              ** cbn [app start_ok]. unfold link_str. destruct Hp2 as [->|(p3 & ->)]; right; eexists; eexists; (split; [reflexivity|auto]).
           ++ rewrite Ew2, Eg. cbn [wp app]. rewrite <- (app_nil_r w) at 2.
              apply rs_cons; [exact Hlb|auto|auto| |].
              ** assert (Q := words_word (first_half p2 t')). rewrite Ew2 in Q. apply (Forall_inv Q).
              ** assert (Q := words_word (first_half p2 t')). rewrite Ew2 in Q. inversion Q as [|? ? _ Q']; subst.
                 apply rs_app; [apply raise_refl|apply raise_refl| |exact QT]. apply Forall_map. eapply Forall_impl; [|exact Q'].
                 intros v Hv. apply Hv.
           ++ apply (off_both [c_lbr; c_rbr; c_rpar] [c_lpar]); [cbn; tauto|exact Ho1|exact Hx].
           ++ split; [reflexivity|]. unfold link_str, second_half, u', r1. eqapp.
    + assert (W := words_ne g Eb). rewrite render_norm by exact W.
      destruct (gapw_facts la (words g) lb W (words_word g)) as (F1 & F2 & F3 & F4).
      destruct (gapw_facts false (words g) lb W (words_word g)) as (K1 & K2 & K3 & K4). cbn [lead_str app] in K1, K2, K3, K4.
      fold (onesp g) in *. unfold lead_ln in Hlb. rewrite Eb in Hlb.
      assert (CE : forall a, cut_end (a ++ onesp g ++ lead_str lb)).
      { intros a. right. destruct lb; cbn [lead_str].
        - exists (a ++ onesp g), c_sp. rewrite <- app_assoc. auto.
        - rewrite app_nil_r. destruct H3 as [->|(g' & d & -> & [->|[->| ->]])]; [discriminate| | |].
          + rewrite endswith_sp in Hlb. discriminate (Hlb eq_refl).
          + destruct (norm_same_last g' c_rpar eq_refl) as (n & ->). exists (a ++ n), c_rpar. rewrite <- app_assoc. auto.
          + destruct (norm_same_last g' c_rbr eq_refl) as (n & ->). exists (a ++ n), c_rbr. rewrite <- app_assoc. auto. }
      assert (OG : forall l0, gok (st0 o) (((lead_str l0 ++ onesp g ++ lead_str lb) ++ p) ++ [c_lbr])).
      { intros l0. replace (((lead_str l0 ++ onesp g ++ lead_str lb) ++ p) ++ [c_lbr]) with (lead_str l0 ++ ((onesp g ++ lead_str lb) ++ p) ++ [c_lbr])
          by (rewrite <- !app_assoc; reflexivity).
        apply (proj2 (gok_lead _ _ _ (st0_plain o))). apply gok_gap; auto; [apply st0_plain|apply H4]. }
      assert (NG : forall l0, nobr (lead_str l0 ++ onesp g ++ lead_str lb)).
      { intros l0. assert (N := nobr_norm _ H2).
        assert (N2 : nobr (onesp g ++ lead_str lb)).
        { destruct lb; [apply nobr_snoc; [cbn; intuition discriminate|exact N]|rewrite app_nil_r; exact N]. }
        destruct l0; [apply (nobr_sep [] c_sp); [cbn; intuition discriminate|apply nobr_nil|exact N2]|exact N2]. }
      assert (WG : forall l0, words (lead_str l0 ++ onesp g ++ lead_str lb) = words g).
      { intros l0. rewrite words_lead by (destruct l0; repeat constructor). rewrite words_trail by (destruct lb; repeat constructor). apply words_norm. }
      destruct o as [l|].
      * exists (Some la), [], ((onesp g ++ lead_str lb) ++ link_str p t' u' r1 ++ s1),
          (wp la (words g) ++ wp lb (words (first_half p t')) ++ Tok (second_half u' r1) false false :: ts1).
        split; [|split; [|split; [constructor|split; [constructor|]]]].
        -- assert (G := lk_link (Some la) (onesp g ++ lead_str lb) p t' u' r1 s1 ts1). unfold lead_ln in G. rewrite K1, K4 in G.
           assert (W0 := WG false). cbn [lead_str app] in W0. rewrite W0 in G. cbn [lead_in] in G. apply G; auto.
           ++ apply (OG false).
           ++ apply (NG false).
           ++ apply (CE []).
           ++ apply FIT; apply H4.
           ++ cbn [start_ok]. destruct (norm_ends g Eb) as [(d & a & -> & Hd) _]. exists d. eexists. split; [reflexivity|exact Hd].
        -- rewrite FHn. unfold lead_ln. rewrite Eb. apply wp_rs; auto; [apply words_word|]. apply wp_rs; auto. apply words_word.
        -- right. split; [reflexivity|]. exists la. split; [reflexivity|]. split; [|exact Hla].
           unfold link_str, second_half, u', r1. eqapp.
      * cbn [lead_in] in Hla.
        exists None, [], ((lead_str la ++ onesp g ++ lead_str lb) ++ link_str p t' u' r1 ++ s1),
          (wp la (words g) ++ wp lb (words (first_half p t')) ++ Tok (second_half u' r1) false false :: ts1).
        split; [|split; [|split; [constructor|split; [constructor|]]]].
        -- assert (G := lk_link None (lead_str la ++ onesp g ++ lead_str lb) p t' u' r1 s1 ts1). unfold lead_ln in G.
           rewrite F1, F4, WG in G. cbn [lead_in] in G. rewrite F3 in G. apply G; auto.
           ++ apply FIT; apply H4.
           ++ cbn [start_ok]. right. destruct la; [exists c_sp; eexists; split; [reflexivity|auto]|]. cbn [lead_str app].
              destruct H5 as [E|(d & z & E & Hd)].
              { exfalso. apply app_eq_nil in E. destruct E as [-> _]. discriminate. }
              destruct g as [|e g]; [discriminate|]. injection E as -> _.
              destruct (is_space d) eqn:Hsp.
              ** exfalso. assert (d = c_sp) by (apply (Forall_inv S1), Hsp). subst d. discriminate (Hla eq_refl).
              ** destruct (norm_same_first _ d g eq_refl Hsp) as (n & ->). exists d. eexists. split; [reflexivity|exact Hd].
        -- rewrite FHn. unfold lead_ln. rewrite Eb. apply wp_rs; auto; [apply words_word|]. apply wp_rs; auto. apply words_word.
        -- split; [reflexivity|].
           unfold link_str, second_half, u', r1. eqapp.
Qed.
