(** No line of wrapped text ends with whitespace. *)
From Coq Require Import String.
From Verif Require Import Py Regex Utils TextWrap Base SpecLines SpecFormat SpecWrap ProofsLines
  ProofsRegex ProofsScan ProofsWrap ProofsTokens ProofsParser ProofsChars ProofsLinks ProofsPieces ProofsFilled ProofsGaps.

(** ** Words and pieces *)

Definition good (t : tok) : Prop :=
  ink_last (t_text t) \/ (t_text t = [] /\ (t_lead t = false \/ t_eval t = true)).
Notation goods := (Forall good).

(** After the third pass there is no empty piece with a space before it. *)
Definition sgood (t : tok) : Prop :=
  ink_last (t_text t) \/ (t_text t = [] /\ t_lead t = false).
Notation sgoods := (Forall sgood).

Lemma ink_last_app s t : ink_last t -> ink_last (s ++ t).
Proof. intros (a & c & -> & H). exists (s ++ a), c. rewrite app_assoc. auto. Qed.

Lemma ink_last_one c : is_space c = false -> ink_last [c].
Proof. exists [], c. auto. Qed.

Lemma ink_last_rep c n : is_space c = false -> 0 < n -> ink_last (rep c n).
Proof.
  intros H Hn. destruct n as [|n]; [lia|]. exists (rep c n), c. split; [|exact H].
  clear. unfold rep. induction n as [|n IH]; [reflexivity|]. cbn [repeat app] in *. rewrite <- IH. reflexivity.
Qed.

Lemma ink_last_rstrip s : blank s = false -> ink_last (rstrip s).
Proof.
  intros H. assert (Hn : rstrip s <> []).
  { intros E. unfold rstrip in E. apply rstrip_by_nil in E. apply blank_spec in E. congruence. }
  destruct (exists_last Hn) as (a & c & E). exists a, c. split; [exact E|].
  eapply rstrip_by_last. exact E.
Qed.

Lemma goods_app_last ts x : goods ts -> ink_last x -> goods (app_last ts x).
Proof.
  intros H Hx. induction H as [|t ts Ht Hts IH]; cbn; [constructor|].
  destruct ts; constructor; auto. left. cbn. apply ink_last_app. exact Hx.
Qed.

Lemma goods_dot ts : goods ts -> goods (app_last ts [c_dot]).
Proof. intros H. apply goods_app_last; [exact H|]. apply ink_last_one. reflexivity. Qed.

Lemma goods_eval_last ts : goods ts -> goods (eval_last ts).
Proof.
  intros H. induction H as [|t ts Ht Hts IH]; cbn; [constructor|]. destruct ts; constructor; auto.
  destruct Ht as [Ht|[Ht _]]; [left; exact Ht|right; cbn; auto].
Qed.

Lemma goods_snoc ts t : goods ts -> good t -> goods (ts ++ [t]).
Proof. intros. apply Forall_app. auto. Qed.

Lemma goods_strip ts s lead ev : goods ts -> negb (blank s) = true -> goods (ts ++ [Tok (strip s) lead ev]).
Proof.
  intros H Hb. apply negb_true_iff in Hb. apply goods_snoc; [exact H|]. left. apply strip_ends. exact Hb.
Qed.

(** A match of the code markers ends in a backtick. *)
Lemma marker_slice text le ms me : In (ms, me) (finditer INLINE_CODE_MARKER_REGEX text) ->
  ms < me /\ (slice text le me = [] \/ ink_last (slice text le me)).
Proof.
  intros Hm. apply finditer_In in Hm. destruct Hm as (x & g & y & -> & Hg & Hd & -> & ->).
  destruct (exists_last Hg) as (g' & c & ->). rewrite app_length. cbn [length]. split; [lia|].
  assert (Hc : is_space c = false).
  { destruct Hd as (d & s' & E & Hd & a & b & -> & Ha & ->). rewrite app_nil_r in E.
    assert (A : Forall (fun c => N.eqb c_bt c = true) (g' ++ [c])) by (rewrite E; constructor; assumption).
    apply Forall_app in A. destruct A as [_ A]. inversion A as [|? ? Hc _]; subst.
    apply N.eqb_eq in Hc. subst c. reflexivity. }
  replace (length x + (length g' + 1)) with (length (x ++ g' ++ [c])) by (rewrite !app_length; cbn; lia).
  replace (x ++ (g' ++ [c]) ++ y) with ((x ++ g' ++ [c]) ++ y) by (rewrite <- !app_assoc; reflexivity).
  set (t := x ++ g' ++ [c]). assert (Et : t = (x ++ g') ++ [c]) by (unfold t; rewrite <- app_assoc; reflexivity).
  unfold slice. destruct (Nat.le_gt_cases (length t) le) as [L|L].
  { left. replace (length t - le) with 0 by lia. reflexivity. }
  right. rewrite skipn_app. replace (le - length t) with 0 by lia. cbn [skipn].
  rewrite firstn_app, skipn_length, Nat.sub_diag. cbn [firstn]. rewrite app_nil_r.
  rewrite firstn_all2 by (rewrite skipn_length; lia).
  rewrite Et in *. rewrite app_length in L. cbn [length] in L.
  rewrite skipn_app. replace (le - length (x ++ g')) with 0 by lia. cbn [skipn].
  apply ink_last_app, ink_last_one. exact Hc.
Qed.

Lemma goods_app_last' ts x : goods ts -> x = [] \/ ink_last x -> goods (app_last ts x).
Proof.
  intros H [->|Hx]; [|apply goods_app_last; assumption].
  induction H as [|t ts Ht Hts IH]; cbn; [constructor|]. destruct ts; constructor; auto.
  unfold good. cbn. rewrite app_nil_r. exact Ht.
Qed.

Lemma goods_code_step text ls st m : In m (finditer INLINE_CODE_MARKER_REGEX text) ->
  goods (fst (fst st)) -> goods (fst (fst (code_step text ls st m))).
Proof.
  intros Hm Hst. destruct st as [[ts oml] le], m as [ms me]. cbn [fst] in *.
  apply (marker_slice text le) in Hm. destruct Hm as [Hlt Hs].
  assert (T : forall lead, good (Tok (rep c_bt (me - ms)) lead false)).
  { intros lead. left. cbn. apply ink_last_rep; [reflexivity|lia]. }
  unfold code_step. destruct (oml =? 0) eqn:E0; [|destruct (me - ms =? oml)]; cbn [fst].
  - set (p := slice text le ms).
    destruct (one_dot p && negb (nilb ts)); [set (ts0 := app_last ts [c_dot])|set (ts0 := ts)];
      (assert (H0 : goods ts0) by (subst ts0; auto using goods_dot));
      [set (q := tl p)|set (q := p)];
      (destruct (negb (blank q)) eqn:Eb; cbn [fst]; apply goods_snoc; auto using goods_strip).
  - apply goods_app_last; [exact Hst|]. apply ink_last_app, ink_last_rep; [reflexivity|].
    apply Nat.eqb_neq in E0. lia.
  - apply goods_app_last'; [exact Hst|exact Hs].
Qed.

Lemma goods_split_tail ts rt le ls r : goods ts -> split_tail ts rt le ls = Ok r -> goods r.
Proof.
  intros Hts H. unfold split_tail in H. bind_inv H. destruct a as [ts' rt'].
  assert (G : goods ts').
  { destruct (one_dot rt).
    - destruct ts as [|t ts]; [discriminate|].
      apply ok_inj, pair_equal_spec in E. destruct E as [<- <-]. apply goods_dot. exact Hts.
    - inv E. auto. }
  destruct (negb (blank rt')) eqn:Eb; inv H; [|exact G]. apply goods_strip; assumption.
Qed.

Lemma goods_code_split text ls r : code_split text ls = Ok r -> goods r.
Proof.
  intros H. unfold code_split in H.
  assert (G : forall ms st, (forall m, In m ms -> In m (finditer INLINE_CODE_MARKER_REGEX text)) ->
            goods (fst (fst st)) -> goods (fst (fst (fold_left (code_step text ls) ms st)))).
  { induction ms as [|m ms IH]; intros st Hin Hst; cbn; [exact Hst|].
    apply IH; [intros x Hx; apply Hin; right; exact Hx|].
    apply goods_code_step; auto. apply Hin. left. reflexivity. }
  specialize (G (finditer INLINE_CODE_MARKER_REGEX text) ([], 0, 0) ltac:(auto) ltac:(constructor)).
  destruct (fold_left _ _ _) as [[ts oml] le]. cbn [fst] in G.
  destruct (negb (nilb ts) && _).
  - destruct (negb (blank (skipn le text))) eqn:Eb; inv H; auto using goods_eval_last.
    apply goods_app_last; auto using goods_eval_last. apply ink_last_rstrip. apply negb_true_iff. exact Eb.
  - eapply goods_split_tail; [exact G|exact H].
Qed.

Lemma good_split_link g a b : split_link g = Ok (a, b) ->
  ink_last a /\ (b = [] \/ ink_last b).
Proof.
  intros H. unfold split_link in H.
  assert (S : forall s, strip s = [] \/ ink_last (strip s)).
  { intros s. destruct (blank s) eqn:E; [left|right; apply strip_ends; exact E].
    destruct (strip s) eqn:Es; [reflexivity|]. assert (blank s = false); [|congruence].
    apply blank_strip. congruence. }
  destruct (contains [c_rbr; c_lpar] g).
  - destruct (split_on2 c_rbr c_lpar g) as [|x [|y l]]; [discriminate|discriminate|].
    injection H as <- <-. split; [|apply S]. apply ink_last_app. exists [c_rbr], c_lpar. split; reflexivity.
  - destruct (split_on2 c_rbr c_lbr g) as [|x [|y l]]; [discriminate|discriminate|].
    injection H as <- <-. split; [|apply S]. apply ink_last_app. exists [c_rbr], c_lbr. split; reflexivity.
Qed.

Lemma goods_link_step text ls st m st' :
  goods (fst st) -> link_step text ls st m = Ok st' -> goods (fst st').
Proof.
  intros Hst H. destruct st as [ts le], m as [ms me]. cbn [fst] in Hst.
  unfold link_step in H. set (n := slice text le ms) in *.
  match type of H with (let '(a, b) := ?x in _) = _ => destruct x as [ts1 lead] eqn:E end.
  assert (G : goods ts1).
  { destruct (negb (blank n)) eqn:Eb; [|inv E; exact Hst].
    injection E as <- _.
    destruct (negb (nilb ts) && one_dot n) eqn:Ed; [|apply goods_strip; assumption].
    destruct (negb (blank (tl n))) eqn:Et; [apply goods_strip; [apply goods_dot|]; assumption|].
    (* the full stop was all there was *)
    apply goods_snoc; [apply goods_dot; exact Hst|]. right. cbn. apply negb_false_iff in Et.
    split; [|auto]. destruct (strip (tl n)) eqn:Es; [reflexivity|].
    assert (blank (tl n) = false); [|congruence]. apply blank_strip. congruence. }
  bind_inv H. destruct a as [a b]. apply good_split_link in E0. destruct E0 as [Ha Hb].
  ok_subst H. cbn [fst]. apply Forall_app. split; [exact G|].
  constructor; [left; exact Ha|]. constructor; [|constructor].
  destruct Hb as [->|Hb]; [right; auto|left; exact Hb].
Qed.

Lemma goods_link_split text ls r : link_split text ls = Ok r -> goods r.
Proof.
  intros H. unfold link_split in H. bind_inv H. destruct a as [ts le].
  assert (G : forall ms st st', goods (fst st) ->
            foldM (link_step text ls) ms st = Ok st' -> goods (fst st')).
  { induction ms as [|m ms IH]; intros st st' Hst Hf; cbn in Hf.
    - inv Hf. exact Hst.
    - bind_inv Hf. eapply IH; [|exact Hf]. eapply goods_link_step; eauto. }
  apply G in E; [|constructor]. eapply goods_split_tail; [exact E|exact H].
Qed.

Lemma ink_last_break text a b : In (a, b) (finditer HTML_NEWLINE_REGEX text) -> ink_last (slice text a b).
Proof.
  intros H. apply finditer_In in H.
  destruct H as (x & g & y & -> & _ & Hd & -> & ->). rewrite slice_mid in *.
  destruct Hd as (c1 & s1 & -> & _ & c2 & s2 & -> & _ & c3 & s3 & -> & _ & a1 & b1 & -> & _ & _
    & a2 & b2 & -> & _ & _ & c & s4 & -> & Hc & ->). apply N.eqb_eq in Hc. subst c.
  change (c1 :: c2 :: c3 :: a1 ++ a2 ++ [c_gt]) with ([c1; c2; c3] ++ a1 ++ a2 ++ [c_gt]) in *.
  do 3 apply ink_last_app. apply ink_last_one. reflexivity.
Qed.

Lemma sgoods_newline_split text ls r : newline_split text ls = Ok r -> sgoods r.
Proof.
  intros H. unfold newline_split in H.
  assert (S : forall s lead ev, negb (blank s) = true -> sgood (Tok (strip s) lead ev)).
  { intros s lead ev Hs. left. apply strip_ends. apply negb_true_iff. exact Hs. }
  assert (G : forall ms st, (forall m, In m ms -> In m (finditer HTML_NEWLINE_REGEX text)) ->
            sgoods (fst st) -> sgoods (fst (fold_left (newline_step text ls) ms st))).
  { induction ms as [|m ms IH]; intros st Hin Hst; cbn; [exact Hst|].
    apply IH; [intros x Hx; apply Hin; right; exact Hx|].
    destruct st as [ts le], m as [ms0 me]. cbn [fst] in Hst.
    assert (Hb := ink_last_break text ms0 me (Hin _ (or_introl eq_refl))). unfold newline_step.
    destruct (negb (blank (slice text le ms0))) eqn:Eb; cbn [fst]; apply Forall_app; (split; [exact Hst|]).
    - constructor; [apply S; exact Eb|]. constructor; [left; exact Hb|constructor].
    - constructor; [left; exact Hb|constructor]. }
  specialize (G (finditer HTML_NEWLINE_REGEX text) ([], 0) ltac:(auto) ltac:(constructor)).
  destruct (fold_left _ _ _) as [ts le]. cbn [fst] in G.
  destruct (negb (blank (skipn le text))) eqn:Eb; inv H; [|exact G].
  apply Forall_app. auto.
Qed.

Definition plain_spaces (s : str) : Prop := Forall (fun c => is_space c = true -> c = c_sp) s.

Lemma sgoods_space_split text ls r : plain_spaces text -> space_split text ls = Ok r -> sgoods r.
Proof.
  intros Ht H. unfold space_split in H. ok_subst H.
  assert (G : forall ws ts, Forall (Forall (fun c => is_space c = false)) ws -> sgoods ts ->
    sgoods (fold_left (space_step ls) ws ts)).
  { induction ws as [|w ws IH]; intros ts Hw Hts; cbn; [exact Hts|]. inv Hw.
    apply IH; auto. unfold space_step. destruct w as [|c w]; [exact Hts|].
    apply Forall_app. split; [exact Hts|]. constructor; [|constructor]. left. cbn [nilb t_text].
    apply strip_ends. apply Forall_inv in H1. apply Bool.not_true_is_false. intros E. apply blank_spec in E.
    cbn [forallb] in E. rewrite H1 in E. discriminate. }
  apply G; [|constructor].
  assert (G1 := split_on_no_sep c_sp text).
  assert (G2 := Forall_split_on (fun c => is_space c = true -> c = c_sp) c_sp text Ht).
  clear -G1 G2. induction (split_on c_sp text) as [|w ws IH]; [constructor|]. inv G1. inv G2.
  constructor; [|auto]. clear -H1 H3. induction w as [|c w IH]; [constructor|]. inv H1. inv H3.
  constructor; [|auto]. destruct (is_space c) eqn:E; [|reflexivity]. exfalso. auto.
Qed.

Lemma pass_all (P Q : tok -> Prop) f ts r :
  (forall t x, In t ts -> t_eval t = true -> P t -> f (t_text t) (t_lead t) = Ok x -> Forall Q x) ->
  (forall t, In t ts -> t_eval t = false -> P t -> Q t) ->
  Forall P ts -> split_pass f ts = Ok r -> Forall Q r.
Proof.
  revert r. induction ts as [|t ts IH]; intros r H1 H2 H E.
  - apply ok_inj in E. subst. constructor.
  - rewrite split_pass_cons in E. apply bind_ok in E. destruct E as (a & Ea & E).
    apply bind_ok in E. destruct E as (b & Eb & E). apply ok_inj in E. subst r. inv H.
    apply Forall_app. split.
    + destruct (t_eval t) eqn:Et; [eapply H1; [left; reflexivity|exact Et|assumption|exact Ea]|].
      apply ok_inj in Ea. subst a. constructor; [|constructor]. apply H2; auto. left. reflexivity.
    + apply IH; auto; intros; [eapply H1|eapply H2]; eauto; right; assumption.
Qed.

Lemma tokens_tight text ts : plain_space text -> wrap_tokens text = Ok ts -> sgoods ts.
Proof.
  intros Hp E. unfold wrap_tokens in E.
  set (P := fun c => is_space c = true -> c = c_sp).
  assert (Pi : forall c, is_inline c = true -> P c).
  { intros c H. unfold P. unfold is_inline in H. apply existsb_exists in H.
    destruct H as (x & Hin & Ex). apply N.eqb_eq in Ex. subst x. cbn in Hin.
    repeat destruct Hin as [<-|Hin]; try (cbn; congruence). destruct Hin. }
  apply bind_ok in E. destruct E as (t1 & E1 & E). apply bind_ok in E. destruct E as (t2 & E2 & E).
  apply bind_ok in E. destruct E as (t3 & E3 & E).
  assert (K : Forall (fun t => Forall P (t_text t)) t3).
  { eapply (okt_split_pass P); [exact (okt_newline_split P)| |eassumption].
    eapply (okt_split_pass P); [exact (okt_link_split P Pi)| |eassumption].
    eapply (okt_split_pass P); [exact (okt_code_split P Pi)| |eassumption].
    constructor; [|constructor]. cbn [t_text]. unfold joined. apply Forall_str_join; [repeat constructor|].
    apply Forall_map. assert (L := splitlines_no_linebreak text).
    assert (L2 := Forall_splitlines (fun c => is_space c = true -> c = c_sp \/ is_linebreak c = true) text Hp).
    clear -L L2. induction (splitlines text) as [|l ls IH]; [constructor|]. inv L. inv L2.
    constructor; [|auto]. apply Forall_strip. clear -H1 H3.
    rewrite Forall_forall in *. intros c Hin Hc. specialize (H1 c Hin). destruct (H3 c Hin Hc); congruence. }
  assert (G1 : goods t1).
  { rewrite split_pass_one in E1. eapply goods_code_split. exact E1. }
  assert (G2 : goods t2).
  { eapply (pass_all good good link_split); [|auto|exact G1|exact E2].
    intros t x _ _ _ Ex. eapply goods_link_split. exact Ex. }
  assert (G3 : sgoods t3).
  { eapply (pass_all good sgood newline_split); [| |exact G2|exact E3].
    - intros t x _ _ _ Ex. eapply sgoods_newline_split. exact Ex.
    - intros t _ Ht [G|(G & [Gl|Ge])]; [left; exact G|right; auto|congruence]. }
  eapply (pass_all sgood sgood space_split); [|auto|exact G3|exact E].
  intros t x Hin _ _ Ex. eapply sgoods_space_split; [|exact Ex].
  rewrite Forall_forall in K. apply K. exact Hin.
Qed.

(** ** Lines *)

Lemma line_of_tight g : Forall sgood g -> line_of (map piece_of g) = [] \/ ink_last (line_of (map piece_of g)).
Proof.
  unfold line_of. assert (G : forall g line, Forall sgood g -> line = [] \/ ink_last line ->
    fold_left put (map piece_of g) line = [] \/ ink_last (fold_left put (map piece_of g) line)).
  { clear g. induction g as [|t g IH]; intros line H Hl; cbn [map fold_left]; [exact Hl|]. inv H.
    apply IH; [assumption|]. unfold put, piece_of. destruct line as [|c line].
    - destruct H2 as [H2|[H2 _]]; auto.
    - destruct H2 as [H2|[H2 ->]].
      + right. destruct (t_lead t); repeat apply ink_last_app; exact H2.
      + rewrite H2, app_nil_r. exact Hl. }
  intros H. apply G; auto.
Qed.

Lemma wrap_tight text w out : plain_space text -> wrap text w = Ok out ->
  exists lines, out = str_join [c_nl] lines /\ Forall ink_last lines /\ Forall one_line lines.
Proof.
  intros Hp E. destruct (wrap_ok _ _ _ E) as (ts & lines & Et & -> & Hf & Ho).
  exists lines. split; [reflexivity|]. split; [|exact Ho].
  assert (Hs := tokens_tight _ _ Hp Et). clear -Hf Hs.
  destruct Hf as (groups & rest & Ep & _ & -> & Hn & _).
  apply Forall_forall. intros line Hin. rewrite Forall_forall in Hn. specialize (Hn line Hin).
  apply in_map_iff in Hin. destruct Hin as (g & <- & Hin).
  apply in_split in Hin. destruct Hin as (g1 & g2 & ->). rewrite concat_app in Ep. cbn [concat] in Ep.
  rewrite <- !app_assoc in Ep. symmetry in Ep.
  destruct (map_eq_app _ _ _ _ (eq_sym Ep)) as (a & b & -> & _ & Eb).
  destruct (map_eq_app _ _ _ _ Eb) as (a' & b' & -> & Ea & _). subst g.
  apply Forall_app in Hs. destruct Hs as [_ Hs]. apply Forall_app in Hs.
  destruct (line_of_tight a' (proj1 Hs)) as [G|G]; [congruence|exact G].
Qed.
