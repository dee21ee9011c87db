(** No line of wrapped text begins with whitespace. *)
From Coq Require Import String.
From Verif Require Import Py Regex Utils TextWrap Base SpecLines SpecFormat SpecWrap SpecParagraph ProofsLines
  ProofsRegex ProofsScan ProofsWrap ProofsTokens ProofsParser ProofsChars ProofsLinks ProofsPieces ProofsFilled
  ProofsGaps ProofsTight.

Definition firm (t : tok) : Prop := begins_in_ink (t_text t).
Definition fair (t : tok) : Prop := t_text t = [] \/ begins_in_ink (t_text t).

Lemma begins_app s t : begins_in_ink s -> begins_in_ink (s ++ t).
Proof. intros (c & s' & -> & H). exists c, (s' ++ t). auto. Qed.

Lemma strip_fair s : strip s = [] \/ begins_in_ink (strip s).
Proof.
  destruct (strip s) as [|c r] eqn:E; [auto|]. right. exists c, r. split; [reflexivity|].
  eapply strip_head. exact E.
Qed.

Lemma strip_firm s : negb (blank s) = true -> begins_in_ink (strip s).
Proof.
  intros H. destruct (strip_fair s) as [E|E]; [|exact E]. exfalso. apply negb_true_iff in H.
  apply blank_strip in H. congruence.
Qed.

Lemma firm_app_last ts x : Forall firm ts -> Forall firm (app_last ts x).
Proof.
  intros H. induction H as [|t ts Ht Hts IH]; cbn; [constructor|]. destruct ts; constructor; auto.
  unfold firm. cbn. apply begins_app. exact Ht.
Qed.

Lemma fair_dot ts : Forall fair ts -> Forall fair (app_last ts [c_dot]).
Proof.
  intros H. induction H as [|t ts Ht Hts IH]; cbn; [constructor|]. destruct ts; constructor; auto.
  right. cbn. destruct Ht as [->|Ht]; [exists c_dot, []; auto|apply begins_app; exact Ht].
Qed.

Lemma firm_eval_last ts : Forall firm ts -> Forall firm (eval_last ts).
Proof. intros H. induction H as [|t ts Ht Hts IH]; cbn; [constructor|]. destruct ts; constructor; auto. Qed.

Lemma firm_fair ts : Forall firm ts -> Forall fair ts.
Proof. apply Forall_impl. intros t H. right. exact H. Qed.

Lemma firm_code_step text ls st m : In m (finditer INLINE_CODE_MARKER_REGEX text) ->
  Forall firm (fst (fst st)) -> Forall firm (fst (fst (code_step text ls st m))).
Proof.
  intros Hm Hst. destruct st as [[ts oml] le], m as [ms me]. cbn [fst] in *.
  apply (marker_slice text le) in Hm. destruct Hm as [Hlt _].
  assert (T : forall lead, firm (Tok (rep c_bt (me - ms)) lead false)).
  { intros lead. unfold firm. cbn. destruct (me - ms) as [|n] eqn:En; [lia|]. exists c_bt, (rep c_bt n). auto. }
  assert (Sn : forall ts q lead, Forall firm ts -> negb (blank q) = true -> Forall firm (ts ++ [Tok (strip q) lead true])).
  { intros. apply Forall_app. split; [assumption|]. constructor; [|constructor]. apply strip_firm. assumption. }
  unfold code_step. destruct (oml =? 0); [|destruct (me - ms =? oml)]; cbn [fst].
  - set (p := slice text le ms).
    destruct (one_dot p && negb (nilb ts)); [set (ts0 := app_last ts [c_dot])|set (ts0 := ts)];
      (assert (H0 : Forall firm ts0) by (subst ts0; auto using firm_app_last));
      [set (q := tl p)|set (q := p)];
      (destruct (negb (blank q)) eqn:Eb; cbn [fst]; apply Forall_app; auto using Forall_cons, Forall_nil).
  - apply firm_app_last. exact Hst.
  - apply firm_app_last. exact Hst.
Qed.

Lemma tail_spec ts rt le ls r : split_tail ts rt le ls = Ok r ->
  exists ts' rt', (ts' = ts \/ ts' = app_last ts [c_dot])
    /\ (r = ts' \/ (negb (blank rt') = true /\ exists lead, r = ts' ++ [Tok (strip rt') lead true])).
Proof.
  intros H. unfold split_tail in H. bind_inv H. destruct a as [ts' rt'].
  assert (G : ts' = ts \/ ts' = app_last ts [c_dot]).
  { destruct (one_dot rt).
    - destruct ts as [|t ts]; [discriminate|].
      apply ok_inj, pair_equal_spec in E. destruct E as [<- <-]. auto.
    - inv E. auto. }
  exists ts', rt'. split; [exact G|]. destruct (negb (blank rt')) eqn:Eb; inv H; eauto.
Qed.

Lemma firm_code_split text ls r : code_split text ls = Ok r -> Forall firm r.
Proof.
  intros H. unfold code_split in H.
  assert (G : forall ms st, (forall m, In m ms -> In m (finditer INLINE_CODE_MARKER_REGEX text)) ->
            Forall firm (fst (fst st)) -> Forall firm (fst (fst (fold_left (code_step text ls) ms st)))).
  { induction ms as [|m ms IH]; intros st Hin Hst; cbn; [exact Hst|].
    apply IH; [intros x Hx; apply Hin; right; exact Hx|].
    apply firm_code_step; auto. apply Hin. left. reflexivity. }
  specialize (G (finditer INLINE_CODE_MARKER_REGEX text) ([], 0, 0) ltac:(auto) ltac:(constructor)).
  destruct (fold_left _ _ _) as [[ts oml] le]. cbn [fst] in G.
  destruct (negb (nilb ts) && _).
  - destruct (negb (blank (skipn le text))) eqn:Eb; inv H; auto using firm_eval_last, firm_app_last.
  - apply tail_spec in H. destruct H as (ts' & rt' & Hts & H).
    assert (G' : Forall firm ts') by (destruct Hts as [->| ->]; auto using firm_app_last).
    destruct H as [->|(Hb & lead & ->)]; [exact G'|]. apply Forall_app. split; [exact G'|].
    constructor; [apply strip_firm; exact Hb|constructor].
Qed.

Lemma fair_link_step text ls st m st' :
  Forall fair (fst st) -> link_step text ls st m = Ok st' -> Forall fair (fst st').
Proof.
  intros Hst H. destruct st as [ts le], m as [ms me]. cbn [fst] in Hst.
  unfold link_step in H. set (n := slice text le ms) in *.
  match type of H with (let '(a, b) := ?x in _) = _ => destruct x as [ts1 lead] eqn:E end.
  assert (G : Forall fair ts1).
  { destruct (negb (blank n)) eqn:Eb; [|inv E; exact Hst].
    injection E as <- _. apply Forall_app. split.
    - destruct (negb (nilb ts) && one_dot n); auto using fair_dot.
    - constructor; [apply strip_fair|constructor]. }
  bind_inv H. destruct a as [a b]. ok_subst H. cbn [fst]. apply Forall_app. split; [exact G|].
  assert (S : fair (Tok a lead true) /\ fair (Tok b false false)).
  { unfold split_link in E0.
    assert (A : forall x d, is_space c_rbr = false ->
              begins_in_ink (strip x ++ [c_rbr; d])).
    { intros x d Hc. destruct (strip_fair x) as [->|Hx]; [exists c_rbr, [d]; auto|apply begins_app; exact Hx]. }
    destruct (contains [c_rbr; c_lpar] _).
    - destruct (split_on2 c_rbr c_lpar _) as [|x [|y l]]; [discriminate|discriminate|].
      injection E0 as <- <-. split; [right; apply A; reflexivity|apply strip_fair].
    - destruct (split_on2 c_rbr c_lbr _) as [|x [|y l]]; [discriminate|discriminate|].
      injection E0 as <- <-. split; [right; apply A; reflexivity|apply strip_fair]. }
  destruct S. auto.
Qed.

Lemma fair_link_split text ls r : link_split text ls = Ok r -> Forall fair r.
Proof.
  intros H. unfold link_split in H. bind_inv H. destruct a as [ts le].
  assert (G : forall ms st st', Forall fair (fst st) ->
            foldM (link_step text ls) ms st = Ok st' -> Forall fair (fst st')).
  { induction ms as [|m ms IH]; intros st st' Hst Hf; cbn in Hf.
    - inv Hf. exact Hst.
    - bind_inv Hf. eapply IH; [|exact Hf]. eapply fair_link_step; eauto. }
  apply G in E; [|constructor]. apply tail_spec in H. destruct H as (ts' & rt' & Hts & H).
  assert (G' : Forall fair ts') by (destruct Hts as [->| ->]; auto using fair_dot).
  destruct H as [->|(Hb & lead & ->)]; [exact G'|]. apply Forall_app. split; [exact G'|].
  constructor; [apply strip_fair|constructor].
Qed.

Lemma begins_break text a b : In (a, b) (finditer HTML_NEWLINE_REGEX text) -> begins_in_ink (slice text a b).
Proof.
  intros H. apply finditer_In in H.
  destruct H as (x & g & y & -> & _ & Hd & -> & ->). rewrite slice_mid in *.
  destruct Hd as (c1 & s1 & -> & Hc & _). exists c1, s1. split; [reflexivity|].
  apply N.eqb_eq in Hc. subst c1. reflexivity.
Qed.

Lemma fair_newline_split text ls r : newline_split text ls = Ok r -> Forall fair r.
Proof.
  intros H. unfold newline_split in H.
  assert (G : forall ms st, (forall m, In m ms -> In m (finditer HTML_NEWLINE_REGEX text)) ->
            Forall fair (fst st) -> Forall fair (fst (fold_left (newline_step text ls) ms st))).
  { induction ms as [|m ms IH]; intros st Hin Hst; cbn; [exact Hst|].
    apply IH; [intros x Hx; apply Hin; right; exact Hx|].
    destruct st as [ts le], m as [ms0 me]. cbn [fst] in Hst.
    assert (Hb := begins_break text ms0 me (Hin _ (or_introl eq_refl))). unfold newline_step.
    destruct (negb (blank (slice text le ms0))) eqn:Eb; cbn [fst]; apply Forall_app; (split; [exact Hst|]).
    - constructor; [apply strip_fair|]. constructor; [right; exact Hb|constructor].
    - constructor; [right; exact Hb|constructor]. }
  specialize (G (finditer HTML_NEWLINE_REGEX text) ([], 0) ltac:(auto) ltac:(constructor)).
  destruct (fold_left _ _ _) as [ts le]. cbn [fst] in G.
  destruct (negb (blank (skipn le text))) eqn:Eb; inv H; [|exact G].
  apply Forall_app. split; [exact G|]. constructor; [apply strip_fair|constructor].
Qed.

Lemma fair_space_split text ls r : space_split text ls = Ok r -> Forall fair r.
Proof.
  intros H. unfold space_split in H. ok_subst H.
  assert (G : forall ws ts, Forall fair ts -> Forall fair (fold_left (space_step ls) ws ts)).
  { induction ws as [|w ws IH]; intros ts Hts; cbn; [exact Hts|]. apply IH. unfold space_step.
    destruct (nilb w); [exact Hts|]. apply Forall_app. split; [exact Hts|].
    constructor; [apply strip_fair|constructor]. }
  apply G. constructor.
Qed.

Lemma tokens_fair text ts : wrap_tokens text = Ok ts -> Forall fair ts.
Proof.
  intros E. unfold wrap_tokens in E.
  apply bind_ok in E. destruct E as (t1 & E1 & E). apply bind_ok in E. destruct E as (t2 & E2 & E).
  apply bind_ok in E. destruct E as (t3 & E3 & E).
  assert (G1 : Forall fair t1).
  { rewrite split_pass_one in E1. eapply firm_fair, firm_code_split. exact E1. }
  assert (G2 : Forall fair t2).
  { eapply (pass_all fair fair link_split); [|auto|exact G1|exact E2].
    intros t x _ _ _ Ex. eapply fair_link_split. exact Ex. }
  assert (G3 : Forall fair t3).
  { eapply (pass_all fair fair newline_split); [|auto|exact G2|exact E3].
    intros t x _ _ _ Ex. eapply fair_newline_split. exact Ex. }
  eapply (pass_all fair fair space_split); [|auto|exact G3|exact E].
  intros t x _ _ _ Ex. eapply fair_space_split. exact Ex.
Qed.

Lemma line_of_fair g : Forall fair g -> line_of (map piece_of g) = [] \/ begins_in_ink (line_of (map piece_of g)).
Proof.
  unfold line_of. assert (G : forall g line, Forall fair g -> line = [] \/ begins_in_ink line ->
    fold_left put (map piece_of g) line = [] \/ begins_in_ink (fold_left put (map piece_of g) line)).
  { clear g. induction g as [|t g IH]; intros line H Hl; cbn [map fold_left]; [exact Hl|]. inv H.
    apply IH; [assumption|]. unfold put, piece_of. destruct line as [|c line].
    - destruct H2 as [H2|H2]; [left|right]; exact H2.
    - destruct Hl as [Hl|Hl]; [discriminate|]. right. destruct (t_lead t); apply begins_app; exact Hl. }
  intros H. apply G; auto.
Qed.

Lemma wrap_fair text w out : wrap text w = Ok out ->
  exists lines, out = str_join [c_nl] lines /\ Forall begins_in_ink lines /\ Forall one_line lines.
Proof.
  intros E. destruct (wrap_ok _ _ _ E) as (ts & lines & Et & -> & Hf & Ho).
  exists lines. split; [reflexivity|]. split; [|exact Ho].
  assert (Hs := tokens_fair _ _ Et). clear -Hf Hs.
  destruct Hf as (groups & rest & Ep & _ & -> & Hn & _).
  apply Forall_forall. intros line Hin. rewrite Forall_forall in Hn. specialize (Hn line Hin).
  apply in_map_iff in Hin. destruct Hin as (g & <- & Hin).
  apply in_split in Hin. destruct Hin as (g1 & g2 & ->). rewrite concat_app in Ep. cbn [concat] in Ep.
  rewrite <- !app_assoc in Ep. symmetry in Ep.
  destruct (map_eq_app _ _ _ _ (eq_sym Ep)) as (a & b & -> & _ & Eb).
  destruct (map_eq_app _ _ _ _ Eb) as (a' & b' & -> & Ea & _). subst g.
  apply Forall_app in Hs. destruct Hs as [_ Hs]. apply Forall_app in Hs.
  destruct (line_of_fair a' (proj1 Hs)) as [G|G]; [congruence|exact G].
Qed.
