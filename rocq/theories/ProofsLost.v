(** The whitespace a wrapped text with links has lost. *)
From Coq Require Import String.
From Verif Require Import Py Regex Utils TextWrap Lines Base SpecLines SpecParser SpecWrap SpecFormat ProofsLines
  ProofsRegex ProofsScan ProofsWrap ProofsTokens ProofsParser ProofsLinks ProofsPieces ProofsApart ProofsFilled
  ProofsChars ProofsGaps ProofsSeams ProofsBreaks.

Definition inky (s : str) : Prop := Forall (fun c => is_space c = false) s.

(** Whitespace between [a] and [b] that can be lost. *)
Definition lost (a b : str) : Prop :=
  (exists o b', In o (lit "([") /\ b = c_rbr :: o :: b')
  \/ (exists o a', In o (lit "([") /\ a = a' ++ [c_rbr; o] /\ ink_first b)
  \/ (exists a' c r p b', In c (lit ")]") /\ inky r /\ inky p /\ a = a' ++ c :: r /\ b = p ++ c_lbr :: b').

Section Lost.
Variable whole_text : str.

Definition lost_at (i : nat) : Prop :=
  exists a ws b, whole_text = a ++ ws ++ b /\ spaces ws /\ ws <> [] /\ length (ink a) = i /\ lost a b.

(** The text on the left, what is written on the right. *)
Fixpoint kept (i : nat) (m n : list (flag * char)) : Prop :=
  match m, n with
  | [], [] => True
  | (f, c) :: m, (g, d) :: n =>
      c = d /\ (f = Fs <-> g = Fs) /\ (gapf f = true -> gapf g = true \/ lost_at i) /\ kept (S i) m n
  | _, _ => False
  end.

Lemma kept_app m : forall i n m' n', kept i m n -> kept (i + length m) m' n' -> kept i (m ++ m') (n ++ n').
Proof.
  induction m as [|[f c] m IH]; intros i [|[g d] n] m' n' H H'; try contradiction.
  - cbn in H'. rewrite Nat.add_0_r in H'. exact H'.
  - destruct H as (<- & H1 & H2 & H3). cbn [app kept]. split; [reflexivity|]. split; [exact H1|]. split; [exact H2|].
    apply IH; [exact H3|]. cbn [length] in H'. replace (S i + length m) with (i + S (length m)) by lia. exact H'.
Qed.

Lemma kept_relm n m : Forall2 (relm True) n m -> forall i, kept i m n.
Proof.
  intros H. induction H as [|[g d] [f c] n m [H1 (H2 & _ & H3)] H IH]; intros i; [exact I|]. cbn in H1, H2, H3.
  split; [auto|]. split; [tauto|]. split; [|apply IH]. intros G. left. apply H3; [exact I|exact G].
Qed.

Lemma kept_head i F G s : ink_first s -> (F = Fs <-> G = Fs) -> (gapf F = true -> gapf G = true \/ lost_at i) ->
  kept i (marks F s) (marks G s).
Proof.
  intros (c & a & -> & Hc) H0 H1. cbn [marks]. rewrite Hc. split; [reflexivity|]. split; [exact H0|]. split; [exact H1|].
  apply kept_relm. apply relm_same, relf_refl.
Qed.

Lemma endf_fa ws : spaces ws -> (ws = [] /\ endf Fa ws = Fa) \/ (ws <> [] /\ gapf (endf Fa ws) = true).
Proof.
  intros H. destruct ws as [|c ws]; [auto|]. right. split; [discriminate|]. rewrite endf_adj by (auto; discriminate).
  destruct (in_dec N.eq_dec c_nl (c :: ws)); reflexivity.
Qed.

Definition closing (s : str) : Prop := exists a c r, s = a ++ c :: r /\ In c (lit ")]") /\ inky r.

Lemma closing_ink s : closing s -> ink_last s.
Proof.
  intros (a & c & r & -> & Hc & Hr). destruct r as [|d r _] using rev_ind.
  - exists a, c. split; [reflexivity|]. cbn in Hc. destruct Hc as [<-|[<-|[]]]; reflexivity.
  - exists (a ++ c :: r), d. split; [rewrite <- app_assoc; reflexivity|]. apply Forall_app in Hr. destruct Hr as [_ Hr].
    apply Forall_inv in Hr. exact Hr.
Qed.

(** * Links *)

Section Link.
Variables (before text behind : str) (p q : flag) (lead : bool).
Hypotheses (HS : whole_text = before ++ text ++ behind) (HA : links_apart text) (Hsp : spacing text)
  (Hpq : p = Fs <-> q = Fs) (H0 : relf True (endf p (lead_str lead)) (hdf q text)).
Let i0 := length (ink before).

Definition linked (ts : list tok) (le : nat) : Prop :=
  kept i0 (marks q (firstn le text)) (marks p (render ts)) /\ Forall (trim_tok True) ts
  /\ ((ts = [] /\ le = 0)
      \/ (ts <> [] /\ opens (skipn le text) /\ endf p (render ts) = Fa /\ closing (firstn le text))).

Lemma text_kept ts le gap rest (b : bool) :
  linked ts le -> text = firstn le text ++ gap ++ rest -> blank gap = false ->
  kept i0 (marks q (firstn le text ++ gap))
    (marks p (render (ts ++ [Tok (strip gap) (if nilb ts then lead else startswith [c_sp] gap) b]))).
Proof.
  intros (H1 & _ & H2) Et Hb. rewrite render_app, render_one, !marks_app. unfold render1. cbn [t_lead t_text].
  apply kept_app; [exact H1|]. apply kept_relm. apply relm_strip; [exact Hb|].
  destruct H2 as [[-> ->]|(Hn & _ & E & Hc)].
  - cbn [nilb render map concat endf firstn app] in *. rewrite Et, hdf_nonblank in H0 by exact Hb. exact H0.
  - apply nilb_false in Hn. rewrite Hn, E, (endf_ink _ _ (closing_ink _ Hc)). apply relf_first; [discriminate|].
    intros _. split; [reflexivity|]. unfold spacing in *. rewrite Et in Hsp. apply Forall_app in Hsp. destruct Hsp as [_ Hsp'].
    apply Forall_app in Hsp'. apply Hsp'.
Qed.

Lemma link_step_kept ts le m ts' le' :
  link_at text m -> edges text m -> le <= fst m -> fst m < snd m -> le <= length text ->
  linked ts le -> link_step text lead (ts, le) m = Ok (ts', le') -> le' = snd m /\ linked ts' le'.
Proof.
  intros Hm (x & g & y & Et & Ha & Hb & Hy & Hx) Hle Hlt Hlen HL. assert (HL' := HL). destruct HL' as (H1 & T1 & H2).
  destruct Hm as (x' & g' & y' & lp & lq & lu & lr & o & cl & Et' & Hl & Ha' & Hb').
  assert (x' = x /\ g' = g /\ y' = y).
  { rewrite Et in Et'. apply app_len_inj in Et'; [|congruence]. destruct Et' as [-> Et'].
    apply app_len_inj in Et'; [|lia]. destruct Et' as [-> ->]. auto. }
  destruct H as (-> & -> & ->). clear Et' Ha' Hb'.
  destruct m as [a b]. cbn [fst snd] in *. unfold link_step.
  assert (Sg : slice text a b = g) by (rewrite Et, Ha, Hb; apply slice_mid). rewrite Sg.
  rewrite (split_link_at g lp lq lu lr o cl Hl) by (rewrite Et in HA; eapply links_apart_infix; exact HA).
  destruct Hl as [Eg K Hp _ _ Hr].
  set (L := lp ++ [c_lbr] ++ lq). set (Y := lu ++ [cl] ++ lr).
  assert (EP : g = L ++ [c_rbr; o] ++ Y) by (rewrite Eg; unfold L, Y; rewrite <- !app_assoc; reflexivity).
  set (gap := slice text le a).
  assert (Fa' : firstn a text = firstn le text ++ gap) by (apply firstn_slice; lia).
  assert (Ex : firstn a text = x) by (rewrite Et, Ha, firstn_app, Nat.sub_diag, firstn_all, app_nil_r; reflexivity).
  assert (Eall : text = firstn le text ++ gap ++ g ++ y) by (rewrite app_assoc, <- Fa', Ex; exact Et).
  assert (Hgo : ts <> [] -> opens gap).
  { intros Hn c s' Ec. destruct H2 as [[-> _]|(_ & H2 & _)]; [congruence|]. apply (H2 c (s' ++ g ++ y)).
    rewrite app_comm_cons, <- Ec. apply (app_inv_head (firstn le text)). rewrite firstn_skipn. exact Eall. }
  assert (HpI : inky lp) by (eapply Forall_impl; [|exact Hp]; cbn; tauto).
  assert (Hgf : ink_first L).
  { unfold L. destruct lp as [|c lp']; [exists c_lbr, lq; auto|]. exists c, (lp' ++ [c_lbr] ++ lq). split; [reflexivity|].
    apply Forall_inv in HpI. exact HpI. }
  match goal with |- context [let '(ts, lead_link) := ?X in _] =>
    assert (A : exists ts1 ll, X = (ts1, ll) /\ kept i0 (marks q x) (marks p (render ts1)) /\ Forall (trim_tok True) ts1
      /\ (endf q x = Fs <-> endf p (render ts1 ++ lead_str ll) = Fs)
      /\ (gapf (endf q x) = true -> gapf (endf p (render ts1 ++ lead_str ll)) = true \/ lost_at (i0 + length (ink x)))) end.
  { destruct (blank gap) eqn:Eb; cbn [negb]; eexists; eexists; (split; [reflexivity|]).
    - assert (Hs : spaces gap) by (apply spaces_forallb, blank_spec, Eb).
      rewrite <- Ex, Fa'. split; [rewrite marks_app, (marks_spaces _ gap Hs), app_nil_r; exact H1|]. split; [exact T1|].
      rewrite !endf_app. destruct H2 as [[-> ->]|(Hn & _ & E & Hc)].
      + cbn [nilb render map concat endf firstn app] in *.
        assert (Eh : hdf q text = endf q gap).
        { rewrite Eall, hdf_spaces, hdf_ink; [reflexivity| |exact Hs]. rewrite EP. destruct Hgf as (c & w & -> & Hc).
          exists c. eexists. split; [reflexivity|exact Hc]. }
        rewrite Eh in H0. destruct H0 as (G1 & _ & G2). split; [tauto|]. intros G. left. apply G2; auto.
      + apply nilb_false in Hn. rewrite Hn. cbn [lead_str endf]. rewrite E, (endf_ink _ _ (closing_ink _ Hc)).
        destruct (endf_fa gap Hs) as [[Eg0 E1]|[Hg E1]].
        * rewrite E1. split; [tauto|auto].
        * split; [split; [intros X; rewrite X in E1; discriminate|discriminate]|]. intros _. right.
          exists (before ++ firstn le text), gap, (g ++ y ++ behind).
          split; [rewrite HS, Eall at 1; rewrite <- !app_assoc; reflexivity|]. split; [exact Hs|]. split; [exact Hg|].
          split; [rewrite !ink_app, (ink_spaces gap Hs), app_nil_r, app_length; reflexivity|].
          right. right. destruct Hc as (a' & c & r & Ec & Hc & Hr'). exists (before ++ a'), c, r, lp, (lq ++ [c_rbr; o] ++ Y ++ y ++ behind).
          split; [exact Hc|]. split; [exact Hr'|]. split; [exact HpI|].
          split; [rewrite Ec, <- !app_assoc; reflexivity|].
          rewrite EP. unfold L. rewrite <- !app_assoc. reflexivity.
    - assert (Ed : negb (nilb ts) && one_dot gap = false).
      { destruct ts as [|t ts]; [reflexivity|]. cbn [nilb negb andb]. apply opens_dot, Hgo. discriminate. }
      rewrite Ed. rewrite <- Ex, Fa'. split; [eapply text_kept; [exact HL|exact Eall|exact Eb]|].
      split; [apply Forall_app; split; [exact T1|]; constructor; [|constructor]; intros _; apply trim_strip; exact Eb|].
      rewrite (endf_app p), (endf_ink p _ (render_text_last _ _ _ _ Eb)).
      assert (Hgn : gap <> []) by (intros X; rewrite X in Eb; discriminate).
      destruct (exists_last Hgn) as (gap' & c & Egc).
      assert (Enth : nth_error text (a - 1) = Some c).
      { assert (La : a - 1 = length (firstn le text ++ gap')).
        { assert (L1 := f_equal (@length _) Fa'). rewrite Egc, !app_length in L1. rewrite Ex, <- Ha in L1. cbn [length] in L1.
          rewrite app_length. lia. }
        assert (E1 : text = (firstn le text ++ gap') ++ c :: g ++ y) by (rewrite Eall at 1; rewrite Egc, <- !app_assoc; reflexivity).
        rewrite La. rewrite E1 at 1. rewrite nth_error_app2 by lia. rewrite Nat.sub_diag. reflexivity. }
      rewrite Enth.
      assert (HcS : is_space c = true -> c = c_sp).
      { intros X. unfold spacing in Hsp. rewrite Forall_forall in Hsp. apply Hsp; [|exact X]. rewrite Eall, Egc.
        rewrite !in_app_iff. right. left. right. left. reflexivity. }
      rewrite Egc, app_assoc, endf_app. cbn [endf]. destruct (is_space c) eqn:Ec.
      + rewrite (HcS eq_refl), N.eqb_refl. cbn [lead_str endf].
        assert (Hne : endf q (firstn le text ++ gap') <> Fs).
        { rewrite endf_start. intros [_ E]. apply (f_equal (map snd)) in E. rewrite marks_ink in E. cbn [map] in E.
          apply ink_ne_blank in Eb. apply Eb. rewrite Egc, ink_app. rewrite ink_app in E. apply app_eq_nil in E. destruct E as [_ ->].
          cbn. unfold not_space. rewrite Ec. reflexivity. }
        destruct (endf q (firstn le text ++ gap')); cbn; try congruence; split; auto; split; discriminate.
      + destruct (N.eqb_spec c c_sp) as [->|_]; [discriminate|]. cbn. split; [tauto|discriminate]. }
  destruct A as (ts1 & ll & -> & A1 & A2 & A3 & A4). cbn [bind]. intros E. injection E as <- <-. split; [reflexivity|].
  assert (Hb0 : blank L = false).
  { apply ink_ne_blank. unfold L. rewrite ink_app. destruct (ink lp); discriminate. }
  assert (HcY : closing Y) by (exists lu, cl, lr; split; [reflexivity|]; split;
    [destruct K as [[_ ->]|[_ ->]]; cbn; auto|eapply Forall_impl; [|exact Hr]; cbn; tauto]).
  assert (HbY : blank Y = false) by (apply ink_last_nonblank, closing_ink, HcY).
  assert (EL : exists wsL, L = strip L ++ wsL /\ spaces wsL).
  { destruct (strip_spec L) as (w1 & w2 & E & G1 & G2). apply spaces_forallb in G1, G2. exists w2. split; [|exact G2].
    destruct w1 as [|w w1]; [exact E|]. exfalso. destruct Hgf as (c & u & Ec & Hc). rewrite Ec in E at 1. injection E as -> _.
    apply Forall_inv in G1. congruence. }
  destruct EL as (wsL & EL & HwL).
  assert (EY : exists wsY, Y = wsY ++ strip Y /\ spaces wsY).
  { destruct (strip_spec Y) as (w1 & w2 & E & G1 & G2). apply spaces_forallb in G1, G2. exists w1. split; [|exact G1].
    destruct w2 as [|w w2 _] using rev_ind; [rewrite app_nil_r in E; exact E|]. exfalso.
    destruct (closing_ink _ HcY) as (u & c & Ec & Hc). rewrite Ec in E at 1. rewrite !app_assoc in E.
    apply app_inj_tail in E. destruct E as [_ ->]. apply Forall_app in G2. destruct G2 as [_ G2]. apply Forall_inv in G2. congruence. }
  destruct EY as (wsY & EY & HwY).
  destruct (strip_ends L Hb0) as [HL1 HL2]. destruct (strip_ends Y HbY) as [HY1 HY2].
  set (L' := strip L) in *. set (Y' := strip Y) in *.
  assert (Ho : is_space o = false) by (destruct K as [[-> _]|[-> _]]; reflexivity).
  assert (HoI : In o (lit "([")) by (destruct K as [[-> _]|[-> _]]; cbn; auto).
  assert (Hro : ink_last [c_rbr; o]) by (exists [c_rbr], o; auto).
  assert (Fb : firstn b text = x ++ L' ++ wsL ++ [c_rbr; o] ++ wsY ++ Y').
  { rewrite (firstn_slice text a b) by lia. rewrite Sg, EP, Ex, EL, EY, <- !app_assoc. reflexivity. }
  assert (Er : render (ts1 ++ [Tok (L' ++ [c_rbr; o]) ll true; Tok Y' false false])
               = (render ts1 ++ lead_str ll) ++ L' ++ [c_rbr; o] ++ Y').
  { rewrite render_app, <- app_assoc. f_equal. unfold render, render1. cbn [map concat t_lead t_text lead_str app].
    rewrite app_nil_r, <- !app_assoc. reflexivity. }
  assert (EW : whole_text = before ++ x ++ L' ++ wsL ++ [c_rbr; o] ++ wsY ++ Y' ++ y ++ behind).
  { rewrite HS, Et, EP, EL, EY, <- !app_assoc. reflexivity. }
  split; [|split].
  - rewrite Fb, Er. rewrite !(marks_app _ x), !(marks_app _ (render ts1 ++ lead_str ll)). apply kept_app.
    { rewrite marks_app, (marks_spaces _ (lead_str ll)), app_nil_r by (destruct ll; repeat constructor). exact A1. }
    rewrite !(marks_app _ L'). apply kept_app.
    { apply kept_head; [exact HL1|exact A3|]. rewrite marks_length. exact A4. }
    rewrite !(endf_ink _ L' HL2), (marks_app _ wsL), (marks_spaces _ wsL HwL). cbn [app].
    change (c_rbr :: o :: ?s) with ([c_rbr; o] ++ s). rewrite !(marks_app _ [c_rbr; o]). apply kept_app.
    { apply kept_head; [exists c_rbr, [o]; auto| |].
      - destruct (endf_fa wsL HwL) as [[_ ->]|[_ E]]; [tauto|]. split; intros X; [rewrite X in E|]; discriminate.
      - intros G. right. destruct (endf_fa wsL HwL) as [[_ E]|[Hn _]]; [rewrite E in G; discriminate|].
        exists (before ++ x ++ L'), wsL, ([c_rbr; o] ++ wsY ++ Y' ++ y ++ behind).
        split; [rewrite EW, <- !app_assoc; reflexivity|]. split; [exact HwL|]. split; [exact Hn|].
        split; [rewrite !ink_app, !app_length, !marks_length; unfold i0; lia|]. left. exists o, (wsY ++ Y' ++ y ++ behind). auto. }
    rewrite !(endf_ink _ [c_rbr; o] Hro), (marks_app _ wsY), (marks_spaces _ wsY HwY). cbn [app].
    apply kept_head; [exact HY1| |].
    + destruct (endf_fa wsY HwY) as [[_ ->]|[_ E]]; [tauto|]. split; intros X; [rewrite X in E|]; discriminate.
    + intros G. right. destruct (endf_fa wsY HwY) as [[_ E]|[Hn _]]; [rewrite E in G; discriminate|].
      exists (before ++ x ++ L' ++ wsL ++ [c_rbr; o]), wsY, (Y' ++ y ++ behind).
      split; [rewrite EW, <- !app_assoc; reflexivity|]. split; [exact HwY|]. split; [exact Hn|].
      split; [rewrite !ink_app, !app_length, !marks_length, (ink_spaces wsL HwL); unfold i0; cbn [length]; lia|].
      right. left. exists o, (before ++ x ++ L' ++ wsL). split; [exact HoI|]. split; [rewrite <- !app_assoc; reflexivity|].
      destruct HY1 as (c & w & -> & Hc). exists c. eexists. split; [reflexivity|exact Hc].
  - apply Forall_app. split; [exact A2|]. constructor; [|constructor; [|constructor]].
    + intros _. right. cbn [t_text]. destruct HL1 as (c & w & Ec & Hc). rewrite Ec. split.
      * exists c. eexists. split; [reflexivity|exact Hc].
      * apply ink_last_app. exact Hro.
    + intros E. discriminate.
  - right. split; [destruct ts1; discriminate|]. split; [|split].
    + rewrite Et, Hb. replace (x ++ g ++ y) with ((x ++ g) ++ y) by (rewrite <- app_assoc; reflexivity).
      rewrite <- app_length, skipn_pre. exact Hy.
    + rewrite Er. apply endf_ink. do 3 apply ink_last_app. exact HY2.
    + rewrite (firstn_slice text a b) by lia. rewrite Sg, EP. destruct HcY as (u & c & r & Ec & Hc & Hr').
      exists ((firstn a text ++ L ++ [c_rbr; o]) ++ u), c, r. split; [rewrite Ec, <- !app_assoc; reflexivity|auto].
Qed.

Lemma link_fold_kept ms : Forall (fun m => link_at text m /\ edges text m) ms ->
  forall ts le ts' le', chain (length text) le ms -> le <= length text -> linked ts le ->
  foldM (link_step text lead) ms (ts, le) = Ok (ts', le') -> linked ts' le' /\ le' <= length text.
Proof.
  intros H. induction H as [|m ms [Hm He] H IH]; intros ts le ts' le' HC Hle Hi E.
  - apply ok_inj in E. injection E as <- <-. auto.
  - cbn [chain] in HC. destruct HC as (H1 & H2 & H3 & HC). cbn [foldM] in E.
    apply bind_ok in E. destruct E as ([ts1 le1] & E1 & E).
    destruct (link_step_kept _ _ _ _ _ Hm He H1 H2 Hle Hi E1) as [-> G]. eapply IH; [exact HC|exact H3|exact G|exact E].
Qed.

Lemma link_split_kept r : ink_last text -> link_split text lead = Ok r ->
  kept i0 (marks q text) (marks p (render r)) /\ Forall (trim_tok True) r /\ endf p (render r) = Fa.
Proof.
  intros Hla E. unfold link_split in E. apply bind_ok in E. destruct E as ([ts le] & E1 & E).
  assert (HF : Forall (fun m => link_at text m /\ edges text m) (link_matches text)).
  { assert (G1 := link_matches_at text). assert (G2 := link_matches_edges text). rewrite Forall_forall in *. auto. }
  destruct (link_fold_kept (link_matches text) HF [] 0 ts le) as [HL Hle];
    [apply link_matches_chain; exact HA|lia|split; [exact I|split; [constructor|auto]]|exact E1|].
  assert (HL' := HL). destruct HL' as (H1 & T1 & H2).
  assert (Et := firstn_skipn le text). unfold split_tail in E.
  assert (Ed : one_dot (skipn le text) = true -> ts = []).
  { intros Ed. destruct H2 as [[-> _]|[_ [H2 _]]]; [reflexivity|]. rewrite (opens_dot _ H2) in Ed. discriminate. }
  destruct (one_dot (skipn le text)); [rewrite (Ed eq_refl) in E; discriminate|]. cbn [bind] in E.
  destruct (blank (skipn le text)) eqn:Eb; cbn [negb] in E; apply ok_inj in E; subst r.
  - assert (Hs : spaces (skipn le text)) by (apply spaces_forallb, blank_spec, Eb).
    rewrite <- Et at 1. rewrite marks_app, (marks_spaces _ _ Hs), app_nil_r. split; [exact H1|]. split; [exact T1|].
    destruct H2 as [[-> ->]|(_ & _ & G & _)]; [|exact G]. exfalso. cbn [skipn] in Eb.
    apply ink_last_nonblank in Hla. congruence.
  - assert (En : (if le =? 0 then lead else startswith [c_sp] (skipn le text)) = (if nilb ts then lead else startswith [c_sp] (skipn le text))).
    { destruct H2 as [[-> ->]|(Hn & _ & _ & G)]; [reflexivity|]. apply nilb_false in Hn. rewrite Hn.
      destruct le; [|reflexivity]. apply closing_ink, ink_last_ne in G. destruct (G eq_refl). }
    rewrite En. rewrite <- Et at 1. split; [|split].
    + apply (text_kept ts le (skipn le text) [] true HL); [rewrite app_nil_r; symmetry; exact Et|exact Eb].
    + apply Forall_app. split; [exact T1|]. constructor; [|constructor]. intros _. apply trim_strip. exact Eb.
    + rewrite (endf_ink _ _ (render_text_last _ _ _ _ Eb)). reflexivity.
Qed.
End Link.
End Lost.

(** * In words *)

Lemma words_suffix z a : z <> [] -> inky z -> exists u w, words (a ++ z) = u ++ [w ++ z].
Proof.
  intros Hn H. induction a as [|c a IH].
  - exists [], []. cbn [app]. apply words_one; assumption.
  - destruct IH as (u & w & E). cbn [app]. destruct (is_space c) eqn:Hc.
    + rewrite words_cons_space by exact Hc. eauto.
    + destruct (words_cons_ink c (a ++ z) Hc) as (w' & ws & E' & [[E2 ->]|E2]); rewrite E'.
      * exists ([c] :: u), w. rewrite <- E2, E. reflexivity.
      * rewrite E in E2. destruct u as [|u0 u]; cbn [app] in E2; injection E2 as <- <-.
        -- exists [], (c :: w). reflexivity.
        -- exists ((c :: u0) :: u), w. reflexivity.
Qed.

Lemma lost_words s i : 0 < i -> lost_at s i -> link_gap s i.
Proof.
  intros Hi (a & ws & b & Es & Hw & Hn & Ei & Hl).
  assert (Ew : words s = words a ++ words b) by (rewrite Es; apply words_app_spaces; assumption).
  rewrite ink_words in Ei.
  assert (Hwa : words a <> []) by (intros X; rewrite X in Ei; cbn in Ei; lia).
  assert (J : forall o, In o (lit "([") -> In [c_rbr; o] [lit "]("; lit "]["]).
  { intros o Ho. cbn in Ho. destruct Ho as [<-|[<-|[]]]; [left|right; left]; reflexivity. }
  assert (N : forall o, In o (lit "([") -> inky [c_rbr; o]).
  { intros o Ho. cbn in Ho. destruct Ho as [<-|[<-|[]]]; repeat constructor. }
  assert (F : forall u wa wb v, words a = u ++ [wa] -> words b = wb :: v ->
    ((exists z r, In z [lit "]("; lit "]["] /\ wb = z ++ r)
        \/ (exists z r, In z [lit "]("; lit "]["] /\ wa = r ++ z)
        \/ ((In c_rpar wa \/ In c_rbr wa) /\ In c_lbr wb)) -> link_gap s i).
  { intros u wa wb v Ea Eb H. exists u, wa, wb, v. split; [rewrite Ew, Ea, Eb, <- app_assoc; reflexivity|].
    split; [rewrite <- Ea; exact Ei|exact H]. }
  destruct Hl as [(o & b' & Ho & Eb)|[(o & a' & Ho & Ea & (y & b' & Eb & Hy))|(a' & c & r & p & b' & Hc & Hr & Hp & Ea & Eb)]].
  - destruct (exists_last Hwa) as (u & wa & Ea). change (c_rbr :: o :: b') with ([c_rbr; o] ++ b') in Eb.
    destruct (words_prefix [c_rbr; o] b' ltac:(discriminate) (N o Ho)) as (w & v & E). rewrite <- Eb in E.
    eapply F; [exact Ea|exact E|]. left. exists [c_rbr; o], w. auto.
  - destruct (words_suffix [c_rbr; o] a' ltac:(discriminate) (N o Ho)) as (u & w & E). rewrite <- Ea in E.
    destruct (words_prefix [y] b' ltac:(discriminate) ltac:(repeat constructor; exact Hy)) as (w' & v & E').
    cbn [app] in E'. rewrite <- Eb in E'. eapply F; [exact E|exact E'|]. right. left. exists [c_rbr; o], w. auto.
  - assert (Hcr : inky (c :: r)) by (constructor; [cbn in Hc; destruct Hc as [<-|[<-|[]]]; reflexivity|exact Hr]).
    destruct (words_suffix (c :: r) a' ltac:(discriminate) Hcr) as (u & w & E). rewrite <- Ea in E.
    change (p ++ c_lbr :: b') with (p ++ [c_lbr] ++ b') in Eb. rewrite app_assoc in Eb.
    destruct (words_prefix (p ++ [c_lbr]) b') as (w' & v & E').
    { destruct p; discriminate. }
    { apply Forall_app. split; [exact Hp|repeat constructor]. }
    rewrite <- Eb in E'. eapply F; [exact E|exact E'|]. right. right. split.
    + cbn in Hc. rewrite !in_app_iff. cbn. destruct Hc as [<-|[<-|[]]]; tauto.
    + rewrite !in_app_iff. cbn. auto.
Qed.

(** * The passes *)

Lemma link_pass_kept s ts : forall done r p q,
  s = render (done ++ ts) -> Forall (trim_tok True) ts ->
  Forall (fun t => t_eval t = true -> links_apart (t_text t) /\ spacing (t_text t)) ts ->
  split_pass link_split ts = Ok r -> relf True p q ->
  kept s (length (ink (render done))) (marks q (render ts)) (marks p (render r)) /\ Forall (trim_tok True) r.
Proof.
  induction ts as [|t ts IH]; intros done r p q Es Ht HL E Hpq.
  - apply ok_inj in E. subst r. split; [exact I|constructor].
  - rewrite split_pass_cons in E. apply bind_ok in E. destruct E as (a & Ea & E).
    apply bind_ok in E. destruct E as (b & Eb & E). apply ok_inj in E. subst r.
    rewrite render_app, render_cons, !marks_app.
    assert (A : kept s (length (ink (render done))) (marks q (render1 t)) (marks p (render a)) /\ Forall (trim_tok True) a
                /\ relf True (endf p (render a)) (endf q (render1 t))).
    { destruct (t_eval t) eqn:Et.
      - destruct (Forall_inv Ht Et) as [[_ K]|[H1 H2]]; [destruct (K I)|].
        destruct (Forall_inv HL Et) as [HA Hsp].
        assert (Ew : s = (render done ++ lead_str (t_lead t)) ++ t_text t ++ render ts).
        { rewrite Es, render_app, render_cons. unfold render1. rewrite <- !app_assoc. reflexivity. }
        assert (Ei : length (ink (render done)) = length (ink (render done ++ lead_str (t_lead t)))).
        { rewrite ink_app, (ink_spaces (lead_str _)), app_nil_r by (destruct (t_lead t); repeat constructor). reflexivity. }
        destruct (link_split_kept s _ _ _ p (endf q (lead_str (t_lead t))) (t_lead t) Ew HA Hsp) with (r := a) as (K1 & K2 & K3).
        + destruct Hpq as (K & _). rewrite K. unfold lead_str. destruct (t_lead t); cbn; [|tauto].
          destruct q; cbn; split; congruence.
        + rewrite hdf_ink by exact H1. apply relm_same. exact Hpq.
        + exact H2.
        + exact Ea.
        + unfold render1. rewrite marks_app, endf_app.
          rewrite (marks_spaces q (lead_str _)) by (destruct (t_lead t); repeat constructor).
          rewrite Ei. split; [exact K1|]. split; [exact K2|]. rewrite K3, (endf_ink _ _ H2). apply relf_refl.
      - apply ok_inj in Ea. subst a. rewrite render_one. destruct (relm_same True (render1 t) p q Hpq) as [K1 K2].
        split; [apply kept_relm; exact K1|]. split; [|exact K2]. constructor; [intros X; congruence|constructor]. }
    destruct A as (A1 & A2 & A3).
    destruct (IH (done ++ [t]) b (endf p (render a)) (endf q (render1 t))) as [B1 B2].
    + rewrite Es, <- app_assoc. reflexivity.
    + exact (Forall_inv_tail Ht).
    + exact (Forall_inv_tail HL).
    + exact Eb.
    + exact A3.
    + split; [|apply Forall_app; auto]. apply kept_app; [exact A1|]. rewrite marks_length.
      rewrite render_app, render_one, ink_app, app_length in B1. exact B1.
Qed.

Lemma kept_nth s m : forall i n j f c, kept s i m n -> nth_error m j = Some (f, c) -> gapf f = true ->
  (exists g, nth_error n j = Some (g, c) /\ gapf g = true) \/ lost_at s (i + j).
Proof.
  induction m as [|[f0 c0] m IH]; intros i n j f c H E G; [destruct j; discriminate|].
  destruct n as [|[g0 d0] n]; [destruct H|]. destruct H as (<- & _ & H1 & H2). destruct j as [|j].
  - injection E as -> ->. rewrite Nat.add_0_r. destruct (H1 G) as [K|K]; [left; exists g0; auto|auto].
  - cbn [nth_error] in *. replace (i + S j) with (S i + j) by lia. eapply IH; eassumption.
Qed.

Lemma relm_words s t : Forall2 (relm True) (marks Fs s) (marks Fs t) -> words s = words t.
Proof.
  intros H. apply word_marks_inj.
  - eapply Forall_impl; [|apply words_not_space]. cbn. tauto.
  - eapply Forall_impl; [|apply words_not_space]. cbn. tauto.
  - rewrite <- !(norm_words _ Fs) by discriminate. induction H as [|[f c] [g d] m n [H1 (H2 & H3 & H4)] H IH]; [reflexivity|].
    cbn [map]. f_equal; [|exact IH]. cbn in H1, H2, H3, H4. subst d. unfold norm. cbn [fst snd]. f_equal.
    destruct f, g; cbn in *; try reflexivity; exfalso; intuition discriminate.
Qed.

(** Whitespace of the text is whitespace of the wrapped text, or it is in or beside a link. *)
Lemma wrap_gaps_links text w out i ws :
  links_apart (joined text) -> plain_space text -> wrap text w = Ok out -> gap_at text i ws ->
  (exists ws', gap_at out i ws') \/ link_gap text i.
Proof.
  intros HA Hp E Hg. apply wrap_ok in E. destruct E as (ts & lines & E & -> & Hf & _).
  apply (gap_same_words text (joined text)) in Hg; [|symmetry; apply words_joined]. destruct Hg as (ws' & Hg).
  apply gap_mark in Hg. destruct Hg as (c & Hg & Hi).
  assert (Gg : gapf (if in_dec N.eq_dec c_nl ws' then Fn else Fg) = true) by (destruct (in_dec N.eq_dec c_nl ws'); reflexivity).
  set (g0 := if in_dec N.eq_dec c_nl ws' then Fn else Fg) in *. clearbody g0.
  unfold wrap_tokens in E. apply bind_ok in E. destruct E as (t1 & E1 & E).
  apply bind_ok in E. destruct E as (t2 & E2 & E). apply bind_ok in E. destruct E as (t3 & E3 & E4).
  assert (C1 := E1). apply code_pass_inv in C1. destruct C1 as [_ C1].
  assert (Hsp := spacing_joined text Hp).
  assert (E1' := E1). rewrite split_pass_one in E1'.
  destruct (code_split_keeps True (joined text) false t1 Fs Fs (fun _ => Hsp) (start_rel _ _ _) ltac:(tauto) E1') as (K1 & _ & T1).
  set (P := fun c => is_space c = true -> c = c_sp).
  assert (Pi : forall c, is_inline c = true -> P c).
  { intros d H. unfold P. intros Hs. unfold is_inline in H. apply existsb_exists in H.
    destruct H as (x & Hin & Ex). apply N.eqb_eq in Ex. subst x. cbn in Hin.
    repeat destruct Hin as [<-|Hin]; try reflexivity; try discriminate Hs; destruct Hin. }
  assert (P0 : Forall (fun t => Forall P (t_text t)) [Tok (joined text) false true]) by (constructor; [exact Hsp|constructor]).
  assert (P1 : Forall (fun t => Forall P (t_text t)) t1).
  { eapply (okt_split_pass P); [exact (okt_code_split P Pi)|exact P0|exact E1]. }
  assert (P2 : Forall (fun t => Forall P (t_text t)) t2).
  { eapply (okt_split_pass P); [exact (okt_link_split P Pi)|exact P1|exact E2]. }
  destruct (link_pass_kept (render t1) t1 [] t2 Fs Fs eq_refl T1) as [K2 T2].
  { apply Forall_forall. intros t Hin He. rewrite Forall_forall in C1, P1. split; [|apply P1; exact Hin].
    specialize (C1 t Hin). unfold code_tok in C1. rewrite He in C1. destruct C1 as (x & y & Ex & _).
    eapply links_apart_infix. rewrite <- Ex. exact HA. }
  { exact E2. }
  { apply relf_refl. }
  cbn [render map concat] in K2. change (length (ink [])) with 0 in K2.
  assert (K3 : Forall2 (relm True) (marks Fs (render t3)) (marks Fs (render t2))).
  { eapply pass_keeps; [|exact newline_nil|exact P2|exact T2|exact E3]. intros t r p q H1 H2 H3 H4 H5.
    destruct (newline_split_keeps True _ _ _ p q (fun _ => H1) H4 H5 H3) as (G1 & G2 & _). auto. }
  assert (T3 : Forall (trim_tok True) t3).
  { eapply pass_trim; [|exact P2|exact E3]. intros t r H1 H2 H3.
    destruct (newline_split_keeps True _ _ _ Fs Fs (fun _ => H1) (start_rel _ _ _) ltac:(tauto) H3) as (_ & _ & G). exact G. }
  assert (K4 : Forall2 (relm True) (marks Fs (render ts)) (marks Fs (render t3))).
  { eapply (pass_keeps True space_split t3 ts (fun _ => True)); [|exact space_nil|apply Forall_forall; auto|exact T3|exact E4].
    intros t r p q _ H2 H3 H4 H5. eapply space_split_keeps; eassumption. }
  destruct (Forall2_nth_r _ _ _ _ _ K1 Hg) as ([f d] & H1 & Ed & R1). cbn [fst snd] in R1, Ed. subst d. destruct R1 as (_ & _ & R1).
  specialize (R1 I Gg).
  destruct (kept_nth _ _ _ _ _ _ _ K2 H1 R1) as [(g & H2 & R2)|HX].
  - left. assert (K5 := relm_trans _ _ _ _ K4 K3).
    destruct (Forall2_nth_r _ _ _ _ _ K5 H2) as ([f' d'] & H3 & _ & R3). cbn [fst snd] in R3. destruct R3 as (_ & _ & R3).
    specialize (R3 I R2).
    destruct (Forall2_nth_r _ _ _ _ _ (lines_relo _ _ _ Hf) H3) as ([f'' d''] & H4 & _ & R4). cbn [fst snd] in R4.
    destruct R4 as (_ & _ & R4). destruct (mark_gap_at _ _ _ _ H4 (R4 R3)) as (ws'' & G' & _). eauto.
  - right. cbn [Nat.add] in HX. apply lost_words in HX; [|exact Hi].
    destruct HX as (u & a & b & v & Ew & Hlen & H). exists u, a, b, v. split; [|auto].
    rewrite <- Ew, (relm_words _ _ K1), words_joined. reflexivity.
Qed.
