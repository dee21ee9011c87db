(** Wrapping wrapped text: the pieces of the output are the pieces of the input, with a
    space before those that begin a line. *)
From Coq Require Import String.
From Verif Require Import Py Regex Utils TextWrap Base SpecLines ProofsLines ProofsRegex SpecWrap
  ProofsScan ProofsWrap ProofsTokens ProofsParser ProofsLinks ProofsPieces ProofsFilled ProofsCode
  ProofsGaps ProofsSeams SpecFormat PropsWrap.

(** * Reading inline code *)

(** What stands between the first and the last run of backticks of a span opened with [k]. *)
Inductive inner (k : nat) : str -> Prop :=
| inner_gap g : g <> [] -> no_tick g -> inner k g
| inner_run g j x : g <> [] -> no_tick g -> 0 < j -> j <> k -> inner k x ->
    inner k (g ++ rep c_bt j ++ x).

Definition dotted (dot rest : str) : Prop :=
  (dot = [c_dot] /\ one_dot (dot ++ rest) = true) \/ (dot = [] /\ one_dot rest = false).

Definition gap_toks (st : bool) (g : str) : list tok :=
  if blank g then [] else [Tok (strip g) (if st then false else startswith [c_sp] g) true].
Definition span_lead (st : bool) (g : str) : bool :=
  if st && blank g then false else endswith [c_sp] g.

(** [rc st s ts]: the tokens of [s]; [st] says whether it is at the start of the text. *)
Inductive rc : bool -> str -> list tok -> Prop :=
| rc_end st g : no_tick g -> rc st g (gap_toks st g)
| rc_span st g k x j dot rest ts :
    no_tick g -> 0 < k -> inner k x -> 0 < j -> (j = k \/ no_tick rest) ->
    not_tick_first (dot ++ rest) -> dotted dot rest -> rc false rest ts ->
    rc st (g ++ (rep c_bt k ++ x ++ rep c_bt j) ++ dot ++ rest)
      (gap_toks st g ++ Tok ((rep c_bt k ++ x ++ rep c_bt j) ++ dot) (span_lead st g) false :: ts)
| rc_open st g k b : no_tick g -> 0 < k -> no_tick b ->
    rc st (g ++ rep c_bt k ++ b)
      (gap_toks st g ++ [Tok (rep c_bt k ++ rstrip b) (span_lead st g) true]).

Lemma inner_ne k x : inner k x -> x <> [] /\ not_tick_first x.
Proof.
  intros H. destruct H as [g Hg Ht|g j y Hg Ht]; destruct g as [|c g]; try congruence;
    (split; [discriminate|]); intros s E; injection E as -> _; apply Forall_inv in Ht; congruence.
Qed.

Lemma find_close k s : not_tick_first s ->
  no_tick s \/ exists x j rest, s = x ++ rep c_bt j ++ rest /\ inner k x /\ 0 < j
    /\ not_tick_first rest /\ (j = k \/ no_tick rest).
Proof.
  remember (length s) as n eqn:Hn. assert (Hle : length s <= n) by lia. clear Hn. revert s Hle.
  induction n as [|n IH]; intros s Hle Hs.
  { destruct s; [left; constructor|cbn in Hle; lia]. }
  destruct (tick_split s) as [H|(g & j & r & -> & Hg & Hj & Hr)]; [left; exact H|right].
  assert (Hgn : g <> []).
  { intros ->. destruct j as [|j]; [lia|]. apply (Hs (rep c_bt j ++ r)). reflexivity. }
  destruct (Nat.eq_dec j k) as [->|Hjk].
  { exists g, k, r. repeat split; auto. apply inner_gap; assumption. }
  destruct (IH r) as [H|(x & j' & rest & -> & Hx & Hj' & Hr' & Hc)].
  - rewrite !app_length, rep_length in Hle. lia.
  - exact Hr.
  - exists g, j, r. repeat split; auto. apply inner_gap; assumption.
  - exists (g ++ rep c_bt j ++ x), j', rest. split; [rewrite <- !app_assoc; reflexivity|].
    split; [apply inner_run; assumption|]. auto.
Qed.

Lemma dotted_exists s : exists dot rest, s = dot ++ rest /\ dotted dot rest.
Proof.
  destruct (one_dot s) eqn:E.
  - destruct (proj1 (one_dot_spec s) E) as (u & -> & _). exists [c_dot], u. split; [reflexivity|]. left. auto.
  - exists [], s. split; [reflexivity|]. right. auto.
Qed.

Lemma rc_exists s : forall st, exists ts, rc st s ts.
Proof.
  remember (length s) as n eqn:Hn. assert (Hle : length s <= n) by lia. clear Hn. revert s Hle.
  induction n as [|n IH]; intros s Hle st.
  { destruct s; [|cbn in Hle; lia]. eexists. apply rc_end. constructor. }
  destruct (tick_split s) as [H|(g & k & r & -> & Hg & Hk & Hr)].
  { eexists. apply rc_end. exact H. }
  destruct (find_close k r Hr) as [H|(x & j & rest & -> & Hx & Hj & Hr' & Hc)].
  { eexists. apply rc_open; assumption. }
  destruct (dotted_exists rest) as (dot & rest' & -> & Hd).
  destruct (IH rest') with (st := false) as (ts & Hts).
  { rewrite !app_length, !rep_length in Hle. lia. }
  eexists.
  replace (g ++ rep c_bt k ++ x ++ rep c_bt j ++ dot ++ rest')
    with (g ++ (rep c_bt k ++ x ++ rep c_bt j) ++ dot ++ rest') by (rewrite <- !app_assoc; reflexivity).
  apply rc_span; eauto. destruct Hc as [Hc|Hc]; [left; exact Hc|right].
  apply Forall_app in Hc. tauto.
Qed.

(** * [code_split] follows the reading *)

Lemma code_fold_inner text lead n k j rest ts0 ld : 0 < n -> 0 < j -> (j = n \/ no_tick rest) ->
  not_tick_first rest -> k = n ->
  forall x, inner k x -> forall pre y ms, text = pre ++ x ++ rep c_bt j ++ rest ->
  ticks (length pre) (x ++ rep c_bt j ++ rest) ms ->
  exists ms' o, ticks (length (pre ++ x ++ rep c_bt j)) rest ms' /\ (o = 0 \/ no_tick rest)
    /\ fold_left (code_step text lead) ms (ts0 ++ [Tok y ld false], n, length pre)
       = fold_left (code_step text lead) ms'
           (ts0 ++ [Tok (y ++ x ++ rep c_bt j) ld false], o, length (pre ++ x ++ rep c_bt j)).
Proof.
  intros Hn Hj Hc Hr Ek x Hx. induction Hx as [g Hg Ht|g i x Hg Ht Hi Hik Hx IH]; intros pre y ms Et Hms.
  - apply ticks_run_inv in Hms; auto. destruct Hms as (ms' & -> & Hms'). exists ms'.
    assert (El : length pre + length g + j = length (pre ++ g ++ rep c_bt j))
      by (rewrite !app_length, rep_length; lia).
    rewrite El in Hms'. cbn [fold_left]. destruct (Nat.eq_dec j n) as [->|Hjn].
    + exists 0. split; [exact Hms'|]. split; [auto|].
      rewrite code_step_open by lia. rewrite app_last_snoc. cbn [t_text t_lead t_eval].
      rewrite El. rewrite Et at 2. rewrite slice_mid. reflexivity.
    + exists n. split; [exact Hms'|]. split; [destruct Hc; [congruence|auto]|].
      rewrite code_step_inside by lia. rewrite app_last_snoc. cbn [t_text t_lead t_eval].
      assert (Sl : slice text (length pre) (length pre + length g + j) = g ++ rep c_bt j).
      { rewrite Et, (app_assoc g).
        replace (length pre + length g + j) with (length pre + length (g ++ rep c_bt j))
          by (rewrite app_length, rep_length; lia). apply slice_mid. }
      rewrite Sl, El. reflexivity.
  - destruct (inner_ne _ _ Hx) as [Hne Hf].
    assert (Es : (g ++ rep c_bt i ++ x) ++ rep c_bt j ++ rest = g ++ rep c_bt i ++ x ++ rep c_bt j ++ rest)
      by (rewrite <- !app_assoc; reflexivity).
    rewrite Es in Hms. apply ticks_run_inv in Hms; auto.
    2: { intros s' E. destruct x as [|c x]; [congruence|]. injection E as -> _. apply (Hf x). reflexivity. }
    destruct Hms as (ms1 & -> & Hms1).
    assert (El : length pre + length g + i = length (pre ++ g ++ rep c_bt i))
      by (rewrite !app_length, rep_length; lia).
    rewrite El in Hms1.
    destruct (IH (pre ++ g ++ rep c_bt i) (y ++ g ++ rep c_bt i) ms1) as (ms' & o & Hms' & Ho & E').
    + rewrite Et, <- !app_assoc. reflexivity.
    + exact Hms1.
    + exists ms', o.
      assert (Ep : (pre ++ g ++ rep c_bt i) ++ x ++ rep c_bt j = pre ++ (g ++ rep c_bt i ++ x) ++ rep c_bt j)
        by (rewrite <- !app_assoc; reflexivity).
      rewrite Ep in *. split; [exact Hms'|]. split; [exact Ho|]. cbn [fold_left].
      rewrite code_step_inside by lia. rewrite app_last_snoc. cbn [t_text t_lead t_eval].
      assert (Sl : slice text (length pre) (length pre + length g + i) = g ++ rep c_bt i).
      { rewrite Et, Es, (app_assoc g).
        replace (length pre + length g + i) with (length pre + length (g ++ rep c_bt i))
          by (rewrite app_length, rep_length; lia). apply slice_mid. }
      rewrite Sl, El, E'. do 6 f_equal. rewrite <- !app_assoc. reflexivity.
Qed.

Definition code_finish (text : str) (st : list tok * nat * nat) : res (list tok) :=
  let '(ts, _, last_end) := st in
  if negb (nilb ts)
     && (length (finditer INLINE_CODE_MARKER_REGEX (last_text ts)) =? 1)
  then
    let ts := eval_last ts in
    let rest := skipn last_end text in
    if negb (blank rest) then Ok (app_last ts (rstrip rest)) else Ok ts
  else split_tail ts (skipn last_end text) last_end false.

Lemma code_split_finish text :
  code_split text false
  = code_finish text (fold_left (code_step text false) (finditer INLINE_CODE_MARKER_REGEX text) ([], 0, 0)).
Proof. reflexivity. Qed.

Lemma app_last_nil ts : app_last ts [] = ts.
Proof.
  destruct ts as [|t ts] using rev_ind; [reflexivity|]. rewrite app_last_snoc, app_nil_r. destruct t. reflexivity.
Qed.

Lemma one_dot_run g k y : 0 < k -> one_dot (g ++ rep c_bt k ++ y) = one_dot g.
Proof.
  intros Hk. destruct k as [|k]; [lia|]. rewrite rep_S. cbn [app].
  destruct g as [|a [|b g]]; reflexivity.
Qed.

Lemma one_dot_cons s : one_dot (c_dot :: s) = true -> forall s', s <> c_dot :: s'.
Proof. intros H s' ->. discriminate. Qed.

Definition last_two (ts : list tok) : Prop :=
  ts = [] \/ exists ts0 t, ts = ts0 ++ [t] /\ length (finditer INLINE_CODE_MARKER_REGEX (t_text t)) <> 1.

Definition at_dot (ts : list tok) (dot s : str) : Prop :=
  (dot = [c_dot] /\ ts <> [] /\ one_dot (dot ++ s) = true)
  \/ (dot = [] /\ (one_dot s = false \/ (ts = [] /\ ~ no_tick s))).

(** The first step: the text before a span. *)
Lemma code_step_gap text pre ts dot g k y : text = pre ++ dot ++ g ++ rep c_bt k ++ y -> 0 < k ->
  at_dot ts dot (g ++ rep c_bt k ++ y) ->
  code_step text false (ts, 0, length pre)
    (length pre + length (dot ++ g), length pre + length (dot ++ g) + k)
  = (app_last ts dot ++ gap_toks (nilb ts) g ++ [Tok (rep c_bt k) (span_lead (nilb ts) g) false],
     k, length (pre ++ dot ++ g ++ rep c_bt k)).
Proof.
  intros Et Hk Hd. unfold code_step. cbn [Nat.eqb].
  assert (Sl : slice text (length pre) (length pre + length (dot ++ g)) = dot ++ g).
  { rewrite Et, (app_assoc dot). apply slice_mid. }
  rewrite Sl.
  replace (length pre + length (dot ++ g) + k - (length pre + length (dot ++ g))) with k by lia.
  replace (length pre + length (dot ++ g) + k) with (length (pre ++ dot ++ g ++ rep c_bt k))
    by (rewrite !app_length, rep_length; lia).
  assert (Ed : one_dot (dot ++ g) && negb (nilb ts) = negb (nilb dot)
               /\ (if negb (nilb dot) then tl (dot ++ g) else dot ++ g) = g
               /\ (if negb (nilb dot) then app_last ts [c_dot] else ts) = app_last ts dot
               /\ nilb (app_last ts dot) = nilb ts).
  { destruct Hd as [(-> & Hn & Ho)|(-> & Hd)].
    - apply nilb_false in Hn. rewrite Hn. cbn [app] in *.
      replace (c_dot :: g ++ rep c_bt k ++ y) with ((c_dot :: g) ++ rep c_bt k ++ y) in Ho by reflexivity.
      rewrite one_dot_run in Ho by exact Hk. rewrite Ho. cbn. repeat split.
      destruct ts as [|t ts] using rev_ind; [discriminate|]. rewrite app_last_snoc. destruct ts; reflexivity.
    - rewrite app_last_nil. cbn [app nilb negb]. rewrite one_dot_run in Hd by exact Hk.
      destruct Hd as [Hd|[-> _]]; [rewrite Hd|rewrite andb_false_r]; auto. }
  destruct Ed as (E1 & E2 & E3 & E4). rewrite E1, E2, E3, E4. unfold gap_toks, span_lead.
  destruct (blank g) eqn:Eb; cbn [negb].
  - cbn [app]. rewrite E4, andb_true_r. destruct (nilb ts); reflexivity.
  - rewrite andb_false_r, <- app_assoc.
    destruct (nilb (app_last ts dot ++ _)) eqn:En; [|reflexivity].
    destruct (app_last ts dot); discriminate.
Qed.

Lemma single_run k : 0 < k -> length (finditer INLINE_CODE_MARKER_REGEX (rep c_bt k)) = 1.
Proof.
  intros Hk. assert (H : ticks 0 ([] ++ rep c_bt k ++ []) [(0, 0 + k)]).
  { apply (ticks_run 0 [] k [] []); [constructor|exact Hk|discriminate|constructor; constructor]. }
  cbn [app] in H. rewrite app_nil_r in H. apply finditer_ticks_eq in H.
  unfold INLINE_CODE_MARKER_REGEX. rewrite H. reflexivity.
Qed.

Lemma ticks_none pos s ms : ticks pos s ms -> no_tick s -> ms = [].
Proof.
  intros H Hn. destruct H as [|pos gap k rest ms Hg Hk]; [reflexivity|]. exfalso. eapply run_not_none; eauto.
Qed.

Lemma rstrip_blank b : blank b = true -> rstrip b = [].
Proof. intros H. apply rstrip_by_nil, blank_spec. exact H. Qed.

Lemma code_rc text st s cts : rc st s cts ->
  forall pre ts dot ms, text = pre ++ dot ++ s -> st = nilb ts -> (ts = [] -> pre = []) -> (ts <> [] -> pre <> []) ->
  at_dot ts dot s -> last_two ts -> ticks (length pre) (dot ++ s) ms ->
  code_finish text (fold_left (code_step text false) ms (ts, 0, length pre)) = Ok (app_last ts dot ++ cts).
Proof.
  intros H. induction H as [st g Hg|st g k x j dot' rest cts Hg Hk Hx Hj Hc Hr Hd' H IH|st g k b Hg Hk Hb];
    intros pre ts dot ms Et Est Hp0 Hp1 Hd Hl Hms.
  - assert (Hdn : no_tick (dot ++ g)).
    { apply Forall_app. split; [|exact Hg]. destruct Hd as [(-> & _)|(-> & _)]; repeat constructor. discriminate. }
    apply ticks_none in Hms; [|exact Hdn]. subst ms. cbn [fold_left code_finish].
    assert (E1 : negb (nilb ts) && (length (finditer INLINE_CODE_MARKER_REGEX (last_text ts)) =? 1) = false).
    { destruct Hl as [->|(ts0 & t & -> & Hl)]; [reflexivity|]. rewrite last_text_snoc. apply Nat.eqb_neq in Hl.
      rewrite Hl. apply andb_false_r. }
    rewrite E1, Et, skipn_pre. unfold split_tail.
    assert (E2 : (if one_dot (dot ++ g)
       then match ts with [] => Err IndexError | _ :: _ => Ok (app_last ts [c_dot], tl (dot ++ g)) end
       else Ok (ts, dot ++ g)) = Ok (app_last ts dot, g)).
    { destruct Hd as [(-> & Hn & Ho)|(-> & Hd)].
      - rewrite Ho. destruct ts; [congruence|]. reflexivity.
      - cbn [app]. rewrite app_last_nil. destruct Hd as [->|[_ Hd]]; [reflexivity|contradiction]. }
    rewrite E2. cbn [bind]. unfold gap_toks. destruct (blank g); cbn [negb]; [rewrite app_nil_r; reflexivity|].
    do 4 f_equal. subst st. destruct ts as [|t ts].
    + rewrite Hp0 by reflexivity. reflexivity.
    + cbn [nilb]. destruct pre as [|c pre]; [exfalso; apply Hp1; [discriminate|reflexivity]|]. reflexivity.
  - destruct (inner_ne _ _ Hx) as [Hxn Hxf].
    set (X := (rep c_bt k ++ x ++ rep c_bt j) ++ dot' ++ rest) in *.
    assert (EX : X = rep c_bt k ++ x ++ rep c_bt j ++ dot' ++ rest) by (unfold X; rewrite <- !app_assoc; reflexivity).
    assert (Hdn : no_tick (dot ++ g)).
    { apply Forall_app. split; [|exact Hg]. destruct Hd as [(-> & _)|(-> & _)]; repeat constructor. discriminate. }
    rewrite (app_assoc dot g), EX in Hms. apply ticks_run_inv in Hms; auto.
    2: { intros s' E. destruct x as [|c x]; [congruence|]. injection E as -> _. apply (Hxf x). reflexivity. }
    destruct Hms as (ms1 & -> & Hms1). cbn [fold_left].
    rewrite (code_step_gap text pre ts dot g k (x ++ rep c_bt j ++ dot' ++ rest)); auto.
    2: { rewrite Et, EX. reflexivity. }
    2: { rewrite EX in Hd. exact Hd. }
    assert (El : length pre + length (dot ++ g) + k = length (pre ++ dot ++ g ++ rep c_bt k))
      by (rewrite !app_length, rep_length; lia).
    rewrite El in Hms1. rewrite app_assoc.
    destruct (code_fold_inner text false k k j (dot' ++ rest) (app_last ts dot ++ gap_toks (nilb ts) g)
                (span_lead (nilb ts) g) Hk Hj) with (x := x) (pre := pre ++ dot ++ g ++ rep c_bt k)
                (y := rep c_bt k) (ms := ms1) as (ms2 & o & Hms2 & Ho & E2); auto.
    { destruct Hc as [Hc|Hc]; [left; exact Hc|right]. apply Forall_app. split; [|exact Hc].
      destruct Hd' as [(-> & _)|(-> & _)]; repeat constructor. discriminate. }
    { rewrite Et, EX, <- !app_assoc. reflexivity. }
    rewrite E2. clear E2.
    set (T := (app_last ts dot ++ gap_toks (nilb ts) g)
              ++ [Tok (rep c_bt k ++ x ++ rep c_bt j) (span_lead (nilb ts) g) false]) in *.
    set (P := (pre ++ dot ++ g ++ rep c_bt k) ++ x ++ rep c_bt j) in *.
    assert (HT : T <> []) by (unfold T; destruct (app_last ts dot ++ gap_toks (nilb ts) g); discriminate).
    assert (E3 : code_finish text (fold_left (code_step text false) ms2 (T, o, length P))
               = code_finish text (fold_left (code_step text false) ms2 (T, 0, length P))).
    { destruct Ho as [->|Ho]; [reflexivity|]. apply ticks_none in Hms2; [|exact Ho]. subst ms2. reflexivity. }
    rewrite E3. clear E3.
    rewrite (IH P T dot' ms2).
    + unfold T. rewrite app_last_snoc. cbn [t_text t_lead t_eval]. subst st. rewrite <- !app_assoc. reflexivity.
    + rewrite Et. unfold P. rewrite EX, <- !app_assoc. reflexivity.
    + symmetry. apply nilb_false. exact HT.
    + intros E. congruence.
    + intros _. unfold P. intros E. apply app_eq_nil in E. destruct E as [_ E]. apply app_eq_nil in E. tauto.
    + destruct Hd' as [(-> & Hd')|(-> & Hd')]; [left|right]; auto.
    + right. eexists. eexists. split; [reflexivity|]. cbn [t_text].
      destruct x as [|c x]; [congruence|]. cbn [app].
      assert (G : 2 <= length (finditer INLINE_CODE_MARKER_REGEX (rep c_bt k ++ c :: x ++ rep c_bt j))); [|lia].
      apply two_runs; [exact Hk| |].
      * intros ->. apply (Hxf x). reflexivity.
      * apply in_app_iff. right. destruct (rep_tick j Hj) as (z & ->). left. reflexivity.
    + exact Hms2.
  - assert (Hdn : no_tick (dot ++ g)).
    { apply Forall_app. split; [|exact Hg]. destruct Hd as [(-> & _)|(-> & _)]; repeat constructor. discriminate. }
    assert (Hbf : not_tick_first b) by (intros s' ->; apply Forall_inv in Hb; congruence).
    rewrite (app_assoc dot g) in Hms. apply ticks_run_inv in Hms; auto.
    destruct Hms as (ms1 & -> & Hms1). apply ticks_none in Hms1; [|exact Hb]. subst ms1. cbn [fold_left].
    rewrite (code_step_gap text pre ts dot g k b); auto.
    cbn [code_finish]. rewrite app_assoc, last_text_snoc. cbn [t_text]. rewrite single_run by exact Hk.
    assert (E1 : nilb ((app_last ts dot ++ gap_toks (nilb ts) g)
              ++ [Tok (rep c_bt k) (span_lead (nilb ts) g) false]) = false)
      by (destruct (app_last ts dot ++ gap_toks (nilb ts) g); reflexivity).
    rewrite E1. cbn [negb andb Nat.eqb]. rewrite eval_last_snoc. cbn [t_text t_lead].
    assert (E2 : skipn (length (pre ++ dot ++ g ++ rep c_bt k)) text = b).
    { rewrite Et. replace (pre ++ dot ++ g ++ rep c_bt k ++ b) with ((pre ++ dot ++ g ++ rep c_bt k) ++ b)
        by (rewrite <- !app_assoc; reflexivity). apply skipn_pre. }
    rewrite E2. subst st. destruct (blank b) eqn:Eb; cbn [negb].
    + rewrite rstrip_blank, app_nil_r, <- app_assoc by exact Eb. reflexivity.
    + rewrite app_last_snoc. cbn [t_text t_lead t_eval]. rewrite <- app_assoc. reflexivity.
Qed.

Lemma code_split_rc s cts : rc true s cts -> (one_dot s = false \/ ~ no_tick s) -> code_split s false = Ok cts.
Proof.
  intros H Hd. rewrite code_split_finish.
  rewrite (code_rc s true s cts H [] [] [] _ eq_refl eq_refl); auto.
  - right. split; [reflexivity|]. tauto.
  - left. reflexivity.
  - apply finditer_ticks.
Qed.

(** * The later passes on text without links and line breaks *)

Definition bare_marks : list str := [lit "]("; lit "]["; lit "<br"].
Definition bare (s : str) : Prop := forall a z b, In z bare_marks -> s <> a ++ z ++ b.

Lemma bare_infix x s y : bare (x ++ s ++ y) -> bare s.
Proof. intros H a z b Hz ->. apply (H (x ++ a) z (b ++ y) Hz). rewrite <- !app_assoc. reflexivity. Qed.

Lemma bare_strip s : bare s -> bare (strip s).
Proof.
  intros H. destruct (strip_spec s) as (x & y & E & _). rewrite E in H. apply bare_infix in H. exact H.
Qed.

Lemma bare_links s : bare s -> link_matches s = [].
Proof.
  intros H. assert (G := link_matches_at s). destruct (link_matches s) as [|m ms]; [reflexivity|].
  exfalso. apply Forall_inv in G. destruct G as (x & g & y & p & q & u & r & o & cl & -> & [E K _ _ _ _] & _).
  apply (H (x ++ p ++ [c_lbr] ++ q) [c_rbr; o] ((u ++ [cl] ++ r) ++ y)).
  - destruct K as [[-> _]|[-> _]]; cbn; auto.
  - rewrite E, <- !app_assoc. reflexivity.
Qed.

Lemma bare_breaks s : bare s -> finditer HTML_NEWLINE_REGEX s = [].
Proof.
  intros H. apply finditer_nil. intros x g y -> Hd. apply html_den in Hd.
  assert (G : exists t, g = lit "<br" ++ t).
  { cbn in Hd. repeat destruct Hd as [<-|Hd]; try (eexists; reflexivity). destruct Hd. }
  destruct G as (t & ->). apply (H x (lit "<br") (t ++ y)); [cbn; auto 6|]. rewrite <- !app_assoc. reflexivity.
Qed.

(** Words as tokens, the first with the given flag. *)
Definition wp (lead : bool) (ws : list str) : list tok :=
  match ws with
  | [] => []
  | w :: ws => Tok w lead true :: map (fun w => Tok w true true) ws
  end.

Definition expand (t : tok) : list tok :=
  if t_eval t then wp (t_lead t) (words (t_text t)) else [t].
Definition expands (ts : list tok) : list tok := concat (map expand ts).

Lemma expands_cons t ts : expands (t :: ts) = expand t ++ expands ts.
Proof. reflexivity. Qed.

Lemma space_split_words s lead : spacing s -> space_split s lead = Ok (wp lead (words s)).
Proof.
  intros H. unfold space_split. rewrite space_fold_toks. rewrite <- (words_split_on s H). unfold space_toks.
  destruct (filter _ _) as [|w ws]; [reflexivity|]. cbn [map wp]. rewrite map_map. reflexivity.
Qed.

(** A token out of [code_split]. *)
Record ctok (t : tok) : Prop := {
  ct_bare : t_eval t = true -> bare (t_text t);
  ct_sp : spacing (t_text t);
  ct_ink : t_eval t = true -> ink_first (t_text t) /\ ink_last (t_text t) }.

Lemma ink_ends_strip s : ink_first s -> ink_last s -> strip s = s /\ blank s = false.
Proof.
  intros (c & a & -> & Hc) (b & d & E & Hd). split.
  - apply strip_id; [exact Hc|]. rewrite E, rev_app_distr. exact Hd.
  - apply ink_ne_blank. cbn. unfold not_space. rewrite Hc. discriminate.
Qed.

Lemma passes_one t : ctok t -> t_eval t = true ->
  forall f, (f = link_split -> one_dot (t_text t) = false) -> (f = link_split \/ f = newline_split) ->
  f (t_text t) (t_lead t) = Ok [t].
Proof.
  intros H He f Hd Hf. destruct (ct_ink t H He) as [H1 H2]. destruct (ink_ends_strip _ H1 H2) as [Es Eb].
  destruct t as [text lead ev]. cbn [t_text t_lead t_eval] in *. subst ev. assert (B := ct_bare _ H eq_refl).
  cbn [t_text] in B. destruct Hf as [->| ->].
  - unfold link_split. rewrite bare_links by exact B. cbn [foldM bind]. unfold split_tail. cbn [skipn].
    rewrite Hd by reflexivity. cbn [bind]. rewrite Eb, Es. reflexivity.
  - unfold newline_split. rewrite bare_breaks by exact B. cbn [fold_left skipn]. rewrite Eb, Es. reflexivity.
Qed.

Lemma link_pass ts r : Forall ctok ts -> split_pass link_split ts = Ok r ->
  Forall (fun t => t_eval t = true -> one_dot (t_text t) = false) ts.
Proof.
  intros H. revert r. induction H as [|t ts Ht H IH]; intros r E; [constructor|]. rewrite split_pass_cons in E.
  apply bind_ok in E. destruct E as (a & Ea & E). apply bind_ok in E. destruct E as (b & Eb & E).
  constructor; [|eapply IH; exact Eb]. intros He. rewrite He in Ea. unfold link_split in Ea.
  rewrite bare_links in Ea by (apply (ct_bare t Ht He)). cbn [foldM bind] in Ea. unfold split_tail in Ea.
  cbn [skipn] in Ea. destruct (one_dot (t_text t)); [discriminate|reflexivity].
Qed.

Lemma passes_ok ts : Forall ctok ts -> Forall (fun t => t_eval t = true -> one_dot (t_text t) = false) ts ->
  (t2 <- split_pass link_split ts ;; t3 <- split_pass newline_split t2 ;; split_pass space_split t3)
  = Ok (expands ts).
Proof.
  intros H Hd.
  assert (G : forall f, f = link_split \/ f = newline_split -> split_pass f ts = Ok ts).
  { intros f Hf. clear -H Hd Hf. revert Hd. induction H as [|t ts Ht H IH]; intros Hd; [reflexivity|].
    inversion Hd; subst. rewrite split_pass_cons. destruct (t_eval t) eqn:He.
    - rewrite (passes_one t Ht He f) by auto. cbn [bind]. rewrite IH by assumption. reflexivity.
    - cbn [bind]. rewrite IH by assumption. reflexivity. }
  rewrite (G link_split) by auto. cbn [bind]. rewrite (G newline_split) by auto. cbn [bind]. clear G Hd.
  induction H as [|t ts Ht H IH]; [reflexivity|]. rewrite split_pass_cons, IH, expands_cons. unfold expand.
  destruct (t_eval t) eqn:He; [|reflexivity]. rewrite space_split_words by apply (ct_sp t Ht). reflexivity.
Qed.

(** The tokens of a reading are such tokens. *)
Lemma spacing_app a b : spacing (a ++ b) <-> spacing a /\ spacing b.
Proof. apply Forall_app. Qed.

Lemma spacing_rep k : spacing (rep c_bt k).
Proof. induction k; constructor; [discriminate|exact IHk]. Qed.

Lemma spacing_dot dot rest : dotted dot rest -> spacing dot.
Proof. intros [(-> & _)|(-> & _)]; repeat constructor. discriminate. Qed.

Lemma gap_ctok st g : bare g -> spacing g -> Forall ctok (gap_toks st g).
Proof.
  intros Hb Hs. unfold gap_toks. destruct (blank g) eqn:E; [constructor|]. constructor; [|constructor].
  split; cbn [t_text t_eval].
  - intros _. apply bare_strip, Hb.
  - apply Forall_strip, Hs.
  - intros _. apply strip_ends, E.
Qed.

Lemma ink_last_tick_rstrip k b : 0 < k -> ink_last (rep c_bt k ++ rstrip b).
Proof.
  intros Hk. destruct (rstrip b) as [|c r] eqn:E using rev_ind.
  - rewrite app_nil_r. destruct k as [|k]; [lia|]. rewrite rep_snoc. exists (rep c_bt k), c_bt. auto.
  - clear IHr. exists (rep c_bt k ++ r), c. rewrite <- app_assoc. split; [reflexivity|].
    eapply rstrip_by_last. exact E.
Qed.

Lemma ink_first_rep k b : 0 < k -> ink_first (rep c_bt k ++ b).
Proof. intros Hk. destruct k as [|k]; [lia|]. exists c_bt, (rep c_bt k ++ b). auto. Qed.

Lemma rc_ctok st s ts : rc st s ts -> bare s -> spacing s -> Forall ctok ts.
Proof.
  intros H. induction H as [st g Hg|st g k x j dot rest ts Hg Hk Hx Hj Hc Hr Hd H IH|st g k b Hg Hk Hb];
    intros HB HS.
  - apply gap_ctok; assumption.
  - rewrite !spacing_app in HS. destruct HS as (S1 & (S2 & S3 & S4) & S5 & S6).
    apply Forall_app. split; [|constructor].
    + apply gap_ctok; [|exact S1]. apply (bare_infix [] g _ HB).
    + split; cbn [t_text t_eval]; try discriminate. rewrite !spacing_app. auto.
    + apply IH; [|exact S6]. apply (bare_infix (g ++ (rep c_bt k ++ x ++ rep c_bt j) ++ dot) rest []).
      rewrite app_nil_r, <- !app_assoc. rewrite <- !app_assoc in HB. exact HB.
  - rewrite !spacing_app in HS. destruct HS as (S1 & S2 & S3).
    destruct (rstrip_by_spec is_space b) as (b' & E & _).
    apply Forall_app. split; [|constructor; [|constructor]].
    + apply gap_ctok; [|exact S1]. apply (bare_infix [] g _ HB).
    + split; cbn [t_text t_eval].
      * intros _. apply (bare_infix g _ b'). unfold rstrip. rewrite <- app_assoc, <- E. exact HB.
      * rewrite spacing_app. split; [exact S2|]. rewrite E in S3. apply spacing_app in S3. apply S3.
      * intros _. split; [apply ink_first_rep|apply ink_last_tick_rstrip]; exact Hk.
Qed.

Definition no_dots (ts : list tok) : Prop := Forall (fun t => t_eval t = true -> one_dot (t_text t) = false) ts.

Lemma no_tick_dec s : no_tick s \/ ~ no_tick s.
Proof.
  destruct (in_dec N.eq_dec c_bt s) as [H|H].
  - right. intros G. unfold no_tick in G. rewrite Forall_forall in G. apply (G _ H). reflexivity.
  - left. apply Forall_forall. intros c Hc ->. contradiction.
Qed.

(** The tokens of a text. *)
Lemma wrap_tokens_rc text ts : bare (joined text) -> spacing (joined text) -> wrap_tokens text = Ok ts ->
  exists cts, rc true (joined text) cts /\ no_dots cts /\ ts = expands cts.
Proof.
  intros HB HS E. destruct (rc_exists (joined text) true) as (cts & Hrc). exists cts. split; [exact Hrc|].
  assert (HC := rc_ctok _ _ _ Hrc HB HS). unfold wrap_tokens in E. rewrite split_pass_one in E.
  apply bind_ok in E. destruct E as (t1 & E1 & E).
  assert (E1' : t1 = cts).
  { destruct (one_dot (joined text)) eqn:Ed; [|rewrite (code_split_rc _ _ Hrc) in E1 by auto; congruence].
    destruct (no_tick_dec (joined text)) as [Hn|Hn]; [|rewrite (code_split_rc _ _ Hrc) in E1 by auto; congruence].
    exfalso. unfold code_split in E1. unfold INLINE_CODE_MARKER_REGEX in E1.
    rewrite (finditer_ticks_eq (joined text) []) in E1 by (constructor; exact Hn).
    cbn [fold_left nilb negb andb skipn] in E1. unfold split_tail in E1. rewrite Ed in E1. discriminate. }
  subst t1. assert (Hd : no_dots cts).
  { apply bind_ok in E. destruct E as (t2 & E2 & _). eapply link_pass; [exact HC|exact E2]. }
  split; [exact Hd|]. rewrite (passes_ok cts HC Hd) in E. congruence.
Qed.

Lemma one_dot_stripped s : one_dot s = true -> blank s = false /\ one_dot (strip s) = true.
Proof.
  intros H. apply one_dot_spec in H. destruct H as (u & -> & Hu).
  assert (Es : strip (c_dot :: u) = c_dot :: rstrip u).
  { change (rstrip ([c_dot] ++ u) = [c_dot] ++ rstrip u). unfold rstrip.
    destruct (rstrip_by is_space u) as [|c r] eqn:Er.
    - apply rstrip_by_nil in Er. apply rstrip_by_app. exact Er.
    - rewrite rstrip_by_app_ne by congruence. rewrite Er. reflexivity. }
  split; [apply ink_ne_blank; discriminate|]. rewrite Es. apply one_dot_spec. exists (rstrip u).
  split; [reflexivity|]. intros u' E. destruct (rstrip_by_spec is_space u) as (v & Ev & _). fold (rstrip u) in Ev.
  rewrite E in Ev. apply (Hu (u' ++ v)). exact Ev.
Qed.

Lemma rc_wrap_tokens text cts : bare (joined text) -> spacing (joined text) ->
  rc true (joined text) cts -> no_dots cts -> wrap_tokens text = Ok (expands cts).
Proof.
  intros HB HS Hrc Hd. unfold wrap_tokens. rewrite split_pass_one. rewrite (code_split_rc _ _ Hrc).
  - cbn [bind]. apply passes_ok; [eapply rc_ctok; eassumption|exact Hd].
  - destruct (one_dot (joined text)) eqn:Ed; [|auto]. right. intros Hn.
    apply one_dot_stripped in Ed. destruct Ed as [Eb Ed].
    inversion Hrc as [st g Hg E1 E2 E3|st g k x j dot rest ts Hg Hk Hx Hj Hc Hr Hd' H E1 E2 E3|st g k b Hg Hk Hb E1 E2 E3]; subst.
    + unfold no_dots, gap_toks in Hd. rewrite Eb in Hd. apply Forall_inv in Hd. cbn in Hd. rewrite Hd in Ed by reflexivity. discriminate.
    + rewrite <- E2, <- !app_assoc in Hn. eapply run_not_none; [exact Hk|exact Hn].
    + rewrite <- E2 in Hn. eapply run_not_none; [exact Hk|exact Hn].
Qed.

(** * Raising the flags *)

Definition raise (t t' : tok) : Prop :=
  t_text t' = t_text t /\ t_eval t' = t_eval t /\ (t_lead t = true -> t_lead t' = true).
Definition first_flush (ts : list tok) : Prop := forall t r, ts = t :: r -> t_lead t = false.
Definition word (w : str) : Prop := w <> [] /\ Forall (fun c => is_space c = false) w.

Lemma words_head x : ink_first x ->
  exists w v, x = w ++ v /\ words x = w :: words v /\ word w
    /\ (v = [] \/ exists c v', v = c :: v' /\ is_space c = true).
Proof.
  induction x as [|c x IH]; intros (d & a & E & Hd); [discriminate|]. injection E as <- <-.
  destruct x as [|e x].
  - exists [c], []. cbn [app words]. rewrite Hd. split; [reflexivity|]. split; [reflexivity|].
    split; [|auto]. split; [discriminate|]. repeat constructor. exact Hd.
  - destruct (is_space e) eqn:He.
    + exists [c], (e :: x). split; [reflexivity|]. split; [|split; [split; [discriminate|repeat constructor; exact Hd]|right; eauto]].
      destruct (words_cons_ink c (e :: x) Hd) as (w & ws & E & H). cbn [words] in E |- *. rewrite Hd, He in *. reflexivity.
    + destruct IH as (w & v & E & Ew & [Hw1 Hw2] & Hv); [exists e, x; auto|].
      exists (c :: w), v. split; [cbn; rewrite E; reflexivity|].
      split; [apply words_cons_ink2; assumption|]. split; [|exact Hv]. split; [discriminate|constructor; assumption].
Qed.

Lemma words_word s : Forall word (words s).
Proof.
  remember (length s) as n eqn:Hn. assert (Hle : length s <= n) by lia. clear Hn. revert s Hle.
  induction n as [|n IH]; intros s Hle; [destruct s; [constructor|cbn in Hle; lia]|].
  destruct s as [|c s]; [constructor|]. cbn in Hle. destruct (is_space c) eqn:Hc.
  - rewrite words_cons_space by exact Hc. apply IH. lia.
  - destruct (words_head (c :: s)) as (w & v & E & Ew & Hw & _); [exists c, s; auto|].
    rewrite Ew. constructor; [exact Hw|]. apply IH. assert (L := f_equal (@length N) E). rewrite app_length in L.
    cbn [length] in L. destruct Hw as [Hw _]. destruct w; [congruence|]. cbn [length] in L. lia.
Qed.

Lemma words_Forall (P : char -> Prop) s : Forall P s -> Forall (Forall P) (words s).
Proof.
  remember (length s) as n eqn:Hn. assert (Hle : length s <= n) by lia. clear Hn. revert s Hle.
  induction n as [|n IH]; intros s Hle H; [destruct s; [constructor|cbn in Hle; lia]|].
  destruct s as [|c s]; [constructor|]. cbn in Hle. destruct (is_space c) eqn:Hc.
  - rewrite words_cons_space by exact Hc. apply IH; [lia|]. inversion H; assumption.
  - destruct (words_head (c :: s)) as (w & v & E & Ew & Hw & _); [exists c, s; auto|].
    rewrite Ew. rewrite E in H. apply Forall_app in H. constructor; [apply H|]. apply IH; [|apply H].
    assert (L := f_equal (@length N) E). rewrite app_length in L.
    cbn [length] in L. destruct Hw as [Hw _]. destruct w; [congruence|]. cbn [length] in L. lia.
Qed.

Lemma words_of_words ws : Forall word ws -> words (str_join [c_sp] ws) = ws.
Proof.
  intros H. rewrite words_join. induction H as [|w ws Hw H IH]; [reflexivity|]. cbn [map concat].
  rewrite IH, words_one by apply Hw. reflexivity.
Qed.

Lemma join_ends ws : ws <> [] -> Forall word ws -> ink_first (str_join [c_sp] ws) /\ ink_last (str_join [c_sp] ws).
Proof.
  intros Hn H. induction H as [|w ws [Hw1 Hw2] H IH]; [congruence|]. clear Hn.
  assert (F : ink_first w).
  { destruct w as [|c w]; [congruence|]. exists c, w. split; [reflexivity|apply (Forall_inv Hw2)]. }
  assert (L : ink_last w).
  { destruct w as [|c w] using rev_ind; [congruence|]. exists w, c. split; [reflexivity|].
    apply Forall_app in Hw2. apply (Forall_inv (proj2 Hw2)). }
  destruct ws as [|w' ws]; [split; [exact F|exact L]|]. rewrite str_join_cons by discriminate.
  destruct (IH ltac:(discriminate)) as [_ L']. split.
  - destruct F as (c & a & -> & Hc). exists c. eexists. split; [reflexivity|exact Hc].
  - rewrite app_assoc. apply ink_last_app, L'.
Qed.

Lemma endswith_sp_ink s : ink_last s -> endswith [c_sp] s = false.
Proof.
  intros (a & c & -> & Hc). unfold endswith. rewrite rev_app_distr. cbn [rev app startswith].
  destruct (N.eqb_spec c_sp c) as [<-|]; [discriminate|reflexivity].
Qed.

Lemma endswith_sp s : endswith [c_sp] (s ++ [c_sp]) = true.
Proof. unfold endswith. rewrite rev_app_distr. reflexivity. Qed.

Lemma gapw_facts l ws e : ws <> [] -> Forall word ws ->
  let g := lead_str l ++ str_join [c_sp] ws ++ lead_str e in
  blank g = false /\ strip g = str_join [c_sp] ws /\ startswith [c_sp] g = l /\ endswith [c_sp] g = e.
Proof.
  intros Hn H g. destruct (join_ends ws Hn H) as [F L]. destruct (ink_ends_strip _ F L) as [Es Eb].
  set (J := str_join [c_sp] ws) in *.
  split; [|split; [|split]].
  - apply ink_ne_blank. unfold g. rewrite !ink_app. apply ink_ne_blank in Eb.
    intros E. apply app_eq_nil in E. destruct E as [_ E]. apply app_eq_nil in E. tauto.
  - unfold g, strip, lstrip. assert (E : lstrip_by is_space (lead_str l ++ J ++ lead_str e) = J ++ lead_str e).
    { destruct F as (c & a & -> & Hc). destruct l; cbn [lead_str app lstrip_by]; rewrite ?Hc; reflexivity. }
    rewrite E. unfold rstrip. rewrite rstrip_by_app by (destruct e; reflexivity).
    destruct L as (a & c & -> & Hc). apply rstrip_by_snoc. exact Hc.
  - unfold g. destruct l; [reflexivity|]. destruct F as (c & a & -> & Hc). cbn [lead_str app startswith].
    destruct (N.eqb_spec c_sp c) as [<-|]; [discriminate|reflexivity].
  - unfold g. destruct e; cbn [lead_str].
    + rewrite !app_assoc. apply endswith_sp.
    + rewrite app_nil_r. apply endswith_sp_ink, ink_last_app, L.
Qed.

Lemma render_wp l ws : ws <> [] -> render (wp l ws) = lead_str l ++ str_join [c_sp] ws.
Proof.
  destruct ws as [|w ws]; [congruence|]. intros _. unfold render. cbn [wp map concat render1 t_lead t_text].
  unfold render1 at 1. cbn [t_lead t_text]. rewrite <- app_assoc. f_equal. revert w.
  induction ws as [|w' ws IH]; intros w; [cbn; rewrite app_nil_r; reflexivity|].
  rewrite str_join_cons by discriminate. cbn [map concat]. unfold render1 at 1. cbn [t_lead t_text lead_str app].
  rewrite IH. reflexivity.
Qed.

Lemma render_app a b : render (a ++ b) = render a ++ render b.
Proof. unfold render. rewrite map_app, concat_app. reflexivity. Qed.

Lemma render_cons t ts : render (t :: ts) = lead_str (t_lead t) ++ t_text t ++ render ts.
Proof. unfold render. cbn [map concat]. unfold render1 at 1. rewrite <- app_assoc. reflexivity. Qed.

Lemma raise_wp l ws ts' : Forall2 raise (wp l ws) ts' -> exists l', ts' = wp l' ws /\ (l = true -> l' = true).
Proof.
  intros H. destruct ws as [|w ws]; [inversion H; exists l; auto|]. cbn [wp] in H.
  inversion H as [|t [x l' e'] r r' Ht Hr]; subst. destruct Ht as (E1 & E2 & E3). cbn in E1, E2, E3. subst x e'.
  exists l'. split; [|exact E3]. cbn [wp]. f_equal. clear -Hr. revert r' Hr. induction ws as [|w ws IH]; intros r' Hr.
  - inversion Hr. reflexivity.
  - cbn [map] in Hr. inversion Hr as [|t [x l' e'] r2 r2' Ht Hr2]; subst. destruct Ht as (E1 & E2 & E3).
    cbn in E1, E2, E3. subst x e'. rewrite E3 by reflexivity. cbn [map]. f_equal. apply IH. exact Hr2.
Qed.

Lemma one_dot_app w y : one_dot w = true -> (forall y', y <> c_dot :: y') -> one_dot (w ++ y) = true.
Proof.
  intros H Hy. apply one_dot_spec in H. destruct H as (u & -> & Hu). apply one_dot_spec. exists (u ++ y).
  split; [reflexivity|]. intros u' E. destruct u as [|c u]; [apply (Hy u'); exact E|].
  injection E as -> _. apply (Hu u). reflexivity.
Qed.

Lemma one_dot_words x w ws : ink_first x -> words x = w :: ws -> one_dot x = one_dot w.
Proof.
  intros Hx Ex. destruct (words_head x Hx) as (w' & v & E & Ew & Hw & Hv). rewrite Ew in Ex. injection Ex as -> _.
  subst x. destruct Hv as [->|(c & v' & -> & Hc)]; [rewrite app_nil_r; reflexivity|].
  assert (Hc' : c <> c_dot) by (intros ->; discriminate).
  destruct (one_dot w) eqn:Ed; [apply one_dot_app; [exact Ed|congruence]|].
  destruct (one_dot (w ++ c :: v')) eqn:Ed'; [|reflexivity]. rewrite <- Ed. symmetry. apply one_dot_spec in Ed'.
  destruct Ed' as (u & E & Hu). destruct Hw as [Hw _]. destruct w as [|d w]; [congruence|]. injection E as -> <-.
  apply one_dot_spec. exists w. split; [reflexivity|]. intros u' ->. apply (Hu (u' ++ c :: v')). reflexivity.
Qed.

Lemma no_tick_join ws : Forall no_tick ws -> no_tick (str_join [c_sp] ws).
Proof. intros H. apply Forall_str_join; [repeat constructor; discriminate|exact H]. Qed.

Lemma no_tick_lead l : no_tick (lead_str l).
Proof. destruct l; repeat constructor. discriminate. Qed.

Lemma gap_raise st g ts' e : spacing g -> no_tick g -> no_dots (gap_toks st g) ->
  Forall2 raise (expands (gap_toks st g)) ts' -> (st = true -> first_flush ts') ->
  (st = true -> ts' = [] -> e = false) ->
  let g' := render ts' ++ lead_str e in
  no_tick g' /\ expands (gap_toks st g') = ts' /\ no_dots (gap_toks st g') /\ span_lead st g' = e.
Proof.
  intros Hs Ht Hd HR Hf He g'. unfold gap_toks in Hd, HR. destruct (blank g) eqn:Eb.
  - cbn in HR. inversion HR. subst ts'. unfold g'. cbn [render map concat app]. unfold render. cbn [map concat app].
    split; [apply no_tick_lead|]. unfold gap_toks, span_lead.
    assert (Eb' : blank (lead_str e) = true) by (destruct e; reflexivity). rewrite Eb'.
    split; [reflexivity|]. split; [constructor|]. rewrite andb_true_r. destruct st.
    + symmetry. apply He; reflexivity.
    + destruct e; reflexivity.
  - unfold expands in HR. cbn [map concat] in HR. unfold expand in HR. cbn [t_eval t_lead t_text] in HR.
    rewrite app_nil_r, words_strip in HR. apply raise_wp in HR. destruct HR as (l' & -> & Hl).
    assert (Hn : words g <> []).
    { intros E. apply ink_ne_blank in Eb. rewrite ink_words, E in Eb. apply Eb. reflexivity. }
    assert (Hw := words_word g). destruct (gapw_facts l' (words g) e Hn Hw) as (F1 & F2 & F3 & F4).
    unfold g'. rewrite render_wp, <- app_assoc by exact Hn.
    split; [|split; [|split]].
    + apply Forall_app. split; [apply no_tick_lead|]. apply Forall_app. split; [|apply no_tick_lead].
      apply no_tick_join. apply words_Forall. exact Ht.
    + unfold gap_toks. rewrite F1, F2, F3. unfold expands. cbn [map concat]. unfold expand.
      cbn [t_eval t_lead t_text]. rewrite app_nil_r, words_of_words by exact Hw.
      destruct st; [|reflexivity]. destruct (words g) as [|w ws]; [congruence|]. cbn [wp].
      assert (El := Hf eq_refl (Tok w l' true) _ eq_refl). cbn [t_lead] in El. rewrite El. reflexivity.
    + unfold gap_toks. rewrite F1, F2. constructor; [|constructor]. cbn [t_eval t_text]. intros _.
      apply Forall_inv in Hd. cbn [t_eval t_text] in Hd. specialize (Hd eq_refl).
      destruct (words g) as [|w ws] eqn:Eg; [congruence|].
      rewrite (one_dot_words (strip g) w ws) in Hd; [|apply (strip_ends g Eb)|rewrite words_strip; exact Eg].
      rewrite (one_dot_words _ w ws); [exact Hd|apply join_ends; assumption|].
      apply words_of_words. exact Hw.
    + unfold span_lead. rewrite F1, andb_false_r. exact F4.
Qed.

(** The first token when no space stands before it. *)
Lemma gap_first g t r rest : spacing g -> blank g = false ->
  expands (gap_toks false g) ++ r = t :: rest -> t_lead t = false ->
  exists v, g = t_text t ++ v /\ t_text t <> [] /\ (forall v', v <> c_dot :: v').
Proof.
  intros Hs Eb E Hl. unfold gap_toks in E. rewrite Eb in E. unfold expands in E. cbn [map concat] in E.
  unfold expand in E. cbn [t_eval t_lead t_text] in E. rewrite app_nil_r, words_strip in E.
  assert (Hf : startswith [c_sp] g = false).
  { destruct (words g) as [|w ws] eqn:Ew.
    - exfalso. apply ink_ne_blank in Eb. rewrite ink_words, Ew in Eb. apply Eb. reflexivity.
    - cbn [wp app] in E. injection E as <- _. exact Hl. }
  assert (Fg : ink_first g).
  { destruct g as [|c g]; [discriminate|]. exists c, g. split; [reflexivity|]. destruct (is_space c) eqn:Hc; [|reflexivity].
    apply Forall_inv in Hs. apply Hs in Hc. subst c. discriminate. }
  destruct (words_head g Fg) as (w & v & Eg & Ew & [Hw _] & Hv). rewrite Ew in E. cbn [wp app] in E.
  injection E as <- _. cbn [t_text]. exists v. split; [exact Eg|]. split; [exact Hw|].
  intros v' ->. destruct Hv as [Hv|(c & v2 & Hv & Hc)]; [discriminate|]. injection Hv as <- _. discriminate.
Qed.

Lemma blank_flush g : spacing g -> blank g = true -> span_lead false g = false -> g = [].
Proof.
  intros Hs Hb Hl. unfold span_lead in Hl. cbn [andb] in Hl. destruct g as [|c g] using rev_ind; [reflexivity|].
  exfalso. apply blank_iff in Hb. apply Forall_app in Hb, Hs. destruct Hb as [_ Hb], Hs as [_ Hs].
  apply Forall_inv in Hb, Hs. apply Hs in Hb. subst c. rewrite endswith_sp in Hl. discriminate.
Qed.

Lemma rc_first s cts t r : rc false s cts -> spacing s -> expands cts = t :: r -> t_lead t = false ->
  exists v, s = t_text t ++ v /\ t_text t <> [] /\ (one_dot (t_text t) = true -> one_dot s = true).
Proof.
  intros H Hs E Hl. remember false as st eqn:Est.
  destruct H as [st g Hg|st g k x j dot rest ts Hg Hk Hx Hj Hc Hr Hd H|st g k b Hg Hk Hb]; subst st.
  - destruct (blank g) eqn:Eb; [unfold gap_toks in E; rewrite Eb in E; discriminate|].
    destruct (gap_first g t [] r Hs Eb) as (v & Eg & Hn & Hv); [rewrite app_nil_r; exact E|exact Hl|].
    exists v. split; [exact Eg|]. split; [exact Hn|]. intros Ho. rewrite Eg. apply one_dot_app; assumption.
  - unfold expands in E. rewrite map_app, concat_app in E. fold (expands (gap_toks false g)) in E.
    apply spacing_app in Hs. destruct Hs as [Hs _]. destruct (blank g) eqn:Eb.
    + unfold gap_toks in E. rewrite Eb in E. cbn [expands map concat app] in E. unfold expand at 1 in E.
      cbn [t_eval app] in E. injection E as <- _. cbn [t_lead] in Hl. apply blank_flush in Hl; [|exact Hs|exact Eb].
      subst g. cbn [t_text app]. exists rest. split; [rewrite <- !app_assoc; reflexivity|].
      destruct k as [|k]; [lia|]. split; [discriminate|]. intros Ho. discriminate.
    + destruct (gap_first g t _ r Hs Eb E Hl) as (v & Eg & Hn & Hv).
      exists (v ++ (rep c_bt k ++ x ++ rep c_bt j) ++ dot ++ rest). split; [rewrite Eg at 1; rewrite <- !app_assoc; reflexivity|].
      split; [exact Hn|]. intros Ho. rewrite Eg, <- app_assoc. apply one_dot_app; [exact Ho|].
      destruct v as [|c v]; [|intros y' Ey; injection Ey as -> _; apply (Hv v); reflexivity].
      cbn [app]. destruct k as [|k]; [lia|]. discriminate.
  - unfold expands in E. rewrite map_app, concat_app in E. fold (expands (gap_toks false g)) in E.
    apply spacing_app in Hs. destruct Hs as [Hs _]. destruct (blank g) eqn:Eb.
    + unfold gap_toks in E. rewrite Eb in E. cbn [expands map concat app] in E. unfold expand at 1 in E.
      cbn [t_eval t_lead t_text] in E. rewrite app_nil_r in E.
      destruct (words_head _ (ink_first_rep k (rstrip b) Hk)) as (w & v & Ew & Eww & [Hw _] & _).
      rewrite Eww in E. cbn [wp] in E. injection E as <- _. cbn [t_lead] in Hl.
      apply blank_flush in Hl; [|exact Hs|exact Eb]. subst g. cbn [t_text app].
      destruct (rstrip_by_spec is_space b) as (b' & Eb' & _). fold (rstrip b) in Eb'.
      exists (v ++ b'). split; [rewrite Eb' at 1; rewrite app_assoc, Ew, <- app_assoc; reflexivity|].
      split; [exact Hw|]. intros Ho. exfalso. destruct k as [|k]; [lia|]. rewrite rep_S in Ew.
      destruct w as [|c w]; [congruence|]. injection Ew as <- _. discriminate.
    + destruct (gap_first g t _ r Hs Eb E Hl) as (v & Eg & Hn & Hv).
      exists (v ++ rep c_bt k ++ b). split; [rewrite Eg at 1; rewrite <- !app_assoc; reflexivity|].
      split; [exact Hn|]. intros Ho. rewrite Eg, <- app_assoc. apply one_dot_app; [exact Ho|].
      destruct v as [|c v]; [|intros y' Ey; injection Ey as -> _; apply (Hv v); reflexivity].
      cbn [app]. destruct k as [|k]; [lia|]. discriminate.
Qed.

(** What the rest begins with after raising. *)
Lemma raise_first s cts ts' : rc false s cts -> spacing s -> Forall2 raise (expands cts) ts' ->
  (forall x, render ts' = c_bt :: x -> exists y, s = c_bt :: y)
  /\ (forall x, render ts' = c_dot :: x -> exists y, s = c_dot :: y)
  /\ (one_dot (render ts') = true -> one_dot s = true).
Proof.
  intros H Hs HR. destruct ts' as [|t' r']; [split; [|split]; intros; discriminate|].
  inversion HR as [|t t2 r r2 (E1 & E2 & E3) Hr E4]; subst. rewrite render_cons.
  destruct (t_lead t') eqn:El'.
  { cbn [lead_str app]. split; [|split]; intros; discriminate. }
  destruct (t_lead t) eqn:El; [discriminate (E3 eq_refl)|].
  destruct (rc_first s cts t r H Hs (eq_sym E4) El) as (v & Es & Hn & Ho). rewrite E1. cbn [lead_str app].
  destruct (t_text t) as [|c u] eqn:Et; [congruence|].
  split; [|split].
  - intros x E. injection E as -> _. rewrite Es. cbn. eauto.
  - intros x E. injection E as -> _. rewrite Es. cbn. eauto.
  - intros Hod. destruct (one_dot (c :: u)) eqn:Ed; [auto|].
    exfalso. apply one_dot_spec in Hod. destruct Hod as (z & E & Hz). injection E as -> <-.
    assert (one_dot (c_dot :: u) = true); [|congruence]. apply one_dot_spec. exists u. split; [reflexivity|].
    intros u' ->. apply (Hz (u' ++ render r')). reflexivity.
Qed.

Lemma rc_no_tick st s cts : rc st s cts -> no_tick s -> cts = gap_toks st s.
Proof.
  intros H Hn. destruct H as [st g Hg|st g k x j dot rest ts Hg Hk|st g k b Hg Hk]; [reflexivity| |]; exfalso.
  - rewrite <- !app_assoc in Hn. eapply run_not_none; [exact Hk|exact Hn].
  - eapply run_not_none; [exact Hk|exact Hn].
Qed.

Lemma expands_app a b : expands (a ++ b) = expands a ++ expands b.
Proof. unfold expands. rewrite map_app, concat_app. reflexivity. Qed.

Lemma rc_raise st s cts : rc st s cts -> spacing s -> no_dots cts ->
  forall ts', Forall2 raise (expands cts) ts' -> (st = true -> first_flush ts') ->
  exists cts', rc st (render ts') cts' /\ expands cts' = ts' /\ no_dots cts'.
Proof.
  intros H. induction H as [st g Hg|st g k x j dot rest ts Hg Hk Hx Hj Hc Hr Hd H IH|st g k b Hg Hk Hb];
    intros Hs Hn ts' HR Hf.
  - destruct (gap_raise st g ts' false Hs Hg Hn HR Hf) as (G1 & G2 & G3 & _); [reflexivity|].
    cbn [lead_str] in *. rewrite app_nil_r in *. exists (gap_toks st (render ts')).
    split; [apply rc_end, G1|]. auto.
  - rewrite !spacing_app in Hs. destruct Hs as (S1 & _ & _ & S6). apply Forall_app in Hn. destruct Hn as [N1 N2].
    inversion N2 as [|? ? _ N3]; subst. rewrite expands_app, expands_cons in HR. unfold expand in HR. cbn [t_eval app] in HR.
    apply Forall2_app_inv_l in HR. destruct HR as (a' & b' & R1 & R2 & ->).
    inversion R2 as [|t t' r r' (E1 & E2 & _) R3]; subst. destruct t' as [tx e ev]. cbn in E1, E2. subst tx ev.
    destruct (gap_raise st g a' e S1 Hg N1 R1) as (G1 & G2 & G3 & G4).
    { intros Est t r E. apply (Hf Est t (r ++ Tok ((rep c_bt k ++ x ++ rep c_bt j) ++ dot) e false :: r')). rewrite E. reflexivity. }
    { intros Est ->. apply (Hf Est _ _ eq_refl). }
    destruct (IH S6 N3 r' R3) as (cts' & C1 & C2 & C3); [discriminate|].
    destruct (raise_first rest ts r' H S6 R3) as (F1 & F2 & F3).
    exists (gap_toks st (render a' ++ lead_str e)
            ++ Tok ((rep c_bt k ++ x ++ rep c_bt j) ++ dot) (span_lead st (render a' ++ lead_str e)) false :: cts').
    split; [|split].
    + rewrite render_app, render_cons. cbn [t_lead t_text].
      replace (render a' ++ lead_str e ++ ((rep c_bt k ++ x ++ rep c_bt j) ++ dot) ++ render r')
        with ((render a' ++ lead_str e) ++ (rep c_bt k ++ x ++ rep c_bt j) ++ dot ++ render r')
        by (rewrite <- !app_assoc; reflexivity).
      apply rc_span; auto.
      * destruct Hc as [Hc|Hc]; [left; exact Hc|right]. assert (Ets := rc_no_tick _ _ _ H Hc). subst ts.
        destruct (gap_raise false rest r' false S6 Hc N3 R3) as (K & _); try discriminate.
        cbn [lead_str] in K. rewrite app_nil_r in K. exact K.
      * intros s' E. destruct Hd as [(-> & Hd)|(-> & Hd)]; [discriminate|]. cbn [app] in *.
        destruct (F1 _ E) as (y & Ey). apply (Hr y). exact Ey.
      * destruct Hd as [(-> & Hd)|(-> & Hd)].
        -- left. split; [reflexivity|]. apply one_dot_spec. exists (render r'). split; [reflexivity|].
           intros u' E. destruct (F2 _ E) as (y & ->). discriminate.
        -- right. split; [reflexivity|]. destruct (one_dot (render r')) eqn:E; [|reflexivity].
           rewrite F3 in Hd by reflexivity. discriminate.
    + rewrite expands_app, expands_cons. unfold expand. cbn [t_eval app]. rewrite G2, G4, C2. reflexivity.
    + apply Forall_app. split; [exact G3|]. constructor; [discriminate|exact C3].
  - rewrite !spacing_app in Hs. destruct Hs as (S1 & _ & S3). apply Forall_app in Hn. destruct Hn as [N1 _].
    rewrite expands_app in HR. apply Forall2_app_inv_l in HR. destruct HR as (a' & b' & R1 & R2 & ->).
    unfold expands in R2. cbn [map concat] in R2. unfold expand in R2. cbn [t_eval t_lead t_text] in R2.
    rewrite app_nil_r in R2. apply raise_wp in R2. destruct R2 as (e & -> & _).
    set (W := words (rep c_bt k ++ rstrip b)) in *.
    destruct (words_head _ (ink_first_rep k (rstrip b) Hk)) as (w1 & v & Ew & EW & _ & _).
    assert (HW : Forall word W) by apply words_word.
    assert (P : exists w2 ws, W = (rep c_bt k ++ w2) :: ws /\ no_tick w2 /\ Forall no_tick ws).
    { destruct (words_prefix (rep c_bt k) (rstrip b)) as (w2 & ws & E).
      - destruct k; [lia|discriminate].
      - clear. induction k; constructor; [reflexivity|exact IHk].
      - exists w2, ws. split; [exact E|]. rewrite EW in E. injection E as -> <-.
        rewrite <- app_assoc in Ew. apply app_inv_head in Ew.
        assert (Hrb : no_tick (rstrip b)).
        { destruct (rstrip_by_spec is_space b) as (b' & Eb' & _). fold (rstrip b) in Eb'. unfold no_tick in *. rewrite Eb' in Hb.
          apply Forall_app in Hb. apply Hb. }
        unfold no_tick in Hrb. rewrite Ew in Hrb. apply Forall_app in Hrb. split; [apply Hrb|]. apply words_Forall, Hrb. }
    destruct P as (w2 & ws & EWW & T1 & T2).
    assert (Wn : W <> []) by (rewrite EWW; discriminate).
    destruct (gap_raise st g a' e S1 Hg N1 R1) as (G1 & G2 & G3 & G4).
    { intros Est t r E. eapply (Hf Est t). rewrite E. reflexivity. }
    { intros Est ->. rewrite EWW in Hf. apply (Hf Est _ _ eq_refl). }
    set (b' := str_join [c_sp] (w2 :: ws)).
    assert (Ej : str_join [c_sp] W = rep c_bt k ++ b').
    { unfold b'. rewrite EWW. destruct ws as [|w3 ws]; [reflexivity|]. rewrite !str_join_cons by discriminate.
      rewrite <- app_assoc. reflexivity. }
    exists (gap_toks st (render a' ++ lead_str e)
            ++ [Tok (rep c_bt k ++ rstrip b') (span_lead st (render a' ++ lead_str e)) true]).
    split; [|split].
    + rewrite render_app, render_wp, Ej, app_assoc by exact Wn. apply rc_open; auto.
      apply no_tick_join. constructor; assumption.
    + rewrite expands_app. unfold expands at 2. cbn [map concat]. unfold expand. cbn [t_eval t_lead t_text].
      rewrite app_nil_r, G2, G4. f_equal. f_equal.
      destruct (rstrip_by_spec is_space b') as (p & Ep & Hp). fold (rstrip b') in Ep.
      apply spaces_forallb in Hp. rewrite <- (words_trail (rep c_bt k ++ rstrip b') p Hp), <- app_assoc, <- Ep, <- Ej.
      apply words_of_words, HW.
    + apply Forall_app. split; [exact G3|]. constructor; [|constructor]. intros _. cbn [t_text].
      destruct k as [|k]; [lia|]. reflexivity.
Qed.

(** * Filling lines with the raised tokens *)

Definition trimmed (l : str) : Prop := ink_first l /\ ink_last l.
Definition fine (t : tok) : Prop := trimmed (t_text t) /\ is_html_newline (t_text t) = false.

Lemma fits_shorter w m n : m <= n -> fits w n -> fits w m.
Proof.
  intros H. destruct w as [z| |q]; cbn [fits]; [|tauto|].
  - intros [G|G]; [left; exact G|right; lia].
  - intros [G|G]; [left; exact G|right]. eapply Qle_trans; [|exact G]. rewrite <- Zle_Qle. lia.
Qed.

Lemma nofit_longer w m n : m <= n ->
  len_le m w || width_nonpos w = false -> len_le n w || width_nonpos w = false.
Proof.
  intros H G. destruct (len_le n w || width_nonpos w) eqn:E; [|reflexivity].
  apply fits_spec in E. apply (fits_shorter w m n H) in E. apply fits_spec in E. congruence.
Qed.

Lemma str_join_snoc sep ls (x y : str) : str_join sep (ls ++ [x; y]) = str_join sep (ls ++ [x]) ++ sep ++ y.
Proof.
  induction ls as [|l ls IH]; [reflexivity|]. cbn [app].
  rewrite !str_join_cons by (destruct ls; discriminate). rewrite IH, <- !app_assoc. reflexivity.
Qed.

Lemma str_join_last sep ls (x y : str) : str_join sep (ls ++ [x ++ y]) = str_join sep (ls ++ [x]) ++ y.
Proof.
  induction ls as [|l ls IH]; [reflexivity|]. cbn [app].
  rewrite !str_join_cons by (destruct ls; discriminate). rewrite IH, <- !app_assoc. reflexivity.
Qed.

Lemma trimmed_app a l b : trimmed a -> trimmed b -> trimmed (a ++ lead_str l ++ b).
Proof.
  intros [(c & x & -> & Hc) _] [_ Hb]. split.
  - exists c. eexists. split; [reflexivity|exact Hc].
  - apply ink_last_app, ink_last_app, Hb.
Qed.

Lemma join_raise w ts : Forall fine ts -> forall done cur, trimmed cur -> Forall trimmed done ->
  exists ts' done' cur', Forall2 raise ts ts'
    /\ fold_left (join_step w) ts (done, cur) = (done', cur')
    /\ fold_left (join_step w) ts' (done, cur) = (done', cur')
    /\ trimmed cur' /\ Forall trimmed done'
    /\ str_join [c_sp] (done' ++ [cur']) = str_join [c_sp] (done ++ [cur]) ++ render ts'.
Proof.
  intros H. induction H as [|t ts [Ht Hh] H IH]; intros done cur Hc Hd.
  { exists [], done, cur. cbn. rewrite app_nil_r. repeat split; auto. apply Hc. apply Hc. }
  assert (Hcn : nilb cur = false) by (apply nilb_false, ink_last_ne, Hc).
  assert (P : forall l, (if l && negb (nilb cur) then cur ++ [c_sp] ++ t_text t else cur ++ t_text t)
                        = cur ++ lead_str l ++ t_text t).
  { intros l. rewrite Hcn. destruct l; reflexivity. }
  assert (Step : forall l e, join_step w (done, cur) (Tok (t_text t) l e)
    = if len_le (length (cur ++ lead_str l ++ t_text t)) w || width_nonpos w
      then (done, cur ++ lead_str l ++ t_text t) else (done ++ [cur], t_text t)).
  { intros l e. unfold join_step. cbn [t_text t_lead]. rewrite P, Hcn, Hh, orb_false_r.
    destruct (len_le _ w || width_nonpos w); reflexivity. }
  destruct t as [x l e]. cbn [t_text t_lead t_eval] in *.
  destruct (len_le (length (cur ++ lead_str l ++ x)) w || width_nonpos w) eqn:Ef.
  - destruct (IH done (cur ++ lead_str l ++ x)) as (ts' & done' & cur' & R & E1 & E2 & Hc' & Hd' & Ej);
      [apply trimmed_app; assumption|exact Hd|].
    exists (Tok x l e :: ts'), done', cur'. split; [constructor; [split; [|split]; auto|exact R]|].
    cbn [fold_left]. rewrite !Step, Ef. split; [exact E1|]. split; [exact E2|]. split; [exact Hc'|]. split; [exact Hd'|].
    rewrite Ej, str_join_last, render_cons. cbn [t_lead t_text]. rewrite <- !app_assoc. reflexivity.
  - destruct (IH (done ++ [cur]) x) as (ts' & done' & cur' & R & E1 & E2 & Hc' & Hd' & Ej);
      [exact Ht|apply Forall_app; auto|].
    exists (Tok x true e :: ts'), done', cur'. split; [constructor; [split; [|split]; auto|exact R]|].
    cbn [fold_left]. rewrite !Step, Ef.
    rewrite (nofit_longer w (length (cur ++ lead_str l ++ x))) ; [|destruct l; cbn [lead_str app]; rewrite ?app_length; cbn [length]; lia|exact Ef].
    split; [exact E1|]. split; [exact E2|]. split; [exact Hc'|]. split; [exact Hd'|].
    rewrite Ej, <- app_assoc. cbn [app]. rewrite str_join_snoc, render_cons. cbn [t_lead t_text lead_str].
    rewrite <- !app_assoc. reflexivity.
Qed.

Lemma rc_flush s cts : rc true s cts -> first_flush (expands cts).
Proof.
  intros H t r E. remember true as st eqn:Est.
  assert (G : forall g t r rest, expands (gap_toks true g) ++ r = t :: rest -> blank g = false -> t_lead t = false).
  { clear. intros g t r rest E Eb. unfold gap_toks in E. rewrite Eb in E. unfold expands in E. cbn [map concat] in E.
    unfold expand in E. cbn [t_eval t_lead t_text] in E. rewrite app_nil_r, words_strip in E.
    destruct (words g) as [|w ws] eqn:Ew.
    - exfalso. apply ink_ne_blank in Eb. rewrite ink_words, Ew in Eb. apply Eb. reflexivity.
    - cbn [wp app] in E. injection E as <- _. reflexivity. }
  destruct H as [st g Hg|st g k x j dot rest ts Hg Hk Hx Hj Hc Hr Hd H|st g k b Hg Hk Hb]; subst st;
    rewrite ?expands_app, ?expands_cons in E.
  - destruct (blank g) eqn:Eb; [unfold gap_toks in E; rewrite Eb in E; discriminate|].
    apply (G g t [] r); [rewrite app_nil_r; exact E|exact Eb].
  - destruct (blank g) eqn:Eb; [|exact (G _ _ _ _ E Eb)]. unfold gap_toks in E. rewrite Eb in E.
    cbn [expands map concat app] in E. unfold expand in E. cbn [t_eval app] in E. injection E as <- _. cbn [t_lead].
    unfold span_lead. rewrite Eb. reflexivity.
  - destruct (blank g) eqn:Eb; [|exact (G _ _ _ _ E Eb)]. unfold gap_toks in E. rewrite Eb in E.
    unfold expands in E. cbn [map concat app] in E. unfold expand in E. cbn [t_eval t_lead t_text] in E.
    rewrite app_nil_r in E. destruct (words _) as [|w ws]; [discriminate|]. cbn [wp] in E. injection E as <- _. cbn [t_lead].
    unfold span_lead. rewrite Eb. reflexivity.
Qed.

Lemma bare_not_html s : bare s -> is_html_newline s = false.
Proof.
  intros H. destruct (is_html_newline s) eqn:E; [|reflexivity]. exfalso.
  apply (html_newline_spec (s, false)) in E. destruct E as (tag & t & Es & Hin). cbn [fst] in Es.
  assert (G : exists u, tag = lit "<br" ++ u).
  { cbn in Hin. repeat destruct Hin as [<-|Hin]; try (eexists; reflexivity). destruct Hin. }
  destruct G as (u & ->). apply (H [] (lit "<br") (u ++ t)); [cbn; auto|]. rewrite Es, <- app_assoc. reflexivity.
Qed.

Lemma word_infix w s : In w (words s) -> exists a b, s = a ++ w ++ b.
Proof.
  remember (length s) as n eqn:Hn. assert (Hle : length s <= n) by lia. clear Hn. revert s Hle.
  induction n as [|n IH]; intros s Hle H; [destruct s; [destruct H|cbn in Hle; lia]|].
  destruct s as [|c s]; [destruct H|]. cbn in Hle. destruct (is_space c) eqn:Hc.
  - rewrite words_cons_space in H by exact Hc. destruct (IH s ltac:(lia) H) as (a & b & ->).
    exists (c :: a), b. reflexivity.
  - destruct (words_head (c :: s)) as (w' & v & E & Ew & Hw & _); [exists c, s; auto|].
    rewrite Ew in H. destruct H as [->|H]; [exists [], v; exact E|].
    assert (L := f_equal (@length N) E). rewrite app_length in L.
    cbn [length] in L. destruct Hw as [Hw _]. destruct w' as [|d w']; [congruence|]. cbn [length] in L.
    destruct (IH v ltac:(lia) H) as (a & b & Ev). exists ((d :: w') ++ a), b. rewrite E, Ev, <- app_assoc. reflexivity.
Qed.

Lemma word_trimmed w : word w -> trimmed w.
Proof.
  intros H. destruct (join_ends [w]) as [F L]; [discriminate|constructor; [exact H|constructor]|]. split; assumption.
Qed.

Lemma wp_fine l s : bare s -> Forall fine (wp l (words s)).
Proof.
  intros H. assert (Hw := words_word s).
  assert (Hb : Forall bare (words s)).
  { apply Forall_forall. intros w Hin. apply word_infix in Hin. destruct Hin as (a & b & ->). apply bare_infix in H. exact H. }
  destruct (words s) as [|w ws]; [constructor|]. inversion Hw; inversion Hb; subst. cbn [wp]. constructor.
  - split; cbn [t_text]; [apply word_trimmed; assumption|apply bare_not_html; assumption].
  - apply Forall_map. apply Forall_forall. intros x Hin. rewrite Forall_forall in *.
    split; cbn [t_text]; [apply word_trimmed; auto|apply bare_not_html; auto].
Qed.

Lemma gap_fine st g : bare g -> Forall fine (expands (gap_toks st g)).
Proof.
  intros H. unfold gap_toks. destruct (blank g); [constructor|]. unfold expands. cbn [map concat]. unfold expand.
  cbn [t_eval t_text t_lead]. rewrite app_nil_r. apply wp_fine, bare_strip, H.
Qed.

Lemma rc_fine st s cts : rc st s cts -> bare s -> Forall fine (expands cts).
Proof.
  intros H. induction H as [st g Hg|st g k x j dot rest ts Hg Hk Hx Hj Hc Hr Hd H IH|st g k b Hg Hk Hb]; intros HB.
  - apply gap_fine, HB.
  - rewrite expands_app, expands_cons. apply Forall_app. split; [|unfold expand; cbn [t_eval app]; constructor].
    + apply gap_fine. apply (bare_infix [] g _ HB).
    + split; cbn [t_text].
      * split.
        -- rewrite <- !app_assoc. apply ink_first_rep, Hk.
        -- destruct Hd as [(-> & _)|(-> & _)].
           ++ eexists. exists c_dot. split; reflexivity.
           ++ rewrite app_nil_r. destruct j as [|j]; [lia|]. rewrite rep_snoc.
              exists (rep c_bt k ++ x ++ rep c_bt j), c_bt. rewrite <- !app_assoc. auto.
      * destruct k as [|k]; [lia|]. reflexivity.
    + apply IH. apply (bare_infix (g ++ (rep c_bt k ++ x ++ rep c_bt j) ++ dot) rest []).
      rewrite app_nil_r, <- !app_assoc. rewrite <- !app_assoc in HB. exact HB.
  - rewrite expands_app. apply Forall_app. split.
    + apply gap_fine. apply (bare_infix [] g _ HB).
    + unfold expands. cbn [map concat]. unfold expand. cbn [t_eval t_text t_lead]. rewrite app_nil_r.
      apply wp_fine. destruct (rstrip_by_spec is_space b) as (b' & E & _). fold (rstrip b) in E.
      apply (bare_infix g _ b'). rewrite <- app_assoc, <- E. exact HB.
Qed.

Lemma Forall_join_inv (P : char -> Prop) sep ls : Forall P (str_join sep ls) -> Forall (Forall P) ls.
Proof.
  induction ls as [|l ls IH]; intros H; [constructor|]. destruct ls as [|l' ls]; [constructor; [exact H|constructor]|].
  rewrite str_join_cons in H by discriminate. apply Forall_app in H. destruct H as [H1 H2].
  apply Forall_app in H2. constructor; [exact H1|apply IH, H2].
Qed.

(** The wrapped text on one line is made of raised tokens, which fill the same lines. *)
Lemma join_again w ts : Forall fine ts -> first_flush ts -> Forall one_line (map t_text ts) ->
  exists ts', Forall2 raise ts ts' /\ first_flush ts' /\ joined (join ts w) = render ts' /\ join ts' w = join ts w.
Proof.
  intros Hf Hl Ho. destruct ts as [|t r].
  { exists []. split; [constructor|]. split; [exact Hl|]. split; reflexivity. }
  inversion Hf as [|? ? [Ht Hh] Hr]; subst.
  destruct t as [x l e]. assert (l = false) by (apply (Hl _ _ eq_refl)). subst l. cbn [t_text] in *.
  assert (S0 : join_step w ([], []) (Tok x false e) = ([], x)).
  { unfold join_step. cbn [t_text t_lead nilb andb app]. rewrite Hh, orb_true_r. reflexivity. }
  destruct (join_raise w r Hr [] x Ht (Forall_nil _)) as (ts' & done & cur & R & E1 & E2 & Hc & Hd & Ej).
  exists (Tok x false e :: ts'). split; [constructor; [repeat split; auto|exact R]|].
  split; [intros t2 r2 E; injection E as <- _; reflexivity|].
  unfold join. cbn [fold_left]. rewrite S0, E1, E2. split; [|reflexivity].
  assert (Hcn : nilb cur = false) by (apply nilb_false, ink_last_ne, Hc). rewrite Hcn.
  assert (HL : Forall trimmed (done ++ [cur])) by (apply Forall_app; auto).
  assert (Er : str_join [c_sp] (done ++ [cur]) = render (Tok x false e :: ts')).
  { rewrite Ej, render_cons. reflexivity. }
  assert (Hone : Forall one_line (done ++ [cur])).
  { apply (Forall_join_inv _ [c_sp]). rewrite Er, render_cons. cbn [t_lead t_text lead_str app].
    inversion Ho as [|? ? O1 O2]; subst. apply Forall_app. split; [exact O1|]. clear -R O2.
    induction R as [|t t' r r' (E1 & _) R IH]; [constructor|]. cbn [map] in O2. inversion O2; subst.
    rewrite render_cons, E1. apply Forall_app. split; [destruct (t_lead t'); repeat constructor|].
    apply Forall_app. split; [assumption|apply IH; assumption]. }
  unfold joined. rewrite splitlines_join_ne; [|eapply Forall_impl; [|exact HL]; intros a Ha; apply ink_last_ne, Ha|exact Hone].
  rewrite <- Er. f_equal. clear -HL. induction HL as [|a l [H1 H2] HL IH]; [reflexivity|]. cbn [map].
  rewrite IH, (proj1 (ink_ends_strip a H1 H2)). reflexivity.
Qed.

(** * Text without links stays without links *)

Lemma marks_gap_first p s : gapf p = true -> match marks p s with [] => True | (f, _) :: _ => gapf f = true end.
Proof.
  revert p. induction s as [|c s IH]; intros p Hp; [exact I|]. cbn [marks]. destruct (is_space c); [|exact Hp].
  apply IH. destruct p; try discriminate; cbn; destruct (N.eqb c c_nl); reflexivity.
Qed.

Lemma marks_adjacent z : forall s B, marks Fa s = map (pair Fa) z ++ B -> exists b, s = z ++ b.
Proof.
  induction z as [|x z IH]; intros s B E; [exists s; reflexivity|]. cbn [map app] in E.
  destruct s as [|c s]; [discriminate|]. cbn [marks] in E. destruct (is_space c) eqn:Hc.
  - exfalso. assert (G := marks_gap_first (after_space Fa c) s). rewrite E in G. cbn in G.
    destruct (N.eqb c c_nl); specialize (G eq_refl); discriminate.
  - injection E as -> E. destruct (IH s B E) as (b & ->). exists b. reflexivity.
Qed.

Lemma marks_infix_inv z : forall s p A f x B, marks p s = A ++ (f, x) :: map (pair Fa) z ++ B ->
  exists a b, s = a ++ (x :: z) ++ b.
Proof.
  induction s as [|c s IH]; intros p A f x B E; [destruct A; discriminate|]. cbn [marks] in E.
  destruct (is_space c).
  - destruct (IH _ _ _ _ _ E) as (a & b & ->). exists (c :: a), b. reflexivity.
  - destruct A as [|[f' x'] A]; cbn [app] in E.
    + injection E as _ -> E. apply marks_adjacent in E. destruct E as (b & ->). exists [], b. reflexivity.
    + injection E as _ _ E. destruct (IH _ _ _ _ _ E) as (a & b & ->). exists (c :: a), b. reflexivity.
Qed.

Lemma marks_word z s : Forall (fun c => is_space c = false) z -> marks Fa (z ++ s) = map (pair Fa) z ++ marks Fa s.
Proof. intros H. induction H as [|c z Hc H IH]; [reflexivity|]. cbn [app marks map]. rewrite Hc, IH. reflexivity. Qed.

Lemma marks_noFs p s : p <> Fs -> Forall (fun m => fst m <> Fs) (marks p s).
Proof.
  revert p. induction s as [|c s IH]; intros p Hp; [constructor|]. cbn [marks]. destruct (is_space c).
  - apply IH. destruct p; cbn; try congruence; destruct (N.eqb c c_nl); discriminate.
  - constructor; [exact Hp|]. apply IH. discriminate.
Qed.

Lemma marks_tail_noFs s : Forall (fun m => fst m <> Fs) (tl (marks Fs s)).
Proof.
  induction s as [|c s IH]; [constructor|]. cbn [marks]. destruct (is_space c); [exact IH|].
  cbn [tl]. apply marks_noFs. discriminate.
Qed.

(** If whitespace stays whitespace then what touches in the new text touched in the old. *)
Lemma infix_back s t z a b : ink t = ink s -> (forall i ws, gap_at s i ws -> exists ws', gap_at t i ws') ->
  z <> [] -> Forall (fun c => is_space c = false) z -> t = a ++ z ++ b -> exists a' b', s = a' ++ z ++ b'.
Proof.
  intros Hi Hg Hn Hz E. destruct z as [|x z]; [congruence|]. inversion Hz as [|? ? Hx Hz']; subst.
  assert (Em : marks Fs (a ++ (x :: z) ++ b) = marks Fs a ++ (endf Fs a, x) :: map (pair Fa) z ++ marks Fa b).
  { rewrite marks_app. cbn [app marks]. rewrite Hx, marks_word by exact Hz'. reflexivity. }
  set (M := marks Fs s). set (M' := marks Fs (a ++ (x :: z) ++ b)) in *.
  assert (Hs : map snd M' = map snd M) by (unfold M, M'; rewrite !marks_ink; exact Hi).
  set (n := length (marks Fs a)).
  assert (K : forall i m c, nth_error M (S i) = Some m -> nth_error M' (S i) = Some (Fa, c) -> m = (Fa, c)).
  { intros i [f d] c H1 H2.
    assert (d = c).
    { assert (G1 := map_nth_error snd _ _ H1). assert (G2 := map_nth_error snd _ _ H2). cbn in G1, G2.
      rewrite Hs in G2. congruence. }
    subst d. f_equal. destruct f; [|reflexivity| |].
    - exfalso. assert (G := marks_tail_noFs s). fold M in G. destruct M as [|m0 M0]; [destruct i; discriminate|].
      cbn [tl nth_error] in G, H1. rewrite Forall_forall in G. apply (G (Fs, c)); [|reflexivity].
      eapply nth_error_In. exact H1.
    - exfalso. destruct (mark_gap_at _ _ _ _ H1 eq_refl) as (ws & Hga & _). apply Hg in Hga.
      destruct Hga as (ws' & Hga). apply gap_mark in Hga. destruct Hga as (y & Hy & _). unfold M' in H2. rewrite H2 in Hy.
      destruct (in_dec N.eq_dec c_nl ws'); discriminate.
    - exfalso. destruct (mark_gap_at _ _ _ _ H1 eq_refl) as (ws & Hga & _). apply Hg in Hga.
      destruct Hga as (ws' & Hga). apply gap_mark in Hga. destruct Hga as (y & Hy & _). unfold M' in H2. rewrite H2 in Hy.
      destruct (in_dec N.eq_dec c_nl ws'); discriminate. }
  clearbody M'. 
  assert (Hlen : length M = length M') by (rewrite <- (map_length snd M), <- (map_length snd M'), Hs; reflexivity).
  assert (Hn0 : nth_error M' n = Some (endf Fs a, x)).
  { rewrite Em. unfold n. rewrite nth_error_app2, Nat.sub_diag by lia. reflexivity. }
  destruct (nth_error M n) as [[f d]|] eqn:En.
  2: { apply nth_error_None in En. assert (nth_error M' n <> None) by congruence. apply nth_error_Some in H. lia. }
  assert (d = x).
  { assert (G1 := map_nth_error snd _ _ En). assert (G2 := map_nth_error snd _ _ Hn0). cbn in G1, G2.
    rewrite Hs in G2. congruence. }
  subst d. apply nth_error_split in En. destruct En as (A & B & EM & LA).
  assert (EB : exists B', B = map (pair Fa) z ++ B').
  { assert (K2 : forall i c, nth_error z i = Some c -> nth_error B i = Some (Fa, c)).
    { intros i c Hc.
      assert (H2 : nth_error M' (S (n + i)) = Some (Fa, c)).
      { rewrite Em. unfold n. rewrite nth_error_app2 by lia.
        replace (S (length (marks Fs a) + i) - length (marks Fs a)) with (S i) by lia. cbn [nth_error].
        rewrite nth_error_app1 by (rewrite map_length; apply nth_error_Some; congruence). apply map_nth_error. exact Hc. }
      assert (H1 : nth_error M (S (n + i)) = nth_error B i).
      { rewrite EM, nth_error_app2 by lia. replace (S (n + i) - length A) with (S i) by lia. reflexivity. }
      destruct (nth_error B i) as [m|] eqn:Eb.
      - rewrite (K _ _ _ H1 H2). reflexivity.
      - exfalso. apply nth_error_None in H1. assert (H3 : nth_error M' (S (n + i)) <> None) by congruence.
        apply nth_error_Some in H3. lia. }
    clear -K2. revert B K2. induction z as [|c z IH]; intros B K2; [exists B; reflexivity|].
    destruct B as [|m B]; [specialize (K2 0 c eq_refl); discriminate|].
    assert (E0 := K2 0 c eq_refl). cbn in E0. injection E0 as ->.
    destruct (IH B) as (B' & ->); [intros i d Hd; apply (K2 (S i) d Hd)|]. exists B'. reflexivity. }
  destruct EB as (B' & ->). unfold M in EM. apply marks_infix_inv in EM. exact EM.
Qed.

Lemma bare_back s t : ink t = ink s -> (forall i ws, gap_at s i ws -> exists ws', gap_at t i ws') -> bare s -> bare t.
Proof.
  intros Hi Hg Hb a z b Hz E.
  assert (G : z <> [] /\ Forall (fun c => is_space c = false) z).
  { cbn in Hz. repeat destruct Hz as [<-|Hz]; try (split; [discriminate|repeat constructor]). destruct Hz. }
  destruct (infix_back s t z a b Hi Hg (proj1 G) (proj2 G) E) as (a' & b' & Es). exact (Hb a' z b' Hz Es).
Qed.

(** * Wrapping twice *)

Lemma bare_joined text : linkless text ->
  (forall word a b, In word (words text) -> word <> a ++ lit "<br" ++ b) -> bare (joined text).
Proof.
  intros Hl Hb a z b Hz E.
  assert (G : z <> [] /\ Forall (fun c => is_space c = false) z).
  { cbn in Hz. repeat destruct Hz as [<-|Hz]; try (split; [discriminate|repeat constructor]). destruct Hz. }
  destruct (words_infix z a b (proj1 G) (proj2 G)) as (w & x & y & Hin & Ew). rewrite <- E, words_joined in Hin.
  cbn in Hz. destruct Hz as [<-|[<-|[<-|[]]]].
  - apply (Hl w (lit "](") x y Hin); [cbn; auto|exact Ew].
  - apply (Hl w (lit "][") x y Hin); [cbn; auto|exact Ew].
  - exact (Hb w x y Hin Ew).
Qed.

Lemma joined_spacing text : plain_space text -> spacing (joined text).
Proof.
  intros Hs. unfold joined. apply Forall_str_join; [repeat constructor; auto|]. apply Forall_map.
  assert (G1 := Forall_splitlines _ _ Hs). assert (G2 := splitlines_no_linebreak text).
  revert G1 G2. generalize (splitlines text). clear. intros l. induction l as [|x l IH]; intros G1 G2; [constructor|].
  inversion G1; inversion G2; subst. constructor; [|auto]. apply Forall_strip. clear -H1 H5.
  induction x as [|c x IH]; [constructor|]. inversion H1; inversion H5; subst. constructor; [|auto].
  intros Hc. destruct (H2 Hc); [assumption|congruence].
Qed.

Lemma wrap_stable text w out : linkless text -> plain_space text ->
  (forall word a b, In word (words text) -> word <> a ++ lit "<br" ++ b) ->
  wrap text w = Ok out -> wrap out w = Ok out.
Proof.
  intros Hl Hp Hb E. assert (HB := bare_joined text Hl Hb). assert (HS := joined_spacing text Hp).
  assert (HI : ink out = ink text) by (apply (C22_partial text w out); [apply linkless_apart, Hl|exact E]).
  assert (HG := fun i ws => C23_whitespace_kept text w out i ws Hl Hp E).
  rewrite wrap_by_tokens in E. apply bind_ok in E. destruct E as (ts & Et & E). apply ok_inj in E.
  assert (Hone := wrap_tokens_one_line _ _ Et).
  destruct (wrap_tokens_rc text ts HB HS Et) as (cts & Hrc & Hd & ->).
  destruct (join_again w (expands cts)) as (ts' & R & Hf & Ej & Ew).
  { eapply rc_fine; [exact Hrc|exact HB]. }
  { eapply rc_flush. exact Hrc. }
  { apply Forall_map in Hone. rewrite map_map in Hone. exact Hone. }
  rewrite E in Ej, Ew.
  destruct (rc_raise true (joined text) cts Hrc HS Hd ts' R) as (cts' & Hrc' & Ex & Hd'); [auto|].
  rewrite <- Ej in Hrc'. rewrite wrap_by_tokens. rewrite (rc_wrap_tokens out cts'); auto.
  - cbn [bind]. rewrite Ex, Ew. reflexivity.
  - apply (bare_back (joined text)).
    + rewrite !ink_joined. exact HI.
    + intros i ws Hga. apply (gap_same_words _ text) in Hga; [|apply words_joined]. destruct Hga as (ws1 & Hga).
      apply HG in Hga. destruct Hga as (ws2 & Hga). eapply gap_same_words; [|exact Hga]. symmetry. apply words_joined.
    + exact HB.
  - rewrite Ej. clear -R HS Hrc HB. assert (HC := rc_ctok _ _ _ Hrc HB HS).
    assert (G : Forall (fun t => spacing (t_text t)) (expands cts)).
    { clear -HC. induction HC as [|t ts Ht HC IH]; [constructor|]. rewrite expands_cons. apply Forall_app. split; [|exact IH].
      unfold expand. destruct (t_eval t); [|constructor; [apply (ct_sp t Ht)|constructor]].
      assert (G := words_Forall _ _ (ct_sp t Ht)). destruct (words (t_text t)) as [|w ws]; [constructor|].
      inversion G; subst. cbn [wp]. constructor; [assumption|]. apply Forall_map. assumption. }
    clear -R G. induction R as [|t t' r r' (E1 & _) R IH]; [constructor|]. inversion G; subst.
    rewrite render_cons, E1, !spacing_app. split; [destruct (t_lead t'); repeat constructor|].
    split; [assumption|apply IH; assumption].
Qed.
