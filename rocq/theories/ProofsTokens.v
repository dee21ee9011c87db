(** What the four splitting functions of TextWrap.v do to a text. *)
From Coq Require Import String.
From Verif Require Import Py Regex Utils TextWrap Base SpecLines ProofsLines ProofsRegex SpecWrap
  ProofsScan ProofsWrap ProofsParser.

Definition link_joint (s : str) : Prop :=
  exists t, s = t ++ lit "](" \/ s = t ++ lit "][".
Definition inline_code (s : str) : Prop :=
  exists t, s = lit "`" ++ t ++ lit "`" \/ s = lit "`" ++ t ++ lit "`.".

Definition texts (ts : list tok) : str := concat (map t_text ts).

Lemma texts_app a b : texts (a ++ b) = texts a ++ texts b.
Proof. unfold texts. rewrite map_app, concat_app. reflexivity. Qed.

Lemma texts_one t : texts [t] = t_text t.
Proof. unfold texts. cbn. apply app_nil_r. Qed.

Lemma app_last_snoc ts t x :
  app_last (ts ++ [t]) x = ts ++ [Tok (t_text t ++ x) (t_lead t) (t_eval t)].
Proof.
  induction ts as [|u ts IH]; [reflexivity|]. cbn [app app_last].
  destruct (ts ++ [t]) eqn:E; [destruct ts; discriminate|]. rewrite IH. reflexivity.
Qed.

Lemma eval_last_snoc ts t : eval_last (ts ++ [t]) = ts ++ [Tok (t_text t) (t_lead t) true].
Proof.
  induction ts as [|u ts IH]; [reflexivity|]. cbn [app eval_last].
  destruct (ts ++ [t]) eqn:E; [destruct ts; discriminate|]. rewrite IH. reflexivity.
Qed.

Lemma last_text_snoc ts t : last_text (ts ++ [t]) = t_text t.
Proof. unfold last_text. rewrite rev_app_distr. reflexivity. Qed.

(** * Whitespace-free text *)

Lemma ink_app a b : ink (a ++ b) = ink a ++ ink b.
Proof. apply filter_app. Qed.

Lemma ink_spaces ws : spaces ws -> ink ws = [].
Proof.
  intros H. induction H as [|c ws Hc H IH]; [reflexivity|]. cbn. unfold not_space.
  rewrite Hc. exact IH.
Qed.

Lemma ink_strip s : ink (strip s) = ink s.
Proof.
  destruct (strip_spec s) as (a & b & E & Ha & Hb). rewrite E at 2. rewrite !ink_app.
  apply spaces_forallb in Ha, Hb. rewrite (ink_spaces a Ha), (ink_spaces b Hb), app_nil_r. reflexivity.
Qed.

Lemma ink_rstrip s : ink (rstrip s) = ink s.
Proof.
  destruct (rstrip_by_spec is_space s) as (b & E & Hb). unfold rstrip. rewrite E at 2.
  apply spaces_forallb in Hb. rewrite ink_app, (ink_spaces b Hb), app_nil_r. reflexivity.
Qed.

Lemma ink_blank s : blank s = true -> ink s = [].
Proof. intros H. apply ink_spaces, spaces_forallb, blank_spec. exact H. Qed.

Lemma ink_nil s : ink s = [] <-> spaces s.
Proof.
  split; [|apply ink_spaces]. induction s as [|c s IH]; [intros _; constructor|]. cbn. unfold not_space.
  destruct (is_space c) eqn:E; cbn; [|discriminate]. intros H. constructor; [exact E|apply IH; exact H].
Qed.

Lemma ink_ne_blank s : blank s = false <-> ink s <> [].
Proof.
  rewrite ink_nil, spaces_forallb, <- blank_spec. destruct (blank s); split; congruence.
Qed.

(** * Where a token stands in the text *)

(** The start of the text or a place after whitespace. *)
Definition starts_word (a : str) : Prop :=
  a = [] \/ exists a' c, a = a' ++ [c] /\ is_space c = true.

Definition stands (text t : str) : Prop :=
  exists a b, text = a ++ t ++ b /\ t <> [] /\ (one_dot t = true -> starts_word a /\ forall b', b <> c_dot :: b').

Lemma one_dot_spec s :
  one_dot s = true <-> exists u, s = c_dot :: u /\ forall u', u <> c_dot :: u'.
Proof.
  unfold one_dot. rewrite andb_true_iff, negb_true_iff. split.
  - intros [H1 H2]. apply startswith_one in H1. destruct H1 as (u & ->). exists u.
    split; [reflexivity|]. intros u' ->. discriminate.
  - intros (u & -> & Hu). split; [reflexivity|]. destruct u as [|d u]; [reflexivity|].
    cbn [startswith]. rewrite N.eqb_refl. cbn [andb].
    destruct (N.eqb c_dot d) eqn:E; [|reflexivity]. apply N.eqb_eq in E. subst.
    exfalso. apply (Hu u). reflexivity.
Qed.

Lemma stands_strip text pre s post :
  text = pre ++ s ++ post -> blank s = false -> (one_dot s = true -> starts_word pre) ->
  (forall p', post <> c_dot :: p') ->
  stands text (strip s).
Proof.
  intros -> Hb Hd Hp. destruct (strip_spec s) as (ws & ws' & E & Hw & Hw').
  exists (pre ++ ws), (ws' ++ post). split; [|split].
  - rewrite E at 1. rewrite <- !app_assoc. reflexivity.
  - apply blank_strip. exact Hb.
  - intros H. split.
    2: { intros b' Eb. destruct ws' as [|x ws']; [apply (Hp b' Eb)|]. injection Eb as -> _.
         cbn in Hw'. discriminate. }
    destruct ws as [|c ws] using rev_ind.
    + rewrite app_nil_r. apply Hd. apply one_dot_spec. apply one_dot_spec in H.
      destruct H as (u & Eu & Hu). rewrite Eu in E. cbn [app] in E. exists (u ++ ws').
      split; [exact E|]. intros u' E'. destruct u as [|d u].
      * cbn in E'. subst ws'. cbn in Hw'. discriminate.
      * cbn in E'. injection E' as -> _. apply (Hu u). reflexivity.
    + right. exists (pre ++ ws), c. split; [rewrite app_assoc; reflexivity|].
      rewrite forallb_app in Hw. cbn in Hw. apply andb_true_iff in Hw.
      destruct Hw as [_ Hw]. rewrite andb_true_r in Hw. exact Hw.
Qed.

(** * [code_split] *)

Definition starts_tick (s : str) : Prop := exists x, s = c_bt :: x.

Definition code_tok (text : str) (t : tok) : Prop :=
  if t_eval t then stands text (t_text t) else inline_code (t_text t).

Definition code_inv (text pre s : str) (ts : list tok) (open : nat) : Prop :=
  text = pre ++ s /\ ink (texts ts) = ink pre
  /\ (open = 0 -> Forall (code_tok text) ts /\
      ((ts = [] /\ pre = [])
      \/ exists ts0 k c code lead,
           ts = ts0 ++ [Tok (rep c_bt k ++ c :: code ++ rep c_bt k) lead false]
           /\ 0 < k /\ c <> c_bt))
  /\ (0 < open ->
      exists ts0 pre0 body lead,
        ts = ts0 ++ [Tok (rep c_bt open ++ body) lead false]
        /\ Forall (code_tok text) ts0
        /\ pre = pre0 ++ rep c_bt open ++ body
        /\ ((body = [] /\ not_tick_first s) \/ exists c x, body = c :: x ++ [c_bt] /\ c <> c_bt)).

Lemma rep_snoc c n : rep c (S n) = rep c n ++ [c].
Proof. unfold rep. apply repeat_cons. Qed.

Lemma inline_code_span k c x :
  0 < k -> inline_code (rep c_bt k ++ c :: x ++ rep c_bt k).
Proof.
  intros Hk. destruct k as [|k]; [lia|]. exists (rep c_bt k ++ c :: x ++ rep c_bt k). left.
  rewrite rep_S at 1. rewrite rep_snoc. cbn [app]. rewrite <- !app_assoc. cbn [app].
  rewrite <- !app_assoc. reflexivity.
Qed.

Lemma inline_code_open k c x : 0 < k -> inline_code (rep c_bt k ++ c :: x ++ [c_bt]).
Proof.
  intros Hk. destruct k as [|k]; [lia|]. exists (rep c_bt k ++ c :: x). left.
  rewrite rep_S. cbn [app]. rewrite <- !app_assoc. reflexivity.
Qed.

Lemma inline_code_dot k c x : 0 < k -> inline_code ((rep c_bt k ++ c :: x ++ rep c_bt k) ++ [c_dot]).
Proof.
  intros Hk. destruct k as [|k]; [lia|]. exists (rep c_bt k ++ c :: x ++ rep c_bt k). right.
  rewrite rep_S at 1. rewrite rep_snoc. cbn [app]. rewrite <- !app_assoc. cbn [app].
  rewrite <- !app_assoc. reflexivity.
Qed.

Lemma inline_code_open_dot k c x : 0 < k -> inline_code ((rep c_bt k ++ c :: x ++ [c_bt]) ++ [c_dot]).
Proof.
  intros Hk. destruct k as [|k]; [lia|]. exists (rep c_bt k ++ c :: x). right.
  rewrite rep_S. cbn [app]. rewrite <- !app_assoc. cbn [app]. rewrite <- !app_assoc. reflexivity.
Qed.

Lemma rep_tick k : 0 < k -> exists x, rep c_bt k = c_bt :: x.
Proof. destruct k; [lia|]. intros _. eexists. reflexivity. Qed.

Lemma starts_tick_rep k x : 0 < k -> starts_tick (rep c_bt k ++ x).
Proof. intros H. destruct (rep_tick k H) as (y & ->). eexists. reflexivity. Qed.

Lemma code_step_inv text lead pre gap k rest ts open :
  code_inv text pre (gap ++ rep c_bt k ++ rest) ts open ->
  no_tick gap -> 0 < k -> not_tick_first rest ->
  exists ts' open',
    code_step text lead (ts, open, length pre)
      (length pre + length gap, length pre + length gap + k)
    = (ts', open', length (pre ++ gap ++ rep c_bt k))
    /\ code_inv text (pre ++ gap ++ rep c_bt k) rest ts' open'.
Proof.
  intros (Et & Hi & H0 & H1) Hg Hk Hr.
  assert (Lp : length pre + length gap + k = length (pre ++ gap ++ rep c_bt k)).
  { rewrite !app_length, rep_length. lia. }
  assert (Sg : slice text (length pre) (length pre + length gap) = gap).
  { rewrite Et. apply slice_mid. }
  assert (Sgk : slice text (length pre) (length pre + length gap + k) = gap ++ rep c_bt k).
  { replace (length pre + length gap + k) with (length pre + length (gap ++ rep c_bt k))
      by (rewrite app_length, rep_length; lia).
    rewrite Et, (app_assoc gap). apply slice_mid. }
  assert (Km : length pre + length gap + k - (length pre + length gap) = k) by lia.
  unfold code_step. rewrite Sg, Sgk, Km, Lp.
  destruct (open =? 0) eqn:Eo.
  - apply Nat.eqb_eq in Eo. subst open. destruct (H0 eq_refl) as [Ht H0']. clear H0 H1. rename H0' into H0.
    set (dot := one_dot gap && negb (nilb ts)).
    set (ts1 := if dot then app_last ts [c_dot] else ts).
    set (gap1 := if dot then tl gap else gap).
    (* after the optional full stop *)
    assert (A : exists pre1, pre ++ gap = pre1 ++ gap1 /\ ink (texts ts1) = ink pre1
                /\ Forall (code_tok text) ts1 /\ (one_dot gap1 = true -> starts_word pre1)).
    { unfold ts1, gap1. destruct dot eqn:Ed.
      - unfold dot in Ed. apply andb_true_iff in Ed. destruct Ed as [Ed En].
        apply one_dot_spec in Ed. destruct Ed as (u & -> & Hu).
        destruct H0 as [[-> _]|(ts0 & k0 & c & code & ld & -> & Hk0 & Hc)]; [discriminate|].
        exists (pre ++ [c_dot]). split; [rewrite <- app_assoc; reflexivity|].
        rewrite app_last_snoc. cbn [t_text t_lead t_eval tl]. split; [|split].
        + rewrite texts_app, texts_one in *. cbn [t_text] in *.
          rewrite app_assoc, (ink_app (texts ts0 ++ _)), Hi, <- ink_app. reflexivity.
        + apply Forall_app in Ht. destruct Ht as [Ht1 Ht2]. apply Forall_app. split; [exact Ht1|].
          constructor; [|constructor]. unfold code_tok. cbn [t_eval t_text].
          apply inline_code_dot. exact Hk0.
        + intros H. apply one_dot_spec in H. destruct H as (v & -> & _). exfalso.
          apply (Hu v). reflexivity.
      - exists pre. split; [reflexivity|]. split; [exact Hi|]. split; [exact Ht|].
        intros H. destruct H0 as [[-> ->]|(ts0 & k0 & c & code & ld & -> & _)]; [left; reflexivity|].
        exfalso. unfold dot in Ed. rewrite H in Ed. destruct ts0; discriminate. }
    destruct A as (pre1 & Ep & Hi1 & Ht1 & Hd1).
    set (ts2 := if negb (blank gap1) then _ else ts1).
    assert (B : ink (texts ts2) = ink (pre ++ gap) /\ Forall (code_tok text) ts2).
    { unfold ts2. destruct (blank gap1) eqn:Eb; cbn [negb].
      - split; [|exact Ht1]. rewrite Ep, ink_app, (ink_blank _ Eb), app_nil_r. exact Hi1.
      - split.
        + rewrite texts_app, texts_one, ink_app, Hi1. cbn [t_text].
          rewrite ink_strip, <- ink_app, Ep. reflexivity.
        + apply Forall_app. split; [exact Ht1|]. constructor; [|constructor].
          unfold code_tok. cbn [t_eval t_text]. apply stands_strip with pre1 (rep c_bt k ++ rest).
          * rewrite Et, app_assoc, Ep, <- app_assoc. reflexivity.
          * exact Eb.
          * exact Hd1.
          * intros p' Ep'. destruct (rep_tick k Hk) as (y & Ey). rewrite Ey in Ep'. discriminate. }
    destruct B as [Hi2 Ht2]. eexists. exists k. split; [reflexivity|].
    split; [rewrite Et, <- !app_assoc; reflexivity|]. split; [|split].
    + rewrite texts_app, texts_one, ink_app, Hi2. cbn [t_text].
      rewrite <- ink_app, <- app_assoc. reflexivity.
    + lia.
    + intros _. exists ts2, (pre ++ gap), [].
      exists (if nilb ts2 then lead else endswith [c_sp] gap1). rewrite app_nil_r.
      split; [reflexivity|]. split; [exact Ht2|]. split; [rewrite <- app_assoc; reflexivity|]. left. auto.
  - apply Nat.eqb_neq in Eo. assert (Ho : 0 < open) by lia. specialize (H1 Ho). clear H0.
    destruct H1 as (ts0 & pre0 & body & ld & -> & Ht1 & -> & Hb).
    assert (Gb : exists c x, body ++ gap = c :: x /\ c <> c_bt).
    { destruct Hb as [[-> Hn]|(c & x & -> & Hc)].
      - destruct gap as [|c gap].
        + exfalso. destruct (rep_tick k Hk) as (y & Ey). apply (Hn (y ++ rest)).
          cbn [app]. rewrite Ey. reflexivity.
        + exists c, gap. split; [reflexivity|]. inv Hg. assumption.
      - exists c, ((x ++ [c_bt]) ++ gap). auto. }
    destruct Gb as (c & x & Ebg & Hc).
    rewrite app_last_snoc, app_last_snoc. cbn [t_text t_lead t_eval].
    destruct (k =? open) eqn:Ek.
    + apply Nat.eqb_eq in Ek. subst k. eexists. exists 0. split; [reflexivity|].
      split; [rewrite Et, <- !app_assoc; reflexivity|]. split; [|split].
      * rewrite texts_app, texts_one in *. cbn [t_text] in *. rewrite ink_app in *.
        rewrite ink_app, app_assoc, Hi. rewrite !ink_app, <- !app_assoc. reflexivity.
      * intros _.
        assert (Es : (rep c_bt open ++ body) ++ gap ++ rep c_bt open
                     = rep c_bt open ++ c :: x ++ rep c_bt open).
        { rewrite <- !app_assoc, (app_assoc body), Ebg. reflexivity. }
        split.
        -- apply Forall_app. split; [exact Ht1|]. constructor; [|constructor].
           unfold code_tok. cbn [t_eval t_text]. rewrite Es. apply inline_code_span. exact Ho.
        -- right. exists ts0, open, c, x, ld. split; [|auto]. rewrite Es. reflexivity.
      * lia.
    + eexists. exists open. split; [reflexivity|].
      split; [rewrite Et, <- !app_assoc; reflexivity|]. split; [|split].
      * rewrite texts_app, texts_one in *. cbn [t_text] in *. rewrite ink_app in *.
        rewrite ink_app, app_assoc, Hi. rewrite !ink_app, <- !app_assoc. reflexivity.
      * lia.
      * intros _. exists ts0, pre0, (body ++ gap ++ rep c_bt k), ld.
        rewrite <- !app_assoc. split; [reflexivity|]. split; [exact Ht1|]. split; [reflexivity|]. right.
        destruct k as [|k]; [lia|].
        exists c, (x ++ rep c_bt k). rewrite app_assoc, Ebg, rep_snoc. cbn [app].
        rewrite <- app_assoc. auto.
Qed.

Lemma code_fold_inv text lead pos s ms :
  ticks pos s ms -> forall pre ts open, pos = length pre -> code_inv text pre s ts open ->
  exists pre' s' ts' open',
    fold_left (code_step text lead) ms (ts, open, pos) = (ts', open', length pre')
    /\ code_inv text pre' s' ts' open' /\ no_tick s' /\ length pre <= length pre'
    /\ (ms <> [] -> ts' <> []).
Proof.
  intros H. induction H as [pos s Hs|pos gap k rest ms Hg Hk Hr Ht IH]; intros pre ts open -> Hi.
  - exists pre, s, ts, open. cbn. repeat (split; [solve [auto]|]). congruence.
  - destruct (code_step_inv text lead pre gap k rest ts open Hi Hg Hk Hr) as (ts' & open' & E & Hi').
    cbn [fold_left]. rewrite E.
    assert (L : length pre + length gap + k = length (pre ++ gap ++ rep c_bt k)).
    { rewrite !app_length, rep_length. lia. }
    destruct (IH (pre ++ gap ++ rep c_bt k) ts' open' L Hi') as (pre' & s' & ts'' & open'' & E' & Hi'' & Hs' & Hl & _).
    exists pre', s', ts'', open''. rewrite L in E'. rewrite E'.
    split; [reflexivity|]. split; [exact Hi''|]. split; [exact Hs'|]. split; [lia|]. intros _ ->.
    destruct Hi'' as (_ & _ & H0 & H1). destruct open'' as [|n].
    + destruct (H0 eq_refl) as [_ [[_ ->]|(ts0 & ? & ? & ? & ? & E0 & _)]].
      * cbn in Hl. lia.
      * destruct ts0; discriminate.
    + destruct (H1 ltac:(lia)) as (ts0 & ? & ? & ? & E0 & _). destruct ts0; discriminate.
Qed.

(** [split_tail]. *)
Lemma split_tail_spec (good : tok -> Prop) text pre s ts last_end lead ts' :
  text = pre ++ s -> ink (texts ts) = ink pre -> Forall good ts ->
  (forall t ts0, ts = ts0 ++ [t] -> good (Tok (t_text t ++ [c_dot]) (t_lead t) (t_eval t))) ->
  (forall t, stands text (t_text t) -> t_eval t = true -> good t) ->
  (ts = [] -> pre = []) ->
  split_tail ts s last_end lead = Ok ts' ->
  ink (texts ts') = ink text /\ Forall good ts'.
Proof.
  intros Et Hi Ht Hdot Hgood Hnil. unfold split_tail.
  destruct (one_dot s) eqn:Ed.
  - destruct ts as [|t ts] using rev_ind; [discriminate|]. clear IHts.
    assert (Em : match ts ++ [t] with [] => Err IndexError
                 | _ => Ok (app_last (ts ++ [t]) [c_dot], tl s) end
                 = Ok (app_last (ts ++ [t]) [c_dot], tl s)) by (destruct ts; reflexivity).
    rewrite Em. cbn [bind]. apply one_dot_spec in Ed. destruct Ed as (u & -> & Hu). cbn [tl].
    rewrite app_last_snoc.
    assert (Hi' : ink (texts (ts ++ [Tok (t_text t ++ [c_dot]) (t_lead t) (t_eval t)]))
                  = ink (pre ++ [c_dot])).
    { rewrite texts_app, texts_one in *. cbn [t_text]. rewrite app_assoc, ink_app, Hi, <- ink_app.
      reflexivity. }
    assert (Ht' : Forall good (ts ++ [Tok (t_text t ++ [c_dot]) (t_lead t) (t_eval t)])).
    { apply Forall_app in Ht. destruct Ht as [Ht1 _]. apply Forall_app. split; [exact Ht1|].
      constructor; [apply (Hdot t ts eq_refl)|constructor]. }
    assert (Et' : text = (pre ++ [c_dot]) ++ u) by (rewrite <- app_assoc; exact Et).
    destruct (blank u) eqn:Eb; cbn [negb]; intros E; apply ok_inj in E; subst ts'.
    + split; [|exact Ht']. rewrite Hi', Et', (ink_app _ u), (ink_blank u Eb), app_nil_r. reflexivity.
    + split.
      * rewrite texts_app, ink_app, Hi', texts_one. cbn [t_text].
        rewrite ink_strip, Et', (ink_app _ u). reflexivity.
      * apply Forall_app. split; [exact Ht'|]. constructor; [|constructor].
        apply Hgood; [|reflexivity]. cbn [t_text].
        apply stands_strip with (pre ++ [c_dot]) []; [rewrite app_nil_r; exact Et'|exact Eb| |discriminate].
        intros H. apply one_dot_spec in H. destruct H as (v & -> & _). exfalso.
        apply (Hu v). reflexivity.
  - cbn [bind]. destruct (blank s) eqn:Eb; cbn [negb]; intros E; apply ok_inj in E; subst ts'.
    + split; [|exact Ht]. rewrite Hi, Et, ink_app, (ink_blank s Eb), app_nil_r. reflexivity.
    + split.
      * rewrite texts_app, ink_app, Hi, texts_one. cbn [t_text].
        rewrite ink_strip, Et, ink_app. reflexivity.
      * apply Forall_app. split; [exact Ht|]. constructor; [|constructor].
        apply Hgood; [|reflexivity]. cbn [t_text].
        apply stands_strip with pre []; [rewrite app_nil_r; exact Et|exact Eb|congruence|discriminate].
Qed.

Lemma split_tail_err ts s last_end lead e :
  split_tail ts s last_end lead = Err e -> ts = [] /\ one_dot s = true /\ e = IndexError.
Proof.
  unfold split_tail. destruct (one_dot s); [|cbn [bind]; destruct (blank s); discriminate].
  destruct ts as [|t ts]; cbn [bind]; [intros E; inv E; auto|].
  destruct (blank (tl s)); discriminate.
Qed.

Lemma code_split_spec text lead ts :
  code_split text lead = Ok ts ->
  ink (texts ts) = ink text /\ Forall (code_tok text) ts.
Proof.
  unfold code_split, INLINE_CODE_MARKER_REGEX.
  destruct (code_fold_inv text lead 0 text _ (finditer_ticks text) [] [] 0 eq_refl)
    as (pre & s & ts1 & open & E & Hinv & Hs & _ & _).
  { split; [reflexivity|]. split; [reflexivity|]. split; [auto|lia]. }
  rewrite E. clear E. destruct Hinv as (Et & Hi & H0 & H1).
  assert (Sk : skipn (length pre) text = s) by (rewrite Et; apply skipn_pre).
  rewrite Sk.
  destruct (negb (nilb ts1) && _) eqn:Ec.
  - apply andb_true_iff in Ec. destruct Ec as [En E1]. apply Nat.eqb_eq in E1.
    destruct open as [|n].
    { exfalso. destruct (H0 eq_refl) as [_ [[-> _]|(ts0 & k & c & code & ld & -> & Hk & Hc)]];
        [discriminate|].
      rewrite last_text_snoc in E1. cbn [t_text] in E1.
      assert (G := two_runs k c (code ++ rep c_bt k) Hk Hc). rewrite E1 in G.
      assert (2 <= 1); [|lia]. apply G. apply in_app_iff. right.
      destruct (rep_tick k Hk) as (y & ->). left. reflexivity. }
    destruct (H1 ltac:(lia)) as (ts0 & pre0 & body & ld & -> & Ht1 & Ep & _).
    rewrite eval_last_snoc. cbn [t_text t_lead]. rewrite app_last_snoc. cbn [t_text t_lead t_eval].
    rewrite texts_app, texts_one in Hi. cbn [t_text] in Hi.
    destruct (blank s) eqn:Eb; cbn [negb]; intros E; apply ok_inj in E; subst ts.
    + split.
      * rewrite texts_app, texts_one. cbn [t_text].
        rewrite Hi, Et, ink_app, (ink_blank s Eb), app_nil_r. reflexivity.
      * apply Forall_app. split; [exact Ht1|]. constructor; [|constructor].
        unfold code_tok. cbn [t_eval t_text]. exists pre0, s.
        split; [rewrite Et, Ep, <- !app_assoc; reflexivity|]. split; [discriminate|].
        cbn. discriminate.
    + split.
      * rewrite texts_app, texts_one. cbn [t_text].
        rewrite app_assoc, ink_app, Hi, ink_rstrip, Et, ink_app. reflexivity.
      * apply Forall_app. split; [exact Ht1|]. constructor; [|constructor].
        unfold code_tok. cbn [t_eval t_text].
        destruct (rstrip_by_spec is_space s) as (post & Es & _). fold (rstrip s) in Es.
        exists pre0, post. split; [rewrite Et, Ep, <- !app_assoc, <- Es; reflexivity|].
        split; [discriminate|]. cbn. discriminate.
  - assert (Hcode : Forall (code_tok text) ts1
              /\ (ts1 = [] \/ exists ts0 k c x ld, ts1 = ts0 ++ [Tok (rep c_bt k ++ c :: x) ld false]
                  /\ 0 < k /\ inline_code ((rep c_bt k ++ c :: x) ++ [c_dot]))).
    { destruct open as [|n].
      - destruct (H0 eq_refl) as [Ht [[-> _]|(ts0 & k & c & code & ld & -> & Hk & Hc)]].
        + split; [constructor|left; reflexivity].
        + split; [exact Ht|]. right. exists ts0, k, c, (code ++ rep c_bt k), ld.
          split; [reflexivity|]. split; [exact Hk|]. apply inline_code_dot. exact Hk.
      - destruct (H1 ltac:(lia)) as (ts0 & pre0 & body & ld & -> & Ht1 & Ep & Hb).
        destruct Hb as [[-> _]|(c & x & -> & Hc)].
        + exfalso. rewrite last_text_snoc in Ec. cbn [t_text] in Ec.
          rewrite (finditer_ticks_eq _ [(0, S n)]) in Ec.
          * destruct ts0; discriminate.
          * change (0, S n) with (0 + length (@nil N), 0 + length (@nil N) + S n).
            apply (ticks_run 0 [] (S n) [] []); [constructor|lia|intros s'; discriminate|].
            constructor. constructor.
        + split.
          * apply Forall_app. split; [exact Ht1|]. constructor; [|constructor].
            unfold code_tok. cbn [t_eval t_text]. apply inline_code_open. lia.
          * right. exists ts0, (S n), c, (x ++ [c_bt]), ld. split; [reflexivity|]. split; [lia|].
            apply inline_code_open_dot. lia. }
    destruct Hcode as [Ht Hlast].
    intros E. apply (split_tail_spec (code_tok text)) with pre s ts1 (length pre) lead; auto.
    + intros t ts0 ->. destruct Hlast as [E0|(ts0' & k & c & x & ld & E0 & Hk & Hd)];
        [destruct ts0; discriminate|]. apply app_inj_tail in E0. destruct E0 as [_ ->].
      unfold code_tok. cbn [t_eval t_text]. exact Hd.
    + intros t Hst He. unfold code_tok. rewrite He. exact Hst.
    + intros ->. destruct open as [|n].
      * destruct (H0 eq_refl) as [_ [[_ ->]|(ts0 & k & c & code & ld & E0 & _)]]; [reflexivity|].
        destruct ts0; discriminate.
      * destruct (H1 ltac:(lia)) as (ts0 & pre0 & body & ld & E0 & _). destruct ts0; discriminate.
Qed.

Lemma code_split_err text lead e :
  code_split text lead = Err e -> one_dot text = true /\ e = IndexError.
Proof.
  unfold code_split, INLINE_CODE_MARKER_REGEX.
  destruct (code_fold_inv text lead 0 text _ (finditer_ticks text) [] [] 0 eq_refl)
    as (pre & s & ts1 & open & E & Hinv & Hs & _ & _).
  { split; [reflexivity|]. split; [reflexivity|]. split; [auto|lia]. }
  rewrite E. clear E. destruct Hinv as (Et & Hi & H0 & H1).
  assert (Sk : skipn (length pre) text = s) by (rewrite Et; apply skipn_pre).
  rewrite Sk. destruct (negb (nilb ts1) && _); [destruct (blank s); discriminate|].
  intros E. apply split_tail_err in E. destruct E as (-> & Hd & ->). split; [|reflexivity].
  assert (pre = []); [|subst; exact Hd]. destruct open as [|n].
  - destruct (H0 eq_refl) as [_ [[_ ->]|(ts0 & k & c & code & ld & E0 & _)]]; [reflexivity|].
    destruct ts0; discriminate.
  - destruct (H1 ltac:(lia)) as (ts0 & pre0 & body & ld & E0 & _). destruct ts0; discriminate.
Qed.

(** * [newline_split] and [space_split] *)

Definition joint_end (ts : list tok) : Prop := exists ts0 t, ts = ts0 ++ [t] /\ link_joint (t_text t).

Lemma link_joint_last s : link_joint s -> exists s' c, s = s' ++ [c_rbr; c] /\ (c = c_lpar \/ c = c_lbr).
Proof. intros (t & [->| ->]); eexists; eexists; (split; [reflexivity|auto]). Qed.

Lemma link_joint_intro s c : c = c_lpar \/ c = c_lbr -> link_joint (s ++ [c_rbr; c]).
Proof. intros [->| ->]; exists s; [left|right]; reflexivity. Qed.

Lemma strip_joint s : link_joint s -> link_joint (strip s).
Proof.
  intros H. apply link_joint_last in H. destruct H as (s' & c & -> & Hc).
  assert (Hs : is_space c = false) by (destruct Hc; subst; reflexivity).
  unfold strip, rstrip, lstrip. change [c_rbr; c] with ([c_rbr] ++ [c]). rewrite app_assoc.
  destruct (lstrip_by_spec is_space (s' ++ [c_rbr])) as (ws & E & Hw).
  destruct (lstrip_by is_space (s' ++ [c_rbr])) as [|x u] eqn:El.
  - apply lstrip_by_nil in El. rewrite forallb_app in El. cbn in El.
    rewrite andb_false_r in El. discriminate.
  - assert (Ex : is_space x = false) by (eapply lstrip_by_head; exact El).
    rewrite E, <- app_assoc, lstrip_by_app by exact Hw. cbn [app lstrip_by]. rewrite Ex.
    change (x :: u ++ [c]) with ((x :: u) ++ [c]). rewrite rstrip_by_snoc by exact Hs.
    destruct u as [|y u] using rev_ind.
    + destruct ws as [|z ws] using rev_ind.
      * cbn in E. destruct s' as [|a s']; [|destruct s'; discriminate]. cbn in E.
        injection E as <-. cbn [app]. apply (link_joint_intro [] c Hc).
      * change [x] with ([] ++ [x]) in E. rewrite app_assoc in E. apply app_inj_tail in E.
        destruct E as [_ <-]. cbn [app]. apply (link_joint_intro [] c Hc).
    + clear IHu. change (x :: u ++ [y]) with ((x :: u) ++ [y]) in E |- *. rewrite app_assoc in E.
      apply app_inj_tail in E. destruct E as [_ <-]. rewrite <- app_assoc.
      apply link_joint_intro. exact Hc.
Qed.

(** The tags of an HTML line break. *)
Lemma html_den g : den HTML_NEWLINE_REGEX g ->
  In g [lit "<br>"; lit "<br/>"; lit "<br >"; lit "<br />"].
Proof.
  unfold HTML_NEWLINE_REGEX, Is, Opt. cbn [den].
  intros (c1 & s1 & -> & E1 & c2 & s2 & -> & E2 & c3 & s3 & -> & E3 & a & b & -> & Ha & La
    & a' & b' & -> & Ha' & La' & c4 & s4 & -> & E4 & ->).
  repeat match goal with H : N.eqb _ _ = true |- _ => apply N.eqb_eq in H; subst end.
  destruct a as [|y [|y' a]]; destruct a' as [|z [|z' a']]; cbn [length] in *; try lia;
    repeat match goal with H : Forall _ (_ :: _) |- _ => inversion H; subst; clear H end;
    repeat match goal with H : N.eqb _ _ = true |- _ => apply N.eqb_eq in H; subst end;
    cbn; tauto.
Qed.

Definition newline_tok (t : tok) : Prop := t_eval t = false -> html_break (piece_of t).

Definition ends_tag (s : str) : Prop := s = [] \/ exists s', s = s' ++ [c_gt].

Lemma newline_step_inv text lead pre gap g rest ts :
  text = pre ++ gap ++ g ++ rest -> den HTML_NEWLINE_REGEX g ->
  ink (texts ts) = ink pre -> Forall newline_tok ts ->
  exists ts', newline_step text lead (ts, length pre)
                (length pre + length gap, length pre + length gap + length g)
              = (ts', length (pre ++ gap ++ g))
    /\ ink (texts ts') = ink (pre ++ gap ++ g) /\ Forall newline_tok ts'
    /\ ends_tag (pre ++ gap ++ g).
Proof.
  intros Et Hg Hi Ht.
  assert (Sg : slice text (length pre) (length pre + length gap) = gap).
  { rewrite Et. apply slice_mid. }
  assert (Sm : slice text (length pre + length gap) (length pre + length gap + length g) = g).
  { rewrite Et, app_assoc, <- app_length. apply slice_mid. }
  assert (Hh : forall l, newline_tok (Tok g l false)).
  { intros l _. exists g, []. cbn. split; [rewrite app_nil_r; reflexivity|]. apply html_den. exact Hg. }
  assert (He : ends_tag (pre ++ gap ++ g)).
  { right. apply html_den in Hg. cbn in Hg. rewrite app_assoc.
    repeat destruct Hg as [<-|Hg]; [ | | | |destruct Hg]; eexists;
      rewrite <- app_assoc; rewrite app_assoc;
      match goal with |- _ ++ ?l = _ =>
        rewrite (app_removelast_last 0%N (l := l)) by discriminate end;
      cbn [last removelast]; rewrite app_assoc; reflexivity. }
  unfold newline_step. rewrite Sg, Sm, !app_length.
  replace (length pre + (length gap + length g)) with (length pre + length gap + length g) by lia.
  destruct (blank gap) eqn:Eb; cbn [negb]; eexists; (split; [reflexivity|]); (split; [|split; [|exact He]]).
  - rewrite texts_app, texts_one, !ink_app, Hi, (ink_blank gap Eb). reflexivity.
  - apply Forall_app. split; [exact Ht|]. constructor; [apply Hh|constructor].
  - rewrite texts_app. unfold texts at 2. cbn [map concat t_text]. rewrite app_nil_r.
    rewrite !ink_app, Hi, ink_strip. reflexivity.
  - apply Forall_app. split; [exact Ht|]. constructor; [intros E; discriminate|].
    constructor; [apply Hh|constructor].
Qed.

Lemma newline_fold_inv text lead pos s ms :
  scan (rmatch HTML_NEWLINE_REGEX) pos s ms ->
  forall pre ts, pos = length pre -> text = pre ++ s -> ends_tag pre ->
  ink (texts ts) = ink pre -> Forall newline_tok ts ->
  exists pre' s' ts', fold_left (newline_step text lead) ms (ts, pos) = (ts', length pre')
    /\ text = pre' ++ s' /\ ink (texts ts') = ink pre' /\ Forall newline_tok ts' /\ ends_tag pre'.
Proof.
  intros H. induction H as [pos s Hs|pos gap g rest ms Hno Hg Hm Hsc IH];
    intros pre ts -> Et He Hi Ht.
  - exists pre, s, ts. auto.
  - assert (Hd : den HTML_NEWLINE_REGEX g).
    { apply rmatch_den in Hm. destruct Hm as [_ Hm]. rewrite firstn_app, firstn_all, Nat.sub_diag in Hm.
      cbn [firstn] in Hm. rewrite app_nil_r in Hm. exact Hm. }
    destruct (newline_step_inv text lead pre gap g rest ts Et Hd Hi Ht) as (ts' & E & Hi' & Ht' & He').
    cbn [fold_left]. rewrite E.
    assert (L : length pre + length gap + length g = length (pre ++ gap ++ g))
      by (rewrite !app_length; lia).
    rewrite <- L. apply (IH (pre ++ gap ++ g)); auto. rewrite Et, <- !app_assoc. reflexivity.
Qed.

Lemma newline_split_spec text lead :
  exists ts, newline_split text lead = Ok ts
    /\ ink (texts ts) = ink text /\ Forall newline_tok ts
    /\ (link_joint text -> joint_end ts).
Proof.
  unfold newline_split.
  destruct (newline_fold_inv text lead 0 text _ (finditer_scan _ text) [] [] eq_refl eq_refl)
    as (pre & s & ts & E & Et & Hi & Ht & He); [left; reflexivity|reflexivity|constructor|].
  rewrite E, Et, skipn_pre. clear E.
  assert (J : link_joint (pre ++ s) -> link_joint s).
  { intros Hj. apply link_joint_last in Hj. destruct Hj as (s' & c & Ej & Hc).
    assert (Hsp : c <> c_gt) by (destruct Hc; subst; discriminate).
    destruct s as [|x s] using rev_ind.
    - rewrite app_nil_r in Ej. destruct He as [->|(p' & ->)]; [destruct s'; discriminate|].
      change [c_rbr; c] with ([c_rbr] ++ [c]) in Ej. rewrite app_assoc in Ej.
      apply app_inj_tail in Ej. destruct Ej. congruence.
    - clear IHs. change [c_rbr; c] with ([c_rbr] ++ [c]) in Ej. rewrite !app_assoc in Ej.
      apply app_inj_tail in Ej. destruct Ej as [Ej ->].
      destruct s as [|y s] using rev_ind.
      + rewrite app_nil_r in Ej. destruct He as [->|(p' & ->)]; [destruct s'; discriminate|].
        apply app_inj_tail in Ej. destruct Ej. discriminate.
      + clear IHs. rewrite app_assoc in Ej. apply app_inj_tail in Ej. destruct Ej as [_ ->].
        rewrite <- app_assoc. apply link_joint_intro. exact Hc. }
  destruct (blank s) eqn:Eb; cbn [negb]; eexists; (split; [reflexivity|]).
  - split; [rewrite ink_app, (ink_blank s Eb), app_nil_r; exact Hi|]. split; [exact Ht|].
    intros Hj. apply J in Hj. exfalso. apply link_joint_last in Hj. destruct Hj as (s' & c & -> & _).
    apply blank_spec in Eb. rewrite forallb_app in Eb. cbn in Eb. rewrite andb_false_r in Eb. discriminate.
  - split; [rewrite texts_app, texts_one, !ink_app, Hi; cbn [t_text]; rewrite ink_strip; reflexivity|].
    split; [apply Forall_app; split; [exact Ht|constructor; [intros E; discriminate|constructor]]|].
    intros Hj. eexists. eexists. split; [reflexivity|]. cbn [t_text]. apply strip_joint, J. exact Hj.
Qed.

Definition space_tok (t : tok) : Prop := t_eval t = true /\ ~ In c_sp (t_text t).

Lemma in_strip c s : In c (strip s) -> In c s.
Proof.
  destruct (strip_spec s) as (a & b & E & _). intros H. rewrite E. rewrite !in_app_iff. auto.
Qed.

Lemma space_fold ws lead : forall ts,
  Forall space_tok ts -> Forall (fun w => ~ In c_sp w) ws ->
  let ts' := fold_left (space_step lead) ws ts in
  ink (texts ts') = ink (texts ts) ++ ink (concat ws) /\ Forall space_tok ts'
  /\ (forall ws0 w, ws = ws0 ++ [w] -> link_joint w -> joint_end ts').
Proof.
  induction ws as [|w ws IH] using rev_ind; intros ts Ht Hw.
  - cbn. rewrite app_nil_r. split; [reflexivity|]. split; [exact Ht|].
    intros ws0 w E. destruct ws0; discriminate.
  - apply Forall_app in Hw. destruct Hw as [Hw1 Hw2]. apply Forall_inv in Hw2.
    destruct (IH ts Ht Hw1) as (Hi & Ht' & _). cbn zeta. rewrite fold_left_app. cbn [fold_left].
    set (ts1 := fold_left (space_step lead) ws ts) in *. unfold space_step.
    rewrite concat_app. cbn [concat]. rewrite app_nil_r.
    destruct (nilb w) eqn:En.
    + apply nilb_true in En. subst w. rewrite app_nil_r. split; [exact Hi|]. split; [exact Ht'|].
      intros ws0 w E Hj. apply app_inj_tail in E. destruct E as [_ <-].
      apply link_joint_last in Hj. destruct Hj as (s' & c & E & _). destruct s'; discriminate.
    + split; [|split].
      * rewrite texts_app, texts_one, !ink_app, Hi. cbn [t_text]. rewrite ink_strip, <- app_assoc.
        reflexivity.
      * apply Forall_app. split; [exact Ht'|]. constructor; [|constructor]. split; [reflexivity|].
        cbn [t_text]. intros Hin. apply Hw2. apply in_strip. exact Hin.
      * intros ws0 w' E Hj. apply app_inj_tail in E. destruct E as [_ <-].
        eexists. eexists. split; [reflexivity|]. cbn [t_text]. apply strip_joint. exact Hj.
Qed.

Lemma ink_concat_split s : ink (concat (split_on c_sp s)) = ink s.
Proof.
  induction s as [|c s IH]; [reflexivity|]. cbn [split_on].
  destruct (N.eqb c c_sp) eqn:E.
  - apply N.eqb_eq in E. subst. cbn [concat app]. rewrite IH. reflexivity.
  - destruct (split_on c_sp s) as [|w ws] eqn:Es; [exfalso; eapply split_on_ne; exact Es|].
    cbn [concat app] in *. cbn [ink filter]. unfold ink in IH. rewrite IH. reflexivity.
Qed.

Lemma split_on_last_joint s :
  link_joint s -> exists ws0 w, split_on c_sp s = ws0 ++ [w] /\ link_joint w.
Proof.
  intros H. apply link_joint_last in H. destruct H as (s' & c & -> & Hc).
  induction s' as [|x s' IH].
  - exists [], [c_rbr; c]. split; [destruct Hc; subst; reflexivity|]. apply (link_joint_intro [] c Hc).
  - destruct IH as (ws0 & w & E & Hj). cbn [app split_on]. rewrite E.
    destruct (N.eqb x c_sp).
    + exists ([] :: ws0), w. auto.
    + destruct ws0 as [|v ws0].
      * cbn [app]. exists [], (x :: w). split; [reflexivity|]. destruct Hj as (t & [->| ->]).
        -- exists (x :: t). left. reflexivity.
        -- exists (x :: t). right. reflexivity.
      * cbn [app]. exists ((x :: v) :: ws0), w. auto.
Qed.

Lemma space_split_spec text lead :
  exists ts, space_split text lead = Ok ts
    /\ ink (texts ts) = ink text /\ Forall space_tok ts
    /\ (link_joint text -> joint_end ts).
Proof.
  unfold space_split. eexists. split; [reflexivity|].
  assert (Hw : Forall (fun w => ~ In c_sp w) (split_on c_sp text)).
  { eapply Forall_impl; [|apply split_on_no_sep]. cbn. intros w Hw Hin.
    rewrite Forall_forall in Hw. apply (Hw c_sp Hin eq_refl). }
  destruct (space_fold (split_on c_sp text) lead [] ltac:(constructor) Hw) as (Hi & Ht & Hj).
  split; [rewrite Hi, ink_concat_split; reflexivity|]. split; [exact Ht|].
  intros H. apply split_on_last_joint in H. destruct H as (ws0 & w & E & Hjw).
  apply (Hj ws0 w E Hjw).
Qed.
