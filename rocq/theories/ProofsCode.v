(** Closed inline code spans become single pieces. *)
From Coq Require Import String.
From Verif Require Import Py Regex Utils TextWrap Base SpecLines ProofsLines ProofsRegex SpecWrap
  ProofsScan ProofsWrap ProofsTokens ProofsParser ProofsLinks ProofsPieces.

Lemma rep_repeat c n : repeat c n = rep c n.
Proof. reflexivity. Qed.

Definition body_ok (n : nat) (code : str) : Prop :=
  code <> [] /\ not_tick_first code /\ (forall x, code <> x ++ [c_bt])
  /\ forall a b, code = a ++ rep c_bt n ++ b ->
       (exists a', a = a' ++ [c_bt]) \/ (exists b', b = c_bt :: b').

Lemma code_step_open text lead ts open last_end ms me :
  open <> 0 -> me - ms = open ->
  code_step text lead (ts, open, last_end) (ms, me)
  = (app_last ts (slice text last_end ms ++ rep c_bt open), 0, me).
Proof.
  intros H0 H. unfold code_step. apply Nat.eqb_neq in H0. rewrite H0, H, Nat.eqb_refl. reflexivity.
Qed.

Lemma code_step_inside text lead ts open last_end ms me :
  open <> 0 -> me - ms <> open ->
  code_step text lead (ts, open, last_end) (ms, me)
  = (app_last ts (slice text last_end me), open, me).
Proof.
  intros H0 H. unfold code_step. apply Nat.eqb_neq in H0, H. rewrite H0, H. reflexivity.
Qed.

(** From just after the opening run to just after the closing run. *)
Lemma code_fold_body text lead n rest ts0 ld : 0 < n -> not_tick_first rest ->
  forall code pre x ms, body_ok n code -> text = pre ++ code ++ rep c_bt n ++ rest ->
  ticks (length pre) (code ++ rep c_bt n ++ rest) ms ->
  exists ms', ticks (length (pre ++ code ++ rep c_bt n)) rest ms'
    /\ fold_left (code_step text lead) ms (ts0 ++ [Tok x ld false], n, length pre)
       = fold_left (code_step text lead) ms'
           (ts0 ++ [Tok (x ++ code ++ rep c_bt n) ld false], 0, length (pre ++ code ++ rep c_bt n)).
Proof.
  intros Hn Hr code. remember (length code) as L eqn:HL. assert (Hle : length code <= L) by lia.
  clear HL. revert code Hle. induction L as [|L IH]; intros code Hle pre x ms HB Et Hms.
  { destruct code; [destruct HB; congruence|cbn in Hle; lia]. }
  destruct (tick_split code) as [Hno|(gap & k & code2 & Ec & Hg & Hk & Hr2)].
  - apply ticks_run_inv in Hms; auto. destruct Hms as (ms' & -> & Hms'). exists ms'.
    assert (El : length pre + length code + n = length (pre ++ code ++ rep c_bt n))
      by (rewrite !app_length, rep_length; lia).
    rewrite El in Hms'. split; [exact Hms'|]. cbn [fold_left].
    rewrite code_step_open by lia. rewrite app_last_snoc. cbn [t_text t_lead t_eval].
    rewrite El. rewrite Et at 2. rewrite slice_mid. reflexivity.
  - destruct HB as (HB1 & HB2 & HB3 & HB4).
    assert (Hne : code2 <> []).
    { intros ->. rewrite app_nil_r in Ec. destruct k as [|k]; [lia|]. rewrite rep_snoc in Ec.
      rewrite app_assoc in Ec. apply (HB3 _ Ec). }
    assert (Hkn : k <> n).
    { intros ->. destruct (HB4 gap code2 Ec) as [(a' & ->)|(b' & ->)].
      - apply Forall_app in Hg. destruct Hg as [_ Hg]. apply Forall_inv in Hg. congruence.
      - apply (Hr2 b'). reflexivity. }
    assert (HB' : body_ok n code2).
    { split; [exact Hne|]. split; [exact Hr2|]. split.
      - intros y Ey. apply (HB3 (gap ++ rep c_bt k ++ y)). rewrite Ec, Ey, <- !app_assoc. reflexivity.
      - intros a b E2. destruct (HB4 (gap ++ rep c_bt k ++ a) b) as [(a' & Ea)|Hb].
        + rewrite Ec, E2, <- !app_assoc. reflexivity.
        + left. destruct a as [|c a] using rev_ind.
          * exfalso. cbn [app] in E2. destruct n as [|n']; [lia|]. rewrite rep_S in E2.
            apply (Hr2 (rep c_bt n' ++ b)). exact E2.
          * rewrite !app_assoc in Ea. apply app_inj_tail in Ea. destruct Ea as [_ <-]. eauto.
        + right. exact Hb. }
    assert (Es : code ++ rep c_bt n ++ rest = gap ++ rep c_bt k ++ code2 ++ rep c_bt n ++ rest).
    { rewrite Ec, <- !app_assoc. reflexivity. }
    rewrite Es in Hms. apply ticks_run_inv in Hms; auto.
    2: { intros s' E. destruct code2 as [|c code2]; [congruence|]. injection E as -> _.
         apply (Hr2 code2). reflexivity. }
    destruct Hms as (ms1 & -> & Hms1).
    assert (El : length pre + length gap + k = length (pre ++ gap ++ rep c_bt k))
      by (rewrite !app_length, rep_length; lia).
    rewrite El in Hms1.
    assert (L2 : length code2 <= L).
    { rewrite Ec in Hle. rewrite !app_length, rep_length in Hle. lia. }
    destruct (IH code2 L2 (pre ++ gap ++ rep c_bt k) (x ++ gap ++ rep c_bt k) ms1 HB')
      as (ms' & Hms' & E').
    + rewrite Et, Es, <- !app_assoc. reflexivity.
    + exact Hms1.
    + exists ms'.
      assert (Ep : (pre ++ gap ++ rep c_bt k) ++ code2 ++ rep c_bt n = pre ++ code ++ rep c_bt n)
        by (rewrite Ec, <- !app_assoc; reflexivity).
      rewrite Ep in *. split; [exact Hms'|]. cbn [fold_left].
      rewrite code_step_inside by lia. rewrite app_last_snoc. cbn [t_text t_lead t_eval].
      assert (Sl : slice text (length pre) (length pre + length gap + k) = gap ++ rep c_bt k).
      { rewrite Et, Es, (app_assoc gap).
        replace (length pre + length gap + k) with (length pre + length (gap ++ rep c_bt k))
          by (rewrite app_length, rep_length; lia). apply slice_mid. }
      rewrite Sl, El, E'. do 6 f_equal. rewrite Ec, <- !app_assoc. reflexivity.
Qed.

(** The piece is there, possibly with a full stop after it, and never touched again. *)
Definition has_span (span : str) (ts : list tok) (open : nat) : Prop :=
  (exists tsa ld, ts = tsa ++ [Tok span ld false] /\ open = 0)
  \/ exists tsa t tsb, ts = tsa ++ t :: tsb /\ tsb <> [] /\ t_eval t = false
       /\ (t_text t = span \/ t_text t = span ++ [c_dot]).

Lemma app_last_behind tsa t tsb x : tsb <> [] ->
  app_last (tsa ++ t :: tsb) x = tsa ++ t :: app_last tsb x /\ app_last tsb x <> [].
Proof.
  intros H. destruct tsb as [|u tsb] using rev_ind; [congruence|]. clear IHtsb.
  rewrite app_comm_cons, app_assoc, !app_last_snoc, <- app_assoc. split; [reflexivity|].
  destruct tsb; discriminate.
Qed.

Lemma eval_last_behind tsa t tsb : tsb <> [] ->
  eval_last (tsa ++ t :: tsb) = tsa ++ t :: eval_last tsb /\ eval_last tsb <> [].
Proof.
  intros H. destruct tsb as [|u tsb] using rev_ind; [congruence|]. clear IHtsb.
  rewrite app_comm_cons, app_assoc, !eval_last_snoc, <- app_assoc. split; [reflexivity|].
  destruct tsb; discriminate.
Qed.

Lemma code_step_has span text lead ts open le m :
  has_span span ts open ->
  has_span span (fst (fst (code_step text lead (ts, open, le) m)))
                (snd (fst (code_step text lead (ts, open, le) m))).
Proof.
  intros H. destruct m as [ms me]. unfold code_step.
  destruct (open =? 0) eqn:Eo; [|destruct (me - ms =? open) eqn:Ek]; cbn [fst snd].
  - (* something is appended *)
    right. set (gap := slice text le ms). set (dot := one_dot gap && negb (nilb ts)).
    set (ts1 := if dot then app_last ts [c_dot] else ts).
    assert (G : exists tsa t tsb, ts1 = tsa ++ t :: tsb /\ t_eval t = false
                /\ (t_text t = span \/ t_text t = span ++ [c_dot])).
    { unfold ts1. destruct H as [(tsa & ld & -> & _)|(tsa & t & tsb & -> & Hne & He & Ht)].
      - destruct dot.
        + rewrite app_last_snoc. eexists. eexists. exists []. split; [reflexivity|]. cbn. auto.
        + eexists. eexists. exists []. split; [reflexivity|]. cbn. auto.
      - destruct dot; [|eauto 8]. rewrite (proj1 (app_last_behind _ _ _ _ Hne)). eauto 8. }
    destruct G as (tsa & t & tsb & -> & He & Ht).
    set (gap1 := if dot then tl gap else gap).
    destruct (negb (blank gap1)).
    + rewrite <- !app_assoc. cbn [app]. eexists. eexists. eexists. split; [reflexivity|].
      split; [destruct tsb; discriminate|]. auto.
    + rewrite <- !app_assoc. cbn [app]. eexists. eexists. eexists. split; [reflexivity|].
      split; [destruct tsb; discriminate|]. auto.
  - destruct H as [(tsa & ld & -> & ->)|(tsa & t & tsb & -> & Hne & He & Ht)]; [discriminate|].
    right. destruct (app_last_behind tsa t tsb (slice text le ms ++ rep c_bt open) Hne) as [-> Hne'].
    eauto 8.
  - destruct H as [(tsa & ld & -> & ->)|(tsa & t & tsb & -> & Hne & He & Ht)]; [discriminate|].
    right. destruct (app_last_behind tsa t tsb (slice text le me) Hne) as [-> Hne'].
    eauto 8.
Qed.

Lemma code_fold_has span text lead ms : forall ts open le,
  has_span span ts open ->
  exists ts' open' le', fold_left (code_step text lead) ms (ts, open, le) = (ts', open', le')
    /\ has_span span ts' open'.
Proof.
  induction ms as [|m ms IH]; intros ts open le H; [exists ts, open, le; split; [reflexivity|exact H]|]. cbn [fold_left].
  assert (G := code_step_has span text lead ts open le m H).
  destruct (code_step text lead (ts, open, le) m) as [[ts1 open1] le1]. cbn [fst snd] in G.
  apply IH. exact G.
Qed.

Lemma code_step_start text lead ts pre plain n rest :
  text = pre ++ plain ++ rep c_bt n ++ rest ->
  exists ts0 ld,
    code_step text lead (ts, 0, length pre) (length pre + length plain, length pre + length plain + n)
    = (ts0 ++ [Tok (rep c_bt n) ld false], n, length (pre ++ plain ++ rep c_bt n)).
Proof.
  intros Et. unfold code_step. cbn [Nat.eqb].
  replace (length pre + length plain + n - (length pre + length plain)) with n by lia.
  replace (length pre + length plain + n) with (length (pre ++ plain ++ rep c_bt n))
    by (rewrite !app_length, rep_length; lia).
  eauto.
Qed.

Lemma code_fold_spans text lead s spans : code_spans s spans ->
  forall span pre ts ms, In span spans -> text = pre ++ s -> ticks (length pre) s ms ->
  exists ts' open' le', fold_left (code_step text lead) ms (ts, 0, length pre) = (ts', open', le')
    /\ has_span span ts' open'.
Proof.
  intros H. induction H as [s|plain n code rest spans Hp Hn HB Hr H IH];
    intros span pre ts ms Hin Et Hms; [destruct Hin|]. rewrite !rep_repeat in *.
  assert (HB' : body_ok n code) by (destruct HB as (HB1 & HB2 & HB3 & HB4); repeat split; auto).
  assert (Hp' : no_tick plain).
  { apply Forall_forall. intros c Hc ->. contradiction. }
  rewrite <- !app_assoc in *.
  assert (Hr2 : not_tick_first (code ++ rep c_bt n ++ rest)).
  { intros s' E. destruct HB' as (HB1 & HB2 & _). destruct code as [|c code]; [congruence|].
    injection E as -> _. apply (HB2 code). reflexivity. }
  apply ticks_run_inv in Hms; auto. destruct Hms as (ms1 & -> & Hms1).
  cbn [fold_left].
  destruct (code_step_start text lead ts pre plain n (code ++ rep c_bt n ++ rest) Et) as (ts0 & ld & ->).
  assert (El : length pre + length plain + n = length (pre ++ plain ++ rep c_bt n))
    by (rewrite !app_length, rep_length; lia).
  rewrite El in Hms1.
  destruct (code_fold_body text lead n rest ts0 ld Hn Hr code (pre ++ plain ++ rep c_bt n) (rep c_bt n) ms1 HB')
    as (ms2 & Hms2 & E2).
  { rewrite Et, <- !app_assoc. reflexivity. }
  { exact Hms1. }
  rewrite E2. clear E2. destruct Hin as [<-|Hin].
  - apply code_fold_has. left. eexists. eexists. split; [reflexivity|reflexivity].
  - apply IH; [exact Hin| |exact Hms2]. rewrite Et, <- !app_assoc. reflexivity.
Qed.

Lemma span_shape s spans span : code_spans s spans -> In span spans ->
  exists n c x, 0 < n /\ c <> c_bt /\ span = rep c_bt n ++ c :: x ++ rep c_bt n.
Proof.
  intros H. induction H as [s|plain n code rest spans Hp Hn HB Hr H IH]; intros Hin; [destruct Hin|].
  destruct Hin as [<-|Hin]; [|auto]. destruct HB as (HB1 & HB2 & _).
  destruct code as [|c code]; [congruence|]. exists n, c, code. split; [exact Hn|].
  split; [|reflexivity]. intros ->. apply (HB2 code). reflexivity.
Qed.

Definition is_span (span : str) (t : tok) : Prop :=
  t_eval t = false /\ (t_text t = span \/ t_text t = span ++ [c_dot]).

Lemma code_split_spans text lead spans span ts :
  code_spans text spans -> In span spans -> code_split text lead = Ok ts ->
  exists t, In t ts /\ is_span span t.
Proof.
  intros H Hin. unfold code_split, INLINE_CODE_MARKER_REGEX.
  destruct (code_fold_spans text lead text spans H span [] [] _ Hin eq_refl (finditer_ticks text))
    as (ts1 & open & le & E & Hs).
  cbn [length] in E. rewrite E. clear E.
  destruct (span_shape _ _ _ H Hin) as (n & c & x & Hn & Hc & Espan).
  destruct (negb (nilb ts1) && _) eqn:Ec.
  - apply andb_true_iff in Ec. destruct Ec as [_ Ec]. apply Nat.eqb_eq in Ec.
    destruct Hs as [(tsa & ld & -> & ->)|(tsa & t & tsb & -> & Hne & He & Ht)].
    + exfalso. rewrite last_text_snoc in Ec. cbn [t_text] in Ec. rewrite Espan in Ec.
      assert (G := two_runs n c (x ++ rep c_bt n) Hn Hc). rewrite Ec in G.
      assert (2 <= 1); [|lia]. apply G. apply in_app_iff. right.
      destruct (rep_tick n Hn) as (y & ->). left. reflexivity.
    + destruct (eval_last_behind tsa t tsb Hne) as [-> Hne'].
      destruct (negb (blank (skipn le text))); intros E; apply ok_inj in E; subst ts.
      * exists t. destruct (app_last_behind tsa t (eval_last tsb) (rstrip (skipn le text)) Hne') as [-> _].
        split; [apply in_app_iff; right; left; reflexivity|]. split; auto.
      * exists t. split; [apply in_app_iff; right; left; reflexivity|]. split; auto.
  - intros E. unfold split_tail in E.
    assert (G : forall ts2, (ts2 = ts1 \/ ts2 = app_last ts1 [c_dot]) -> exists t, In t ts2 /\ is_span span t).
    { intros ts2 [->| ->].
      - destruct Hs as [(tsa & ld & -> & ->)|(tsa & t & tsb & -> & Hne & He & Ht)].
        + eexists. split; [apply in_app_iff; right; left; reflexivity|]. split; cbn; auto.
        + eexists. split; [apply in_app_iff; right; left; reflexivity|]. split; auto.
      - destruct Hs as [(tsa & ld & -> & ->)|(tsa & t & tsb & -> & Hne & He & Ht)].
        + rewrite app_last_snoc. eexists. split; [apply in_app_iff; right; left; reflexivity|].
          split; cbn; auto.
        + destruct (app_last_behind tsa t tsb [c_dot] Hne) as [-> _].
          eexists. split; [apply in_app_iff; right; left; reflexivity|]. split; auto. }
    apply bind_ok in E. destruct E as ([ts2 rest] & E1 & E2).
    assert (Hts2 : ts2 = ts1 \/ ts2 = app_last ts1 [c_dot]).
    { destruct (one_dot (skipn le text)).
      - destruct ts1; [discriminate|]. apply ok_inj in E1. injection E1 as <- _. auto.
      - apply ok_inj in E1. injection E1 as <- _. auto. }
    destruct (G ts2 Hts2) as (t & Hint & Ht). exists t. split; [|exact Ht].
    destruct (negb (blank rest)); apply ok_inj in E2; subst ts; [apply in_app_iff; auto|exact Hint].
Qed.

Lemma split_pass_keeps f ts r t :
  split_pass f ts = Ok r -> In t ts -> t_eval t = false -> In t r.
Proof.
  revert r. induction ts as [|u ts IH]; intros r E Hin He; [destruct Hin|].
  rewrite split_pass_cons in E. apply bind_ok in E. destruct E as (a & Ea & E).
  apply bind_ok in E. destruct E as (b & Eb & E). apply ok_inj in E. subst r.
  apply in_app_iff. destruct Hin as [->|Hin]; [left|right; apply IH; auto].
  rewrite He in Ea. apply ok_inj in Ea. subst a. left. reflexivity.
Qed.

Lemma wrap_tokens_spans text ts spans span :
  code_spans (joined text) spans -> In span spans -> wrap_tokens text = Ok ts ->
  exists t, In t ts /\ is_span span t.
Proof.
  unfold wrap_tokens. intros H Hin E. apply bind_ok in E. destruct E as (ts1 & E1 & E).
  apply bind_ok in E. destruct E as (ts2 & E2 & E). apply bind_ok in E. destruct E as (ts3 & E3 & E4).
  rewrite split_pass_cons, split_pass_nil in E1. cbn [t_eval t_text t_lead] in E1.
  apply bind_ok in E1. destruct E1 as (a & Ea & E1). apply ok_inj in E1. rewrite app_nil_r in E1. subst ts1.
  destruct (code_split_spans _ _ _ _ _ H Hin Ea) as (t & Ht & He & Hs). exists t.
  split; [|split; assumption]. eapply split_pass_keeps; [exact E4| |exact He].
  eapply split_pass_keeps; [exact E3| |exact He]. eapply split_pass_keeps; [exact E2|exact Ht|exact He].
Qed.

(** A piece appears on one line. *)
Lemma put_infix line p : exists a, put line p = a ++ fst p.
Proof.
  destruct p as [t l]. destruct line as [|c line]; [exists []; reflexivity|]. destruct l.
  - exists ((c :: line) ++ [c_sp]). cbn [put fst]. rewrite <- app_assoc. reflexivity.
  - exists (c :: line). reflexivity.
Qed.

Lemma put_prefix line p : exists b, put line p = line ++ b.
Proof.
  destruct p as [t l]. destruct line as [|c line]; [exists t; reflexivity|]. destruct l.
  - exists (c_sp :: t). reflexivity.
  - exists t. reflexivity.
Qed.

Lemma fold_put_prefix g : forall line, exists b, fold_left put g line = line ++ b.
Proof.
  induction g as [|p g IH]; intros line; [exists []; rewrite app_nil_r; reflexivity|]. cbn [fold_left].
  destruct (IH (put line p)) as (b & ->). destruct (put_prefix line p) as (b' & ->).
  exists (b' ++ b). rewrite app_assoc. reflexivity.
Qed.

Lemma line_of_infix g p : In p g -> exists a b, line_of g = a ++ fst p ++ b.
Proof.
  unfold line_of. generalize (@nil N). induction g as [|q g IH]; intros line Hin; [destruct Hin|].
  cbn [fold_left]. destruct Hin as [->|Hin]; [|apply IH; exact Hin].
  destruct (fold_put_prefix g (put line p)) as (b & ->). destruct (put_infix line p) as (a & ->).
  exists a, b. rewrite app_assoc. reflexivity.
Qed.

Lemma filled_piece w ps lines p :
  filled w ps lines -> In p ps -> fst p <> [] ->
  exists line a b, In line lines /\ line = a ++ fst p ++ b.
Proof.
  intros (groups & rest & E & Hrest & -> & _) Hin Hne. rewrite E in Hin. apply in_app_iff in Hin.
  destruct Hin as [Hin|Hin].
  - apply in_concat in Hin. destruct Hin as (g & Hg & Hp). destruct (line_of_infix g p Hp) as (a & b & El).
    exists (line_of g), a, b. split; [apply in_map; exact Hg|exact El].
  - exfalso. destruct (line_of_infix rest p Hin) as (a & b & El). rewrite Hrest in El.
    destruct a; [|discriminate]. destruct (fst p); [congruence|discriminate].
Qed.
