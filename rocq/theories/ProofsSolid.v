(** Every piece that can stand on an overlong line is found in the text. *)
From Coq Require Import String.
From Verif Require Import Py Regex Utils TextWrap Base SpecLines ProofsLines ProofsRegex SpecWrap
  ProofsScan ProofsWrap ProofsTokens ProofsParser ProofsLinks ProofsPieces ProofsApart.

(** * Inline code *)

Definition no_tick_last (s : str) : Prop := forall x, s <> x ++ [c_bt].

Lemma no_tick_in s : no_tick s <-> ~ In c_bt s.
Proof.
  unfold no_tick. rewrite Forall_forall. split.
  - intros H Hin. apply (H c_bt Hin). reflexivity.
  - intros H c Hin ->. contradiction.
Qed.

Lemma rep_in c n x : In x (rep c n) -> x = c.
Proof. intros H. apply repeat_spec in H. exact H. Qed.

Lemma code_body_plain n gap : 0 < n -> no_tick gap -> gap <> [] -> code_body n gap.
Proof.
  intros Hn Hg Hne. assert (G := proj1 (no_tick_in gap) Hg).
  split; [exact Hne|]. split; [|split].
  - intros x ->. apply G. left. reflexivity.
  - intros x ->. apply G. apply in_app_iff. right. left. reflexivity.
  - intros a b ->. exfalso. apply G. apply in_app_iff. right. apply in_app_iff. left.
    destruct n; [lia|]. left. reflexivity.
Qed.

Lemma rep_split c n a b : rep c n = a ++ b -> a = rep c (length a) /\ b = rep c (length b).
Proof.
  intros E. split.
  - clear -E. revert n E. induction a as [|x a IH]; intros n E; [reflexivity|].
    destruct n as [|n]; [discriminate|]. rewrite rep_S in E. injection E as <- E.
    cbn [length]. rewrite rep_S. f_equal. apply (IH n E).
  - clear -E. revert n E. induction a as [|x a IH]; intros n E.
    + cbn [app] in E. subst b. rewrite rep_length. reflexivity.
    + destruct n as [|n]; [discriminate|]. rewrite rep_S in E. injection E as _ E. apply (IH n E).
Qed.

Lemma rep_last c n : 0 < n -> exists x, rep c n = x ++ [c].
Proof. destruct n as [|n]; [lia|]. intros _. exists (rep c n). apply rep_snoc. Qed.

Lemma app_last_char {A} (a b x : list A) c : a ++ b = x ++ [c] -> b <> [] -> exists y, b = y ++ [c].
Proof.
  intros E Hb. destruct b as [|d b] using rev_ind; [congruence|]. clear IHb.
  rewrite app_assoc in E. apply app_inj_tail in E. destruct E as [_ ->]. eauto.
Qed.

Lemma code_body_longer n m code gap : 0 < n -> code_body n code -> m <> n -> 0 < m ->
  no_tick gap -> gap <> [] -> code_body n (code ++ rep c_bt m ++ gap).
Proof.
  intros Hn (H1 & H2 & H3 & H4) Hmn Hm Hg Hne.
  split; [destruct code; [congruence|discriminate]|]. split; [|split].
  - intros x E. destruct code as [|c code]; [congruence|]. injection E as -> _. apply (H2 code). reflexivity.
  - intros x E. rewrite app_assoc in E. apply app_last_char in E; [|exact Hne].
    destruct E as (y & ->). apply Forall_app in Hg. destruct Hg as [_ Hg]. apply Forall_inv in Hg. congruence.
  - intros a b E. change (repeat c_bt n) with (rep c_bt n) in E.
    (* the run ends before [gap] *)
    assert (E1 : exists l, code ++ rep c_bt m = (a ++ rep c_bt n) ++ l /\ b = l ++ gap).
    { assert (EE := E). rewrite (app_assoc code), (app_assoc a) in EE. apply app_eq_app in EE.
      destruct EE as (l & [[E1 E2]|[E1 E2]]); [eauto|]. destruct l as [|y l].
      - rewrite app_nil_r in E1. exists []. rewrite app_nil_r. split; [symmetry; exact E1|].
        cbn [app] in E2. symmetry. exact E2.
      - exfalso. destruct (rep_last c_bt n Hn) as (x & Ex). rewrite Ex, app_assoc in E1.
        destruct (app_last_char (code ++ rep c_bt m) (y :: l) _ _ (eq_sym E1) ltac:(discriminate)) as (l' & El).
        rewrite E2 in Hg. apply Forall_app in Hg. destruct Hg as [Hg _]. rewrite El in Hg.
        apply Forall_app in Hg. destruct Hg as [_ Hg]. apply Forall_inv in Hg. congruence. }
    clear E. destruct E1 as (l & E & ->).
    apply app_eq_app in E. destruct E as (k & [[E1 E2]|[E1 E2]]).
    + (* inside [code] *)
      rewrite <- app_assoc in E1. destruct (H4 a k E1) as [H|(b' & ->)]; [left; exact H|].
      right. rewrite E2. eexists. reflexivity.
    + destruct (rep_split _ _ _ _ E2) as [Ek El]. apply app_eq_app in E1.
      destruct E1 as (j & [[E1 E3]|[E1 E3]]).
      * (* starting in the run *)
        destruct j as [|y j] using rev_ind.
        -- rewrite app_nil_r in E1. subst a. cbn [app] in E3. subst k. rewrite rep_length in *.
           assert (L := f_equal (@length _) E2). rewrite app_length, !rep_length in L.
           right. destruct l as [|y l]; [cbn in L; lia|]. rewrite El. cbn [length]. rewrite rep_S.
           eexists. reflexivity.
        -- clear IHj. left. rewrite E1, app_assoc.
           assert (y = c_bt); [|subst; eauto].
           rewrite E3 in Ek. apply (rep_in c_bt (length ((j ++ [y]) ++ rep c_bt n))).
           rewrite <- Ek. rewrite !in_app_iff. left. right. left. reflexivity.
      * (* starting in [code] *)
        destruct j as [|y j] using rev_ind.
        -- rewrite app_nil_r in E1. subst a. cbn [app] in E3. subst k. rewrite rep_length in *.
           assert (L := f_equal (@length _) E2). rewrite app_length, !rep_length in L.
           right. destruct l as [|y l]; [cbn in L; lia|]. rewrite El. cbn [length]. rewrite rep_S.
           eexists. reflexivity.
        -- clear IHj. exfalso. assert (y = c_bt).
           { apply (rep_in c_bt n). rewrite E3, !in_app_iff. left. right. left. reflexivity. }
           subst y. apply (H3 (a ++ j)). rewrite E1, app_assoc. reflexivity.
Qed.

Lemma spans_read_plain a g : spans_read a -> ~ In c_bt g -> spans_read (a ++ g).
Proof.
  intros H Hg. induction H as [s Hs|plain n code rest Hp Hn Hc Hr H IH].
  - apply read_plain. rewrite in_app_iff. tauto.
  - rewrite <- !app_assoc. rewrite (app_assoc code), (app_assoc (repeat c_bt n)). apply read_span; auto.
    intros r E. destruct rest as [|c rest]; [|injection E as -> _; apply (Hr rest eq_refl)].
    cbn [app] in E. subst g. apply Hg. left. reflexivity.
Qed.

Lemma spans_read_span a n code : spans_read a -> no_tick_last a -> 0 < n -> code_body n code ->
  spans_read (a ++ rep c_bt n ++ code ++ rep c_bt n).
Proof.
  intros H Ha Hn Hc. induction H as [s Hs|plain k code0 rest Hp Hk Hc0 Hr H IH].
  - rewrite <- (app_nil_r (rep c_bt n ++ code ++ rep c_bt n)). apply read_span; auto; try discriminate.
    apply read_plain. cbn. tauto.
  - assert (Hne : rest <> []).
    { intros ->. rewrite app_nil_r in Ha. destruct (rep_last c_bt k Hk) as (x & Ex).
      apply (Ha (plain ++ repeat c_bt k ++ code0 ++ x)). change (repeat c_bt k) with (rep c_bt k).
      rewrite Ex at 2. rewrite <- !app_assoc. reflexivity. }
    rewrite <- app_assoc. rewrite <- (app_assoc (repeat c_bt k ++ code0 ++ repeat c_bt k)).
    apply read_span; auto.
    + intros r E. destruct rest as [|c rest]; [congruence|]. injection E as -> _. apply (Hr rest eq_refl).
    + apply IH. intros x E. apply (Ha (plain ++ (repeat c_bt k ++ code0 ++ repeat c_bt k) ++ x)).
      rewrite E, <- !app_assoc. reflexivity.
Qed.

Definition code_good (text : str) (t : tok) : Prop := t_eval t = false -> code_in text (t_text t).

Definition code_inv2 (text pre s : str) (ts : list tok) (open : nat) : Prop :=
  text = pre ++ s
  /\ (open = 0 -> Forall (code_good text) ts /\ spans_read pre /\
      ((ts = [] /\ pre = [])
      \/ exists ts0 pre0 k code lead,
           ts = ts0 ++ [Tok (rep c_bt k ++ code ++ rep c_bt k) lead false]
           /\ pre = pre0 ++ rep c_bt k ++ code ++ rep c_bt k
           /\ 0 < k /\ code_body k code /\ spans_read pre0 /\ no_tick_last pre0 /\ not_tick_first s))
  /\ (0 < open ->
      exists ts0 pre0 body lead,
        ts = ts0 ++ [Tok (rep c_bt open ++ body) lead false]
        /\ Forall (code_good text) ts0
        /\ pre = pre0 ++ rep c_bt open ++ body
        /\ spans_read pre0 /\ no_tick_last pre0 /\ not_tick_first s
        /\ (body = [] \/ exists code m, body = code ++ rep c_bt m /\ 0 < m /\ m <> open /\ code_body open code)).

Lemma code_in_closed text pre0 k code dot after :
  text = pre0 ++ (rep c_bt k ++ code ++ rep c_bt k) ++ dot ++ after ->
  0 < k -> code_body k code -> spans_read pre0 -> no_tick_last pre0 ->
  In dot [[]; [c_dot]] -> not_tick_first (dot ++ after) ->
  code_in text ((rep c_bt k ++ code ++ rep c_bt k) ++ dot).
Proof.
  intros E Hk Hc Hr Hl Hd Hn. exists pre0, k, code, k, dot, after.
  split; [rewrite E, <- !app_assoc; reflexivity|].
  split; [rewrite <- !app_assoc; reflexivity|]. do 5 (split; [solve [auto]|]).
  split; [left; reflexivity|]. split; [exact Hd|exact Hn].
Qed.

Lemma code_step_inv2 text lead pre gap k rest ts open :
  code_inv2 text pre (gap ++ rep c_bt k ++ rest) ts open ->
  no_tick gap -> 0 < k -> not_tick_first rest ->
  exists ts' open',
    code_step text lead (ts, open, length pre)
      (length pre + length gap, length pre + length gap + k)
    = (ts', open', length (pre ++ gap ++ rep c_bt k))
    /\ code_inv2 text (pre ++ gap ++ rep c_bt k) rest ts' open'.
Proof.
  intros (Et & H0 & H1) Hg Hk Hr.
  assert (Lp : length pre + length gap + k = length (pre ++ gap ++ rep c_bt k)).
  { rewrite !app_length, rep_length. lia. }
  assert (Sg : slice text (length pre) (length pre + length gap) = gap).
  { rewrite Et. apply slice_mid. }
  assert (Sgk : slice text (length pre) (length pre + length gap + k) = gap ++ rep c_bt k).
  { replace (length pre + length gap + k) with (length pre + length (gap ++ rep c_bt k))
      by (rewrite app_length, rep_length; lia).
    rewrite Et, (app_assoc gap). apply slice_mid. }
  assert (Km : length pre + length gap + k - (length pre + length gap) = k) by lia.
  unfold code_step. rewrite Sg, Sgk, Km, Lp.
  destruct (rep_tick k Hk) as (krest & Ek).
  destruct (open =? 0) eqn:Eo.
  - apply Nat.eqb_eq in Eo. subst open. destruct (H0 eq_refl) as (Ht & Hpre & H0'). clear H0 H1.
    set (dot := one_dot gap && negb (nilb ts)).
    set (ts1 := if dot then app_last ts [c_dot] else ts).
    set (gap1 := if dot then tl gap else gap).
    assert (A : Forall (code_good text) ts1).
    { unfold ts1. destruct dot eqn:Ed; [|exact Ht]. unfold dot in Ed. apply andb_true_iff in Ed.
      destruct Ed as [Ed En]. apply one_dot_spec in Ed. destruct Ed as (u & -> & Hu).
      destruct H0' as [[-> _]|(ts0 & pre0 & k0 & code & ld & -> & Ep & Hk0 & Hc & Hp0 & Hl0 & Hn0)];
        [discriminate|].
      rewrite app_last_snoc. cbn [t_text t_lead t_eval]. apply Forall_app in Ht. destruct Ht as [Ht _].
      apply Forall_app. split; [exact Ht|]. constructor; [|constructor]. intros _. cbn [t_text].
      apply code_in_closed with pre0 (u ++ rep c_bt k ++ rest); auto.
      - rewrite Et, Ep, <- !app_assoc. reflexivity.
      - cbn. auto. }
    set (ts2 := if negb (blank gap1) then _ else ts1).
    assert (B : Forall (code_good text) ts2).
    { unfold ts2. destruct (negb (blank gap1)); [|exact A]. apply Forall_app. split; [exact A|].
      constructor; [|constructor]. intros E. discriminate. }
    eexists. exists k. split; [reflexivity|].
    split; [rewrite Et, <- !app_assoc; reflexivity|]. split; [lia|]. intros _.
    exists ts2, (pre ++ gap), [], (if nilb ts2 then lead else endswith [c_sp] gap1). rewrite !app_nil_r.
    split; [reflexivity|]. split; [exact B|]. split; [rewrite <- app_assoc; reflexivity|].
    split; [apply spans_read_plain; [exact Hpre|apply no_tick_in; exact Hg]|].
    split; [|split; [exact Hr|left; reflexivity]].
    intros x E. destruct gap as [|g gap].
    + rewrite app_nil_r in E.
      destruct H0' as [[_ ->]|(ts0 & pre0 & k0 & code & ld & _ & Ep & Hk0 & Hc & Hp0 & Hl0 & Hn0)].
      * destruct x; discriminate.
      * apply (Hn0 (krest ++ rest)). cbn [app]. rewrite Ek. reflexivity.
    + apply app_last_char in E; [|discriminate]. destruct E as (y & E). rewrite E in Hg.
      apply Forall_app in Hg. destruct Hg as [_ Hg]. apply Forall_inv in Hg. congruence.
  - apply Nat.eqb_neq in Eo. assert (Ho : 0 < open) by lia. specialize (H1 Ho). clear H0.
    destruct H1 as (ts0 & pre0 & body & ld & -> & Ht1 & -> & Hp0 & Hl0 & Hn & Hb).
    assert (Hgne : gap <> []).
    { intros ->. apply (Hn (krest ++ rest)). cbn [app]. rewrite Ek. reflexivity. }
    assert (Hbg : code_body open (body ++ gap)).
    { destruct Hb as [->|(code & m & -> & Hm & Hmo & Hc)].
      - apply code_body_plain; auto.
      - rewrite <- app_assoc. apply code_body_longer; auto. }
    rewrite app_last_snoc, app_last_snoc. cbn [t_text t_lead t_eval].
    destruct (k =? open) eqn:Eko.
    + apply Nat.eqb_eq in Eko. subst k. eexists. exists 0. split; [reflexivity|].
      assert (Es : (rep c_bt open ++ body) ++ gap ++ rep c_bt open
                   = rep c_bt open ++ (body ++ gap) ++ rep c_bt open).
      { rewrite <- !app_assoc. reflexivity. }
      split; [rewrite Et, <- !app_assoc; reflexivity|]. split; [|lia]. intros _.
      assert (Ep : (pre0 ++ rep c_bt open ++ body) ++ gap ++ rep c_bt open
                   = pre0 ++ rep c_bt open ++ (body ++ gap) ++ rep c_bt open).
      { rewrite <- !app_assoc. reflexivity. }
      split; [|split].
      * apply Forall_app. split; [exact Ht1|]. constructor; [|constructor]. intros _. cbn [t_text].
        rewrite Es, <- (app_nil_r (rep c_bt open ++ (body ++ gap) ++ rep c_bt open)).
        apply code_in_closed with pre0 rest; auto.
        -- rewrite Et, <- !app_assoc. reflexivity.
        -- cbn. auto.
      * rewrite Ep. apply spans_read_span; auto.
      * right. exists ts0, pre0, open, (body ++ gap), ld. rewrite Es, Ep. auto 10.
    + apply Nat.eqb_neq in Eko. eexists. exists open. split; [reflexivity|].
      split; [rewrite Et, <- !app_assoc; reflexivity|]. split; [lia|]. intros _.
      exists ts0, pre0, (body ++ gap ++ rep c_bt k), ld. rewrite <- !app_assoc.
      do 6 (split; [solve [auto]|]). right. exists (body ++ gap), k. rewrite <- app_assoc. auto.
Qed.

Lemma code_fold_inv2 text lead pos s ms :
  ticks pos s ms -> forall pre ts open, pos = length pre -> code_inv2 text pre s ts open ->
  exists pre' s' ts' open',
    fold_left (code_step text lead) ms (ts, open, pos) = (ts', open', length pre')
    /\ code_inv2 text pre' s' ts' open' /\ no_tick s'.
Proof.
  intros H. induction H as [pos s Hs|pos gap k rest ms Hg Hk Hr Ht IH]; intros pre ts open -> Hi.
  - exists pre, s, ts, open. auto.
  - destruct (code_step_inv2 text lead pre gap k rest ts open Hi Hg Hk Hr) as (ts' & open' & E & Hi').
    cbn [fold_left]. rewrite E.
    assert (L : length pre + length gap + k = length (pre ++ gap ++ rep c_bt k)).
    { rewrite !app_length, rep_length. lia. }
    destruct (IH (pre ++ gap ++ rep c_bt k) ts' open' L Hi') as (pre' & s' & ts'' & open'' & E' & Hi'' & Hs').
    exists pre', s', ts'', open''. rewrite L in E'. rewrite E'. auto.
Qed.

(** [split_tail] adds a full stop to the last token, and a token to be looked at again. *)
Lemma split_tail_good (good : tok -> Prop) ts s le lead ts' :
  Forall good ts ->
  (forall ts0 t u, ts = ts0 ++ [t] -> s = c_dot :: u -> good (Tok (t_text t ++ [c_dot]) (t_lead t) (t_eval t))) ->
  (forall t, t_eval t = true -> good t) ->
  split_tail ts s le lead = Ok ts' -> Forall good ts'.
Proof.
  intros Ht Hd He. unfold split_tail. destruct (one_dot s) eqn:Ed.
  - destruct ts as [|t ts] using rev_ind; [discriminate|]. clear IHts.
    assert (Em : match ts ++ [t] with [] => Err IndexError
                 | _ => Ok (app_last (ts ++ [t]) [c_dot], tl s) end
                 = Ok (app_last (ts ++ [t]) [c_dot], tl s)) by (destruct ts; reflexivity).
    rewrite Em. cbn [bind]. apply one_dot_spec in Ed. destruct Ed as (u & -> & _). cbn [tl].
    rewrite app_last_snoc. apply Forall_app in Ht. destruct Ht as [Ht _].
    assert (G : Forall good (ts ++ [Tok (t_text t ++ [c_dot]) (t_lead t) (t_eval t)])).
    { apply Forall_app. split; [exact Ht|]. constructor; [|constructor]. eapply Hd; reflexivity. }
    destruct (blank u); cbn [negb]; intros E; apply ok_inj in E; subst ts'; [exact G|].
    apply Forall_app. split; [exact G|]. constructor; [|constructor]. apply He. reflexivity.
  - cbn [bind]. destruct (blank s); cbn [negb]; intros E; apply ok_inj in E; subst ts'; [exact Ht|].
    apply Forall_app. split; [exact Ht|]. constructor; [|constructor]. apply He. reflexivity.
Qed.

Lemma code_split_in text lead ts : code_split text lead = Ok ts -> Forall (code_good text) ts.
Proof.
  unfold code_split, INLINE_CODE_MARKER_REGEX.
  destruct (code_fold_inv2 text lead 0 text _ (finditer_ticks text) [] [] 0 eq_refl)
    as (pre & s & ts1 & open & E & (Et & H0 & H1) & Hs).
  { split; [reflexivity|]. split; [|lia]. intros _. split; [constructor|].
    split; [apply read_plain; cbn; tauto|auto]. }
  rewrite E. clear E.
  assert (Sk : skipn (length pre) text = s) by (rewrite Et; apply skipn_pre).
  rewrite Sk.
  assert (He : forall t, t_eval t = true -> code_good text t) by (intros t Hv E; congruence).
  destruct (negb (nilb ts1) && _) eqn:Ec.
  - assert (G : exists ts0 t, ts1 = ts0 ++ [t] /\ Forall (code_good text) ts0).
    { destruct ts1 as [|t ts0] using rev_ind; [discriminate|]. exists ts0, t. split; [reflexivity|].
      destruct open as [|n].
      - destruct (H0 eq_refl) as [Ht _]. apply Forall_app in Ht. apply Ht.
      - destruct (H1 ltac:(lia)) as (ts0' & pre0 & body & ld & E & Ht & _). apply app_inj_tail in E.
        destruct E as [-> _]. exact Ht. }
    destruct G as (ts0 & t & -> & Ht). rewrite eval_last_snoc, app_last_snoc. cbn [t_text t_lead t_eval].
    destruct (negb (blank s)); intros E; apply ok_inj in E; subst ts;
      (apply Forall_app; split; [exact Ht|]; constructor; [apply He; reflexivity|constructor]).
  - intros E. eapply split_tail_good; [| |exact He|exact E].
    + destruct open as [|n]; [apply (H0 eq_refl)|].
      destruct (H1 ltac:(lia)) as (ts0 & pre0 & body & ld & -> & Ht & Ep & Hp0 & Hl0 & Hn & Hb).
      apply Forall_app. split; [exact Ht|]. constructor; [|constructor]. intros _. cbn [t_text].
      destruct Hb as [->|(code & m & -> & Hm & Hmn & Hc)].
      * exfalso. rewrite last_text_snoc in Ec. cbn [t_text] in Ec. rewrite app_nil_r in Ec.
        rewrite (finditer_ticks_eq _ [(0, S n)]) in Ec.
        -- destruct ts0; discriminate.
        -- rewrite <- (app_nil_r (rep c_bt (S n))).
           change (0, S n) with (0 + length (@nil N), 0 + length (@nil N) + S n).
           apply (ticks_run 0 [] (S n) [] []); [constructor|lia|intros s'; discriminate|].
           constructor. constructor.
      * exists pre0, (S n), code, m, [], s. rewrite !app_nil_r.
        split; [rewrite Et, Ep, <- !app_assoc; reflexivity|]. split; [reflexivity|].
        do 5 (split; [solve [auto with arith]|]). split; [right; apply no_tick_in; exact Hs|].
        split; [cbn; auto|exact Hn].
    + intros ts0 t u Ets Es _. cbn [t_text]. destruct open as [|n].
      * destruct (H0 eq_refl) as (_ & _ & [[-> _]|(ts0' & pre0 & k & code & ld & E0 & Ep & Hk & Hc & Hp0 & Hl0 & Hn)]);
          [destruct ts0; discriminate|].
        rewrite Ets in E0. apply app_inj_tail in E0. destruct E0 as [_ ->]. cbn [t_text].
        apply code_in_closed with pre0 u; auto.
        -- rewrite Et, Ep, Es, <- !app_assoc. reflexivity.
        -- cbn. auto.
        -- intros s'. discriminate.
      * destruct (H1 ltac:(lia)) as (ts0' & pre0 & body & ld & E0 & Ht & Ep & Hp0 & Hl0 & Hn & Hb).
        rewrite Ets in E0. apply app_inj_tail in E0. destruct E0 as [-> ->]. cbn [t_text].
        destruct Hb as [->|(code & m & -> & Hm & Hmn & Hc)].
        -- exfalso. rewrite Ets, last_text_snoc in Ec. cbn [t_text] in Ec. rewrite app_nil_r in Ec.
           rewrite (finditer_ticks_eq _ [(0, S n)]) in Ec.
           ++ destruct ts0'; discriminate.
           ++ rewrite <- (app_nil_r (rep c_bt (S n))).
              change (0, S n) with (0 + length (@nil N), 0 + length (@nil N) + S n).
              apply (ticks_run 0 [] (S n) [] []); [constructor|lia|intros s'; discriminate|].
              constructor. constructor.
        -- exists pre0, (S n), code, m, [c_dot], u.
           split; [rewrite Et, Ep, Es, <- !app_assoc; reflexivity|].
           split; [rewrite <- !app_assoc; reflexivity|].
           do 5 (split; [solve [auto with arith]|]).
           split; [right; apply no_tick_in; rewrite Es in Hs; inversion Hs; assumption|].
           split; [cbn; auto|discriminate].
Qed.

(** * Links *)

Definition half_in (text half : str) : Prop :=
  exists before z close ws after,
    In (z, close) joints /\ text = before ++ z ++ ws ++ half ++ after /\ spaces ws
    /\ (links_apart text ->
        exists u r, half = u ++ close ++ r /\ (forall a b, u <> a ++ close ++ b)
          /\ Forall (fun c => is_space c = false) r).

Lemma half_link text t : half_in text t -> link_half_in text t /\ link_half_in text (t ++ [c_dot]).
Proof.
  intros (before & z & close & ws & after & H1 & H2 & H3 & H4).
  split; exists before, z, close, ws, t, after; auto 10.
Qed.

Lemma half_in_infix x y g t : half_in g t -> half_in (x ++ g ++ y) t.
Proof.
  intros (before & z & close & ws & after & H1 & -> & H3 & H4).
  exists (x ++ before), z, close, ws, (after ++ y). split; [exact H1|].
  split; [rewrite <- !app_assoc; reflexivity|]. split; [exact H3|].
  intros HA. apply H4. eapply links_apart_infix. exact HA.
Qed.

Lemma link_half_infix x y g t : link_half_in g t -> link_half_in (x ++ g ++ y) t.
Proof.
  intros (before & z & close & ws & half & after & H1 & H2 & H3 & H4 & [->| ->]);
    apply half_link; apply half_in_infix; exists before, z, close, ws, after; auto.
Qed.

Lemma strip_closed u cl r : is_space cl = false -> Forall (fun c => is_space c = false) r ->
  exists ws u', u = ws ++ u' /\ spaces ws /\ strip (u ++ [cl] ++ r) = u' ++ [cl] ++ r.
Proof.
  intros Hc Hr. destruct (lstrip_by_spec is_space u) as (ws & E & Hw).
  exists ws, (lstrip_by is_space u). split; [exact E|]. split; [apply spaces_forallb; exact Hw|].
  unfold strip, lstrip, rstrip. rewrite E at 1. rewrite <- app_assoc, lstrip_by_app by exact Hw.
  assert (L : lstrip_by is_space (lstrip_by is_space u ++ [cl] ++ r) = lstrip_by is_space u ++ [cl] ++ r).
  { destruct (lstrip_by is_space u) as [|x v] eqn:El.
    - cbn [app lstrip_by]. rewrite Hc. reflexivity.
    - apply lstrip_by_head in El. cbn [app lstrip_by]. rewrite El. reflexivity. }
  rewrite L. destruct r as [|x r] using rev_ind.
  - rewrite app_nil_r. apply rstrip_by_snoc. exact Hc.
  - apply Forall_app in Hr. destruct Hr as [_ Hr]. apply Forall_inv in Hr.
    rewrite !app_assoc. apply rstrip_by_snoc. exact Hr.
Qed.

Lemma split_link_half g p q u r o cl a b :
  link g p q u r o cl -> split_link g = Ok (a, b) -> half_in g b.
Proof.
  intros Hl E.
  assert (G : exists o' cl' x y l, In ([c_rbr; o'], [cl']) joints /\ split_on2 c_rbr o' g = x :: y :: l
              /\ a = strip x ++ [c_rbr; o'] /\ b = strip y).
  { unfold split_link in E. destruct (contains [c_rbr; c_lpar] g).
    - destruct (split_on2 c_rbr c_lpar g) as [|x [|y l]] eqn:Es; try discriminate.
      apply ok_inj in E. injection E as <- <-. exists c_lpar, c_rpar, x, y, l. cbn. auto.
    - destruct (split_on2 c_rbr c_lbr g) as [|x [|y l]] eqn:Es; try discriminate.
      apply ok_inj in E. injection E as <- <-. exists c_lbr, c_rbr, x, y, l. cbn. auto. }
  destruct G as (o' & cl' & x & y & l & Hj & Es & Ea & Eb).
  assert (J := split_on2_join c_rbr o' g). rewrite Es in J.
  destruct (strip_spec y) as (ws & ws' & Ey & Hw & Hw').
  assert (Eg : exists rest, g = x ++ [c_rbr; o'] ++ y ++ rest).
  { rewrite <- J. rewrite str_join_cons by discriminate. destruct l as [|y2 l].
    - exists []. cbn [str_join]. rewrite app_nil_r. reflexivity.
    - rewrite str_join_cons by discriminate. eexists. reflexivity. }
  destruct Eg as (rest & Eg).
  exists x, [c_rbr; o'], [cl'], ws, (ws' ++ rest). split; [exact Hj|].
  split; [rewrite Eg, Eb; rewrite Ey at 1; rewrite <- !app_assoc; reflexivity|].
  split; [apply spaces_forallb; exact Hw|]. intros HA.
  rewrite (split_link_at _ _ _ _ _ _ _ Hl HA) in E. apply ok_inj in E. injection E as E1 E2.
  assert (Eo : o = o' /\ cl = cl').
  { rewrite Ea in E1. change [c_rbr; o] with ([c_rbr] ++ [o]) in E1. change [c_rbr; o'] with ([c_rbr] ++ [o']) in E1.
    rewrite !app_assoc in E1. apply app_inj_tail in E1. destruct E1 as [_ ->]. split; [reflexivity|].
    destruct Hl as [_ K _ _ _ _]. cbn in Hj.
    destruct K as [[-> ->]|[-> ->]]; destruct Hj as [Hj|[Hj|[]]]; injection Hj as <- || idtac; congruence. }
  destruct Eo as [<- <-]. destruct Hl as [_ K _ _ Hu Hr].
  assert (Hc : is_space cl = false) by (destruct K as [[_ ->]|[_ ->]]; reflexivity).
  assert (Hr' : Forall (fun c => is_space c = false) r) by (eapply Forall_impl; [|exact Hr]; cbn; tauto).
  destruct (strip_closed u cl r Hc Hr') as (us & u' & Eu & _ & Est). change (u ++ [cl] ++ r) with (u ++ cl :: r) in Est.
  exists u', r. split; [rewrite <- Est; symmetry; exact E2|]. split; [|exact Hr'].
  intros a' b' E'. rewrite Eu, E' in Hu. apply Forall_app in Hu. destruct Hu as [_ Hu].
  apply Forall_app in Hu. destruct Hu as [_ Hu]. apply Forall_app in Hu. destruct Hu as [Hu _].
  apply Forall_inv in Hu. congruence.
Qed.

Definition link_good (text : str) (t : tok) : Prop := t_eval t = false -> link_half_in text (t_text t).
Definition last_half (text : str) (ts : list tok) : Prop :=
  forall ts0 t, ts = ts0 ++ [t] -> t_eval t = false -> half_in text (t_text t).

Lemma last_half_dot text ts : Forall (link_good text) ts -> last_half text ts ->
  Forall (link_good text) (app_last ts [c_dot]).
Proof.
  intros Ht Hl. destruct ts as [|t ts] using rev_ind; [constructor|]. clear IHts.
  rewrite app_last_snoc. apply Forall_app in Ht. destruct Ht as [Ht _]. apply Forall_app.
  split; [exact Ht|]. constructor; [|constructor]. intros E. cbn [t_eval t_text] in *.
  apply half_link. apply (Hl ts t eq_refl E).
Qed.

Lemma link_step_good text lead ts le m ts' le' :
  link_at text m -> Forall (link_good text) ts -> last_half text ts ->
  link_step text lead (ts, le) m = Ok (ts', le') ->
  Forall (link_good text) ts' /\ last_half text ts'.
Proof.
  intros Hm Ht Hl. destruct m as [a b]. unfold link_step.
  match goal with |- context [let '(ts, lead_link) := ?X in _] =>
    assert (A : exists ts1 ll, X = (ts1, ll) /\ Forall (link_good text) ts1) end.
  { destruct (blank (slice text le a)); cbn [negb]; [eauto|]. eexists. eexists. split; [reflexivity|].
    apply Forall_app. split; [|constructor; [intros E; discriminate|constructor]].
    destruct (negb (nilb ts) && _); [apply last_half_dot; assumption|exact Ht]. }
  destruct A as (ts1 & ll & -> & Ht1). intros E. apply bind_ok in E. destruct E as ([x y] & Es & E).
  apply ok_inj in E. injection E as <- <-.
  assert (Hh : half_in text y).
  { destruct Hm as (x0 & g & y0 & p & q & u & r & o & cl & Et & Hlk & Ha & Hb). cbn [fst snd] in *.
    rewrite Ha, Hb in Es. rewrite Et in Es at 1. rewrite slice_mid in Es. rewrite Et.
    apply half_in_infix. eapply split_link_half; eauto. }
  split.
  - apply Forall_app. split; [exact Ht1|]. constructor; [intros E; discriminate|].
    constructor; [|constructor]. intros _. cbn [t_text]. apply half_link. exact Hh.
  - intros ts0 t E _. change [Tok x ll true; Tok y false false] with ([Tok x ll true] ++ [Tok y false false]) in E.
    rewrite app_assoc in E. apply app_inj_tail in E. destruct E as [_ <-]. exact Hh.
Qed.

Lemma link_fold_good text lead ms : Forall (link_at text) ms -> forall ts le ts' le',
  Forall (link_good text) ts -> last_half text ts ->
  foldM (link_step text lead) ms (ts, le) = Ok (ts', le') ->
  Forall (link_good text) ts' /\ last_half text ts'.
Proof.
  intros H. induction H as [|m ms Hm H IH]; intros ts le ts' le' Ht Hl E.
  - cbn [foldM] in E. apply ok_inj in E. injection E as <- <-. auto.
  - cbn [foldM] in E. apply bind_ok in E. destruct E as ([ts1 le1] & E1 & E).
    destruct (link_step_good text lead ts le m ts1 le1 Hm Ht Hl E1). eapply IH; eauto.
Qed.

Lemma link_split_in text lead ts : link_split text lead = Ok ts -> Forall (link_good text) ts.
Proof.
  unfold link_split. intros E. apply bind_ok in E. destruct E as ([ts1 le] & E1 & E).
  destruct (link_fold_good text lead _ (link_matches_at text) [] 0 ts1 le) as [Ht Hl]; auto.
  { intros ts0 t E'. destruct ts0; discriminate. }
  eapply split_tail_good; [exact Ht| | |exact E].
  - intros ts0 t u -> _ Hv. cbn [t_eval t_text] in *. apply half_link. apply (Hl ts0 t eq_refl Hv).
  - intros t Hv Hv'. congruence.
Qed.

(** * HTML line breaks *)

Lemma newline_split_tags text lead ts : newline_split text lead = Ok ts ->
  Forall (fun t => t_eval t = false -> In (t_text t) br_tags) ts.
Proof.
  unfold newline_split. set (good := fun t : tok => t_eval t = false -> In (t_text t) br_tags).
  assert (A : forall ms, Forall (fun m => In (slice text (fst m) (snd m)) br_tags) ms ->
    forall st, Forall good (fst st) -> Forall good (fst (fold_left (newline_step text lead) ms st))).
  { intros ms H. induction H as [|[a b] ms Hm H IH]; intros [ts0 le] Ht; [exact Ht|].
    cbn [fold_left]. apply IH. unfold newline_step. cbn [fst snd] in *.
    destruct (negb (blank (slice text le a))); cbn [fst]; (apply Forall_app; split; [exact Ht|]).
    - constructor; [intros E; discriminate|]. constructor; [intros _; exact Hm|constructor].
    - constructor; [intros _; exact Hm|constructor]. }
  specialize (A (finditer HTML_NEWLINE_REGEX text)).
  destruct (fold_left (newline_step text lead) (finditer HTML_NEWLINE_REGEX text) ([], 0)) as [ts1 le] eqn:E.
  assert (G : Forall good ts1).
  { change ts1 with (fst (ts1, le)). rewrite <- E. apply A; [|constructor].
    apply Forall_forall. intros [a b] Hin. apply finditer_In in Hin.
    destruct Hin as (x & g & y & Et & _ & D & -> & ->). cbn [fst snd]. rewrite Et, slice_mid.
    apply html_den. exact D. }
  destruct (negb (blank _)); intros H; apply ok_inj in H; subst ts; [|exact G].
  apply Forall_app. split; [exact G|]. constructor; [intros H; discriminate|constructor].
Qed.

(** * All passes *)

Lemma split_pass_good (P Q : tok -> Prop) f ts r :
  (forall t a, P t -> t_eval t = true -> f (t_text t) (t_lead t) = Ok a -> Forall Q a) ->
  (forall t, P t -> t_eval t = false -> Q t) ->
  Forall P ts -> split_pass f ts = Ok r -> Forall Q r.
Proof.
  intros Hf Hk H. revert r. induction H as [|t ts Ht H IH]; intros r E.
  - apply ok_inj in E. subst. constructor.
  - rewrite split_pass_cons in E. apply bind_ok in E. destruct E as (a & Ea & E).
    apply bind_ok in E. destruct E as (b & Eb & E). apply ok_inj in E. subst r.
    apply Forall_app. split; [|apply IH; exact Eb]. destruct (t_eval t) eqn:Ev.
    + eapply Hf; eauto.
    + apply ok_inj in Ea. subst a. constructor; [apply Hk; assumption|constructor].
Qed.

Lemma wrap_tokens_solid text ts : wrap_tokens text = Ok ts ->
  Forall (fun t => solid (joined text) (t_text t)) ts.
Proof.
  unfold wrap_tokens. intros E. apply bind_ok in E. destruct E as (ts1 & E1 & E).
  apply bind_ok in E. destruct E as (ts2 & E2 & E). apply bind_ok in E. destruct E as (ts3 & E3 & E4).
  assert (C := proj2 (code_pass_inv _ _ E1)).
  set (good := fun t : tok => t_eval t = false -> solid (joined text) (t_text t)).
  assert (G1 : Forall (code_good (joined text)) ts1).
  { eapply (split_pass_good (fun t => t_text t = joined text /\ t_eval t = true)); [| | |exact E1].
    - cbn. intros t a [-> _] _ Ha. eapply code_split_in. exact Ha.
    - intros t [_ H] H'. congruence.
    - constructor; [auto|constructor]. }
  assert (G2 : Forall good ts2).
  { eapply (split_pass_good (fun t => code_tok (joined text) t /\ code_good (joined text) t)); [| | |exact E2].
    - intros t a [Ht _] Hv Ha. unfold code_tok in Ht. rewrite Hv in Ht. destruct Ht as (x & y & Ex & _).
      apply link_split_in in Ha. eapply Forall_impl; [|exact Ha]. intros t' Ht' Hv'.
      right. right. right. rewrite Ex. apply link_half_infix. apply Ht'. exact Hv'.
    - intros t [_ Ht] Hv _. right. left. apply Ht. exact Hv.
    - rewrite Forall_forall in *. auto. }
  assert (G3 : Forall good ts3).
  { eapply (split_pass_good good); [| |exact G2|exact E3].
    - intros t a _ _ Ha. apply newline_split_tags in Ha. eapply Forall_impl; [|exact Ha].
      intros t' Ht' Hv'. right. right. left. apply Ht'. exact Hv'.
    - auto. }
  assert (G4 : Forall good ts).
  { eapply (split_pass_good good); [| |exact G3|exact E4].
    - intros t a _ _ Ha. destruct (space_split_spec (t_text t) (t_lead t)) as (a' & Ea & _ & H & _).
      rewrite Ea in Ha. apply ok_inj in Ha. subst a'. eapply Forall_impl; [|exact H].
      intros t' [Ht' _] Hv'. congruence.
    - auto. }
  apply space_pass_eval in E4. rewrite Forall_forall in *. intros t Hin.
  destruct (t_eval t) eqn:Ev; [left; apply E4; assumption|apply G4; assumption].
Qed.
