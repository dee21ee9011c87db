(** If whitespace in front of every [>] of a document is plain spaces, so it is in what
    the formatter makes of the document. *)
From Verif Require Import Py Regex Utils TextWrap Lines Detectors Formatters Base
  SpecLines SpecFormat SpecParser SpecLimit SpecDefinition ProofsParser ProofsShapes ProofsChars
  ProofsScan ProofsLinks ProofsPieces PropsParser PropsDefinition PropsList ProofsLimit.

(** [b]: the text before ends with whitespace (of the same line) other than plain spaces. *)
Definition after (b : bool) (c : char) : bool :=
  negb (is_linebreak c) && is_space c && (b || negb (N.eqb c c_sp)).
Fixpoint ends (b : bool) (s : str) : bool :=
  match s with [] => b | c :: s' => ends (after b c) s' end.
Fixpoint plain (b : bool) (s : str) : bool :=
  match s with [] => true | c :: s' => negb (N.eqb c c_gt && b) && plain (after b c) s' end.

Lemma ends_app b s t : ends b (s ++ t) = ends (ends b s) t.
Proof. revert b. induction s as [|c s IH]; intros b; cbn; auto. Qed.

Lemma plain_app b s t : plain b (s ++ t) = plain b s && plain (ends b s) t.
Proof.
  revert b. induction s as [|c s IH]; intros b; [reflexivity|].
  cbn [app plain ends]. rewrite IH, andb_assoc. reflexivity.
Qed.

Lemma after_le b c : after b c = true \/ after false c = false.
Proof.
  unfold after. destruct (negb (is_linebreak c) && is_space c); cbn [andb]; [|auto].
  destruct b; cbn [orb]; [auto|]. destruct (negb (N.eqb c c_sp)); auto.
Qed.

Lemma plain_weaken b s : plain b s = true -> plain false s = true.
Proof.
  revert b. induction s as [|c s IH]; intros b H; [reflexivity|]. cbn [plain] in *.
  rewrite andb_false_r. cbn [negb andb]. apply andb_true_iff in H. destruct H as [_ H].
  destruct b; [|exact H]. destruct (after_le true c) as [E|E].
  - rewrite E in H. destruct (after false c); [exact H|]. exact (IH _ H).
  - rewrite E. exact (IH _ H).
Qed.

Lemma ends_weaken b s : ends b s = false -> ends false s = false.
Proof.
  revert b. induction s as [|c s IH]; intros b H; [reflexivity|]. cbn [ends] in *.
  destruct (after_le b c) as [E|E].
  - rewrite E in H. destruct (after false c); [exact H|]. exact (IH _ H).
  - rewrite E. exact (IH _ H).
Qed.

Notation ok s := (plain false s = true) (only parsing).
Notation okl := (Forall (fun s => plain false s = true)).

Definition clean (s : str) : Prop := plain false s = true /\ ends false s = false.
Notation okt := (Forall (fun t => clean (t_text t))).

Lemma ok_suffix b s t : plain b (s ++ t) = true -> plain false t = true.
Proof. rewrite plain_app. intros H. apply andb_true_iff in H. eapply plain_weaken, H. Qed.

Lemma ok_prefix b s t : plain b (s ++ t) = true -> plain b s = true.
Proof. rewrite plain_app. intros H. apply andb_true_iff in H. apply H. Qed.

Lemma ok_infix s a m b : s = a ++ m ++ b -> ok s -> ok m.
Proof. intros -> H. cbv beta in *. apply ok_suffix in H. eapply ok_prefix; exact H. Qed.

Lemma ok_app s t : clean s -> ok t -> ok (s ++ t).
Proof. intros [H1 H2] H3. cbv beta in *. rewrite plain_app, H1, H2. exact H3. Qed.

Lemma clean_app s t : clean s -> clean t -> clean (s ++ t).
Proof.
  intros H [H1 H2]. split; [apply ok_app; assumption|]. destruct H as [_ H]. rewrite ends_app, H. exact H2.
Qed.

Lemma clean_nil : clean [].
Proof. split; reflexivity. Qed.

Lemma nonspace_after b c : is_space c = false -> after b c = false.
Proof. intros H. unfold after. rewrite H, andb_false_r. reflexivity. Qed.

Lemma clean_snoc s c : is_space c = false -> ok (s ++ [c]) -> clean (s ++ [c]).
Proof.
  intros Hc H. split; [exact H|]. rewrite ends_app. cbn [ends]. apply nonspace_after. exact Hc.
Qed.

Lemma clean_one c : is_space c = false -> clean [c].
Proof. intros H. apply (clean_snoc [] c H). cbn. rewrite andb_false_r. reflexivity. Qed.

Lemma clean_sp : clean [c_sp].
Proof. split; reflexivity. Qed.
Lemma clean_nl : clean [c_nl].
Proof. split; reflexivity. Qed.

Lemma ok_nl b s : plain b s = true -> plain b (s ++ [c_nl]) = true.
Proof. intros H. rewrite plain_app, H. reflexivity. Qed.

(** No [>]. *)
Lemma ok_free b s : Forall (fun c => c <> c_gt) s -> plain b s = true.
Proof.
  intros H. revert b. induction H as [|c s Hc H IH]; intros b; [reflexivity|]. cbn [plain].
  apply N.eqb_neq in Hc. rewrite Hc, IH. reflexivity.
Qed.

Lemma rep_free c n : c <> c_gt -> Forall (fun c => c <> c_gt) (rep c n).
Proof. intros H. apply Forall_rep. exact H. Qed.

Lemma ok_tail s t : ok s -> Forall (fun c => c <> c_gt) t -> ok (s ++ t).
Proof. intros H1 H2. cbv beta. rewrite plain_app, H1. apply ok_free. exact H2. Qed.

Lemma clean_nospace s : Forall (fun c => is_space c = false) s -> clean s.
Proof.
  induction 1 as [|c s Hc H IH]; [apply clean_nil|]. apply (clean_app [c] s); [|exact IH].
  apply clean_one. exact Hc.
Qed.

Lemma clean_rep c n : is_space c = false -> clean (rep c n).
Proof. intros H. apply clean_nospace, Forall_rep. exact H. Qed.

Lemma clean_spaces n : clean (rep c_sp n).
Proof. induction n as [|n IH]; [apply clean_nil|]. apply (clean_app [c_sp]); [apply clean_sp|exact IH]. Qed.

Lemma ok_rep_any c n : ok (rep c n).
Proof.
  cbv beta. destruct (N.eqb c c_gt) eqn:E.
  - apply N.eqb_eq in E. subst c. apply clean_rep. reflexivity.
  - apply ok_free, rep_free. apply N.eqb_neq. exact E.
Qed.

(** ** Pieces of a text *)

Lemma ok_skipn n s : ok s -> ok (skipn n s).
Proof. intros H. apply (ok_suffix false (firstn n s)). rewrite firstn_skipn. exact H. Qed.
Lemma ok_firstn b n s : plain b s = true -> plain b (firstn n s) = true.
Proof. intros H. apply (ok_prefix b _ (skipn n s)). rewrite firstn_skipn. exact H. Qed.
Lemma ok_slice s a b : ok s -> ok (slice s a b).
Proof. intros H. apply ok_firstn, ok_skipn. exact H. Qed.
Lemma ok_tl s : ok s -> ok (tl s).
Proof. intros H. destruct s as [|c s]; [exact H|]. apply (ok_suffix false [c] s). exact H. Qed.
Lemma ok_lstrip p s : ok s -> ok (lstrip_by p s).
Proof.
  intros H. destruct (lstrip_by_spec p s) as (pre & E & _). rewrite E in H.
  eapply ok_suffix. exact H.
Qed.
Lemma ok_rstrip b p s : plain b s = true -> plain b (rstrip_by p s) = true.
Proof.
  intros H. destruct (rstrip_by_spec p s) as (post & E & _). rewrite E in H.
  eapply ok_prefix. exact H.
Qed.
Lemma clean_rstrip b s : plain b s = true -> clean (rstrip s).
Proof.
  intros H. assert (G := plain_weaken _ _ (ok_rstrip b is_space s H)). fold (rstrip s) in G.
  destruct (rstrip s) as [|c r] eqn:E using rev_ind; [apply clean_nil|]. clear IHr.
  apply rstrip_by_last in E. apply clean_snoc; assumption.
Qed.
Lemma clean_strip s : ok s -> clean (strip s).
Proof. intros H. apply (clean_rstrip false). apply ok_lstrip. exact H. Qed.
Lemma okl_strip lines : okl lines -> Forall clean (map strip lines).
Proof. induction 1; cbn; constructor; auto using clean_strip. Qed.

Lemma ok_split_on c s : ok s -> okl (split_on c s).
Proof.
  intros H. cut (forall b, plain b s = true ->
    match split_on c s with [] => True | w :: ws => plain b w = true /\ okl ws end).
  { intros G. specialize (G false H). destruct (split_on c s); [constructor|]. constructor; tauto. }
  clear H. induction s as [|x s IH]; intros b H; cbn [split_on]; [auto|]. cbn [plain] in H.
  apply andb_true_iff in H. destruct H as [H1 H2]. specialize (IH _ H2).
  destruct (N.eqb x c).
  - split; [reflexivity|]. destruct (split_on c s); [constructor|]. destruct IH as [I1 I2].
    constructor; [eapply plain_weaken; exact I1|exact I2].
  - destruct (split_on c s).
    + split; [cbn; rewrite H1; reflexivity|constructor].
    + destruct IH as [I1 I2]. split; [cbn [plain]; rewrite H1; exact I1|exact I2].
Qed.

Lemma ok_split_on2 a b s : ok s -> okl (split_on2 a b s).
Proof.
  intros H. cut (forall n s i, length s <= n -> plain i s = true ->
    match split_on2 a b s with [] => True | w :: ws => plain i w = true /\ okl ws end).
  { intros G. specialize (G _ s false (le_n _) H). destruct (split_on2 a b s); [constructor|]. constructor; tauto. }
  clear s H. induction n as [|n IH]; intros s i L H.
  { destruct s; cbn in L; [cbn; auto|lia]. }
  destruct s as [|x [|y s]]; [cbn; auto|split; [exact H|constructor]|].
  rewrite split_on2_cons. destruct (N.eqb x a && N.eqb y b).
  - split; [reflexivity|]. assert (G : plain false s = true) by (apply (ok_suffix i [x; y]); exact H).
    specialize (IH s false ltac:(cbn in L; lia) G). destruct (split_on2 a b s); constructor; tauto.
  - cbn [plain] in H. apply andb_true_iff in H. destruct H as [H1 H2].
    specialize (IH (y :: s) _ ltac:(cbn in *; lia) H2). destruct (split_on2 a b (y :: s)).
    + split; [cbn; rewrite H1; reflexivity|constructor].
    + destruct IH as [I1 I2]. split; [cbn [plain]; rewrite H1; exact I1|exact I2].
Qed.

Lemma ok_split_unescaped e s : ok s -> okl (split_unescaped e s).
Proof.
  intros H. cut (forall e b, plain b s = true ->
    match split_unescaped e s with [] => True | w :: ws => plain b w = true /\ okl ws end).
  { intros G. specialize (G e false H). destruct (split_unescaped e s); [constructor|]. constructor; tauto. }
  clear e H. induction s as [|x s IH]; intros e b H; cbn [split_unescaped]; [auto|]. cbn [plain] in H.
  apply andb_true_iff in H. destruct H as [H1 H2].
  destruct (N.eqb x c_bar && negb e).
  - split; [reflexivity|]. specialize (IH false _ H2). destruct (split_unescaped false s); [constructor|].
    destruct IH as [I1 I2]. constructor; [eapply plain_weaken; exact I1|exact I2].
  - specialize (IH (N.eqb x c_bslash) _ H2). destruct (split_unescaped (N.eqb x c_bslash) s).
    + split; [cbn; rewrite H1; reflexivity|constructor].
    + destruct IH as [I1 I2]. split; [cbn [plain]; rewrite H1; exact I1|exact I2].
Qed.

Lemma ok_splitlines s : ok s -> okl (splitlines s).
Proof.
  intros H. cut (forall b, plain b s = true ->
    match splitlines s with [] => True | w :: ws => plain b w = true /\ okl ws end).
  { intros G. specialize (G false H). destruct (splitlines s); [constructor|]. constructor; tauto. }
  clear H. induction s as [|x s IH IH2] using splitlines_ind_aux; intros b H; [cbn; auto|].
  assert (W : forall t, (forall b, plain b t = true ->
      match splitlines t with [] => True | w :: ws => plain b w = true /\ okl ws end) ->
      plain false t = true -> okl (splitlines t)).
  { intros t G Ht. specialize (G false Ht). destruct (splitlines t); [constructor|]. constructor; tauto. }
  cbn [plain] in H. apply andb_true_iff in H. destruct H as [H1 H2]. cbn [splitlines].
  destruct (is_linebreak x).
  - destruct s as [|d s]; [split; [reflexivity|constructor]|].
    destruct (N.eqb x c_cr && N.eqb d c_nl); (split; [reflexivity|]).
    + apply W; [exact (IH2 d s eq_refl)|]. eapply (ok_suffix _ [d]). exact H2.
    + apply W; [exact IH|]. eapply plain_weaken. exact H2.
  - specialize (IH _ H2). destruct (splitlines s).
    + split; [cbn; rewrite H1; reflexivity|constructor].
    + destruct IH as [I1 I2]. split; [cbn [plain]; rewrite H1; exact I1|exact I2].
Qed.

(** ** Joining *)

Lemma ok_join_nl k lines : okl lines -> ok (str_join ([c_nl] ++ rep c_sp k) lines).
Proof.
  intros H. induction H as [|l ls Hl H IH]; [reflexivity|]. destruct ls as [|m ls]; [exact Hl|].
  change (str_join ([c_nl] ++ rep c_sp k) (l :: m :: ls))
    with (l ++ ([c_nl] ++ rep c_sp k) ++ str_join ([c_nl] ++ rep c_sp k) (m :: ls)).
  cbv beta in *. rewrite <- app_assoc. rewrite plain_app, Hl. cbn [andb app plain].
  change (after (ends false l) c_nl) with false. change (N.eqb c_nl c_gt) with false. cbn [andb negb].
  apply ok_app; [apply clean_spaces|exact IH].
Qed.

Lemma ok_lines lines : okl lines -> ok (str_join [c_nl] lines).
Proof. apply (ok_join_nl 0). Qed.

Lemma clean_join_sp lines : Forall clean lines -> clean (str_join [c_sp] lines).
Proof.
  intros H. induction H as [|l ls Hl H IH]; [apply clean_nil|]. destruct ls as [|m ls]; [exact Hl|].
  change (str_join [c_sp] (l :: m :: ls)) with (l ++ [c_sp] ++ str_join [c_sp] (m :: ls)).
  apply clean_app; [exact Hl|]. apply clean_app; [apply clean_sp|exact IH].
Qed.

Lemma clean_ok s : clean s -> ok s.
Proof. intros H. apply H. Qed.

Lemma clean_words s : Forall clean (words s).
Proof.
  assert (H := ProofsLines.words_not_space s). eapply Forall_impl; [|exact H].
  intros w (_ & _ & Hw). apply clean_nospace. exact Hw.
Qed.

(** ** Wrapping *)

Lemma okt_app_last ts x : okt ts -> (forall s, clean s -> clean (s ++ x)) -> okt (app_last ts x).
Proof.
  intros H Hx. induction H as [|t ts Ht Hts IH]; cbn; [constructor|].
  destruct ts; constructor; auto. cbn. auto.
Qed.

Lemma okt_dot ts : okt ts -> okt (app_last ts [c_dot]).
Proof.
  intros H. apply okt_app_last; [exact H|]. intros s Hs. apply clean_app; [exact Hs|].
  apply clean_one. reflexivity.
Qed.

Lemma okt_eval_last ts : okt ts -> okt (eval_last ts).
Proof.
  intros H. induction H as [|t ts Ht Hts IH]; cbn; [constructor|]. destruct ts; constructor; auto.
Qed.

Lemma okt_snoc ts t : okt ts -> clean (t_text t) -> okt (ts ++ [t]).
Proof. intros. apply Forall_app. auto. Qed.

(** A piece that ends where a nonblank character is. *)
Lemma clean_slice s a e c : ok s -> nth_error s e = Some c -> is_space c = false -> clean (slice s a (S e)).
Proof.
  intros H Hc Hs. assert (G := ok_slice s a (S e) H). destruct (Nat.le_gt_cases (S e) a) as [L|L].
  { unfold slice. replace (S e - a) with 0 by lia. apply clean_nil. }
  assert (E : slice s a (S e) = slice s a e ++ [c]).
  { unfold slice. replace (S e - a) with (S (e - a)) by lia.
    assert (N : nth_error (skipn a s) (e - a) = Some c).
    { rewrite <- Hc. clear -L. revert a e L. induction s as [|x s IH]; intros [|a] [|e] L; cbn; try lia; auto.
      - destruct (e - a); reflexivity.
      - apply IH. lia. }
    clear -N. revert N. generalize (e - a) (skipn a s). intros n. induction n as [|n IH]; intros [|x l] N;
      cbn in *; try discriminate; [congruence|]. f_equal. auto. }
  rewrite E in *. apply clean_snoc; assumption.
Qed.

Lemma okt_code_step text ls st m : ok text -> In m (finditer INLINE_CODE_MARKER_REGEX text) ->
  okt (fst (fst st)) -> okt (fst (fst (code_step text ls st m))).
Proof.
  intros Ht Hm Hst. destruct st as [[ts oml] le], m as [ms me]. cbn [fst] in *.
  unfold code_step. destruct (oml =? 0) eqn:E0; [|destruct (me - ms =? oml)]; cbn [fst].
  - set (p := slice text le ms).
    assert (Hp : ok p) by (apply ok_slice; auto).
    destruct (one_dot p && negb (nilb ts)); [set (ts0 := app_last ts [c_dot])|set (ts0 := ts)];
      (assert (H0 : okt ts0) by (subst ts0; auto using okt_dot));
      [set (q := tl p)|set (q := p)];
      (assert (Hq : ok q) by (subst q; auto using ok_tl));
      (destruct (negb (blank q)); cbn [fst]; apply okt_snoc; cbn [t_text];
       [apply okt_snoc; cbn [t_text]; auto using clean_strip|apply clean_rep; reflexivity
       |exact H0|apply clean_rep; reflexivity]).
  - apply okt_app_last; [exact Hst|]. intros s Hs. assert (Hc := ok_slice text le ms Ht). cbv beta in Hc.
    destruct oml as [|oml]; [discriminate|].
    assert (R : rep c_bt (S oml) = rep c_bt oml ++ [c_bt]).
    { clear. unfold rep. induction oml as [|n IH]; [reflexivity|]. cbn [repeat app] in *. rewrite <- IH. reflexivity. }
    rewrite R. rewrite !app_assoc. apply clean_snoc; [reflexivity|]. rewrite <- app_assoc. rewrite <- R.
    apply ok_tail; [apply ok_app; assumption|]. apply rep_free. discriminate.
  - apply okt_app_last; [exact Hst|]. intros s Hs. apply clean_app; [exact Hs|].
    apply finditer_In in Hm. destruct Hm as (x & g & y & -> & Hg & Hd & -> & ->).
    destruct (exists_last Hg) as (g' & c & ->). rewrite app_length. cbn [length].
    replace (length x + (length g' + 1)) with (S (length x + length g')) by lia.
    apply (clean_slice _ _ _ c); [exact Ht| |].
    + rewrite !app_assoc. rewrite <- app_assoc. rewrite nth_error_app2 by (rewrite app_length; lia).
      rewrite app_length, Nat.sub_diag. reflexivity.
    + destruct Hd as (d & s' & E & Hd & a & b & -> & Ha & ->). rewrite app_nil_r in E.
      assert (A : Forall (fun c => N.eqb c_bt c = true) (g' ++ [c])) by (rewrite E; constructor; assumption).
      apply Forall_app in A. destruct A as [_ A]. inversion A as [|? ? Hc _]; subst.
      apply N.eqb_eq in Hc. subst c. reflexivity.
Qed.

Lemma okt_split_tail ts rt le ls r : okt ts -> ok rt -> split_tail ts rt le ls = Ok r -> okt r.
Proof.
  intros Hts Hrt H. unfold split_tail in H. bind_inv H. destruct a as [ts' rt'].
  assert (G : okt ts' /\ ok rt').
  { destruct (one_dot rt).
    - destruct ts as [|t ts]; [discriminate|].
      apply ok_inj, pair_equal_spec in E. destruct E as [<- <-].
      split; [apply okt_dot; assumption|apply ok_tl; assumption].
    - inv E. auto. }
  destruct G as [G1 G2]. destruct (negb (blank rt')); inv H; [|exact G1].
  apply okt_snoc; [exact G1|]. cbn. apply clean_strip. exact G2.
Qed.

Lemma okt_code_split text ls r : ok text -> code_split text ls = Ok r -> okt r.
Proof.
  intros Ht H. unfold code_split in H.
  assert (G : forall ms st, (forall m, In m ms -> In m (finditer INLINE_CODE_MARKER_REGEX text)) ->
            okt (fst (fst st)) -> okt (fst (fst (fold_left (code_step text ls) ms st)))).
  { induction ms as [|m ms IH]; intros st Hin Hst; cbn; [exact Hst|].
    apply IH; [intros x Hx; apply Hin; right; exact Hx|].
    apply okt_code_step; auto. apply Hin. left. reflexivity. }
  specialize (G (finditer INLINE_CODE_MARKER_REGEX text) ([], 0, 0) ltac:(auto) ltac:(constructor)).
  destruct (fold_left _ _ _) as [[ts oml] le]. cbn [fst] in G.
  assert (Hsk : ok (skipn le text)) by (apply ok_skipn; auto).
  destruct (negb (nilb ts) && _).
  - destruct (negb (blank (skipn le text))); inv H; auto using okt_eval_last.
    apply okt_app_last; auto using okt_eval_last. intros s Hs. apply clean_app; [exact Hs|].
    eapply clean_rstrip. exact Hsk.
  - eapply okt_split_tail; [exact G|exact Hsk|exact H].
Qed.

Lemma ok_split_link g a b : ok g -> split_link g = Ok (a, b) -> clean a /\ clean b.
Proof.
  intros Hg H. unfold split_link in H.
  destruct (contains [c_rbr; c_lpar] g).
  - assert (Hs := ok_split_on2 c_rbr c_lpar g Hg).
    destruct (split_on2 c_rbr c_lpar g) as [|x [|y l]]; [discriminate|discriminate|].
    injection H as <- <-. inv Hs. inv H2. split; [|apply clean_strip; auto].
    apply clean_app; [apply clean_strip; auto|]. split; reflexivity.
  - assert (Hs := ok_split_on2 c_rbr c_lbr g Hg).
    destruct (split_on2 c_rbr c_lbr g) as [|x [|y l]]; [discriminate|discriminate|].
    injection H as <- <-. inv Hs. inv H2. split; [|apply clean_strip; auto].
    apply clean_app; [apply clean_strip; auto|]. split; reflexivity.
Qed.

Lemma okt_link_step text ls st m st' :
  ok text -> okt (fst st) -> link_step text ls st m = Ok st' -> okt (fst st').
Proof.
  intros Ht Hst H. destruct st as [ts le], m as [ms me]. cbn [fst] in Hst.
  unfold link_step in H.
  set (n := slice text le ms) in *.
  assert (Hn : ok n) by (apply ok_slice; auto).
  match type of H with (let '(a, b) := ?x in _) = _ => destruct x as [ts1 lead] eqn:E end.
  assert (G : okt ts1).
  { destruct (negb (blank n)); [|inv E; exact Hst].
    injection E as <- <-.
    destruct (negb (nilb ts) && one_dot n); apply okt_snoc; cbn [t_text];
      auto using okt_dot, clean_strip, ok_tl. }
  bind_inv H. destruct a as [a b].
  apply ok_split_link in E0; [|apply ok_slice; auto]. destruct E0 as [Ha Hb].
  ok_subst H. cbn [fst]. apply Forall_app. split; [exact G|]. auto.
Qed.

Lemma okt_link_split text ls r : ok text -> link_split text ls = Ok r -> okt r.
Proof.
  intros Ht H. unfold link_split in H. bind_inv H. destruct a as [ts le].
  assert (G : forall ms st st', okt (fst st) ->
            foldM (link_step text ls) ms st = Ok st' -> okt (fst st')).
  { induction ms as [|m ms IH]; intros st st' Hst Hf; cbn in Hf.
    - inv Hf. exact Hst.
    - bind_inv Hf. eapply IH; [|exact Hf]. eapply okt_link_step; eauto. }
  apply G in E; [|constructor]. cbn [fst] in E.
  eapply okt_split_tail; [exact E| |exact H]. apply ok_skipn. exact Ht.
Qed.

Lemma clean_break text a b : ok text -> In (a, b) (finditer HTML_NEWLINE_REGEX text) -> clean (slice text a b).
Proof.
  intros Ht H. assert (Hs := ok_slice text a b Ht). apply finditer_In in H.
  destruct H as (x & g & y & -> & _ & Hd & -> & ->). rewrite slice_mid in *.
  destruct Hd as (c1 & s1 & -> & _ & c2 & s2 & -> & _ & c3 & s3 & -> & _ & a1 & b1 & -> & _ & _
    & a2 & b2 & -> & _ & _ & c & s4 & -> & Hc & ->). apply N.eqb_eq in Hc. subst c.
  change (c1 :: c2 :: c3 :: a1 ++ a2 ++ [c_gt]) with ([c1; c2; c3] ++ a1 ++ a2 ++ [c_gt]) in *.
  rewrite !app_assoc in *. apply clean_snoc; [reflexivity|exact Hs].
Qed.

Lemma okt_newline_step text ls st m : ok text -> In m (finditer HTML_NEWLINE_REGEX text) ->
  okt (fst st) -> okt (fst (newline_step text ls st m)).
Proof.
  intros Ht Hm Hst. destruct st as [ts le], m as [ms me]. cbn [fst] in Hst.
  assert (Hb := clean_break text ms me Ht Hm). unfold newline_step.
  destruct (negb (blank (slice text le ms))); cbn [fst]; apply Forall_app; split; auto.
  constructor; [cbn; apply clean_strip, ok_slice; exact Ht|]. constructor; [exact Hb|constructor].
Qed.

Lemma okt_newline_split text ls r : ok text -> newline_split text ls = Ok r -> okt r.
Proof.
  intros Ht H. unfold newline_split in H.
  assert (G : forall ms st, (forall m, In m ms -> In m (finditer HTML_NEWLINE_REGEX text)) ->
            okt (fst st) -> okt (fst (fold_left (newline_step text ls) ms st))).
  { induction ms as [|m ms IH]; intros st Hin Hst; cbn; [exact Hst|].
    apply IH; [intros x Hx; apply Hin; right; exact Hx|].
    apply okt_newline_step; auto. apply Hin. left. reflexivity. }
  specialize (G (finditer HTML_NEWLINE_REGEX text) ([], 0) ltac:(auto) ltac:(constructor)).
  destruct (fold_left _ _ _) as [ts le]. cbn [fst] in G.
  destruct (negb (blank (skipn le text))); inv H; [|exact G].
  apply okt_snoc; [exact G|]. cbn. apply clean_strip, ok_skipn. exact Ht.
Qed.

Lemma okt_space_split text ls r : ok text -> space_split text ls = Ok r -> okt r.
Proof.
  intros Ht H. unfold space_split in H. ok_subst H.
  assert (G : forall ws ts, okl ws -> okt ts -> okt (fold_left (space_step ls) ws ts)).
  { induction ws as [|w ws IH]; intros ts Hw Hts; cbn; [exact Hts|]. inv Hw.
    apply IH; auto. unfold space_step. destruct (nilb w); [exact Hts|].
    apply okt_snoc; [exact Hts|]. cbn. apply clean_strip. assumption. }
  apply G; [|constructor]. apply ok_split_on. exact Ht.
Qed.

Lemma okt_split_pass f ts r :
  (forall text ls x, ok text -> f text ls = Ok x -> okt x) ->
  okt ts -> split_pass f ts = Ok r -> okt r.
Proof.
  intros Hf Hts H. unfold split_pass in H. bind_inv H. ok_subst H.
  apply mapM_ok in E. induction E as [|t x ts xs Hx E IH]; cbn; [constructor|].
  inversion Hts as [|? ? Ht Hts']; subst. apply Forall_app. split; [|auto].
  destruct (t_eval t); [eapply Hf; [|exact Hx]; apply Ht|]. inv Hx. auto.
Qed.

Lemma ok_join ts w : okt ts -> ok (join ts w).
Proof.
  intros H. unfold join.
  assert (G : forall ts st, okt ts -> Forall clean (fst st) -> clean (snd st) ->
            Forall clean (fst (fold_left (join_step w) ts st))
            /\ clean (snd (fold_left (join_step w) ts st))).
  { clear ts H. induction ts as [|t ts IH]; intros st Hts H1 H2; cbn; [auto|].
    inversion Hts as [|? ? Ht Hts']; subst. destruct st as [done cur]. cbn [fst snd] in *.
    assert (Hpot : clean (if t_lead t && negb (nilb cur) then cur ++ [c_sp] ++ t_text t
                       else cur ++ t_text t)).
    { destruct (t_lead t && negb (nilb cur)); auto using clean_app, clean_sp. }
    apply IH; auto; unfold join_step;
      destruct (len_le _ w || nilb cur || width_nonpos w);
      destruct (is_html_newline (t_text t)); cbn [fst snd];
      repeat (apply Forall_app; split); auto using clean_nil. }
  destruct (G ts ([], []) H ltac:(constructor) clean_nil) as [G1 G2].
  destruct (fold_left (join_step w) ts ([], [])) as [done cur]. cbn [fst snd] in *.
  apply ok_lines. eapply Forall_impl; [apply clean_ok|]. destruct (nilb cur); [exact G1|].
  apply Forall_app. auto.
Qed.

Lemma ok_wrap text w r : ok text -> wrap text w = Ok r -> ok r.
Proof.
  intros Ht H. unfold wrap in H.
  set (t0 := str_join [c_sp] (map strip (splitlines text))) in *.
  assert (H0 : clean t0) by (apply clean_join_sp, okl_strip, ok_splitlines; exact Ht).
  bind_inv H. bind_inv H. bind_inv H. bind_inv H. ok_subst H. apply ok_join.
  eapply okt_split_pass; [exact okt_space_split| |eassumption].
  eapply okt_split_pass; [exact okt_newline_split| |eassumption].
  eapply okt_split_pass; [exact okt_link_split| |eassumption].
  eapply okt_split_pass; [exact okt_code_split| |eassumption].
  constructor; [exact H0|constructor].
Qed.

(** ** Leaf formatters *)

Lemma ok_fmt_atx lines r : okl lines -> fmt_atx_heading lines = Ok r -> ok r.
Proof.
  intros H E. destruct lines as [|l ls]; [discriminate|]. inv H. ok_subst E.
  apply ok_app; [apply clean_rep; reflexivity|]. apply ok_app; [apply clean_sp|].
  apply clean_ok, clean_strip, ok_lstrip, clean_ok, clean_strip. assumption.
Qed.

Lemma okl_rstrip lines : okl lines -> okl (map rstrip lines).
Proof. induction 1; cbn [map]; constructor; auto. apply ok_rstrip. assumption. Qed.

Lemma ok_fmt_indented lines r : okl lines -> fmt_indented_code_block lines = Ok r -> ok r.
Proof. intros H E. ok_subst E. apply ok_lines, okl_rstrip. exact H. Qed.

Lemma first_nonspace s c : first_char (strip s) = Ok c -> is_space c = false.
Proof. intros E. destruct (strip s) as [|d s'] eqn:Es; inv E. eapply strip_head; exact Es. Qed.

Lemma ok_fmt_fenced lines r : okl lines -> fmt_fenced_code_block lines = Ok r -> ok r.
Proof.
  intros H E. destruct lines as [|l ls]; [discriminate|].
  cbn [fmt_fenced_code_block] in E. bind_inv E. ok_subst E. apply first_nonspace in E0.
  assert (Hl : ok l) by (inv H; auto).
  apply ok_lines, okl_rstrip. apply Forall_app. split; [|apply Forall_app; split].
  - constructor; [|constructor]. apply ok_app; [apply clean_rep; exact E0|].
    apply clean_ok, clean_strip, ok_lstrip, clean_ok, clean_strip. exact Hl.
  - apply Forall_inner. exact H.
  - constructor; [|constructor]. apply ok_rep_any.
Qed.

Lemma ok_fmt_thematic lines w r : fmt_thematic_break lines w = Ok r -> ok r.
Proof.
  intros E. destruct lines as [|l ls]; [destruct w; discriminate|].
  destruct w; cbn [fmt_thematic_break] in E; try discriminate; bind_inv E; ok_subst E; apply ok_rep_any.
Qed.

Lemma ok_fmt_paragraph lines w r : okl lines -> fmt_paragraph lines w = Ok r -> ok r.
Proof.
  intros H E. unfold fmt_paragraph in E. bind_inv E.
  apply ok_wrap in E0; [|apply clean_ok, clean_join_sp, okl_strip; exact H].
  destruct (rev lines); [discriminate|]. ok_subst E.
  destruct (endswith _ _); [|exact E0]. apply ok_tail; [exact E0|].
  repeat constructor; discriminate.
Qed.

Lemma ok_app_nl s t : ok s -> ok t -> ok (s ++ [c_nl] ++ t).
Proof. intros H1 H2. cbv beta in *. rewrite plain_app, H1. exact H2. Qed.

Lemma ok_fmt_setext lines w r : okl lines -> fmt_setext_heading lines w = Ok r -> ok r.
Proof.
  intros H E. unfold fmt_setext_heading in E. destruct (length lines <? 2); [discriminate|].
  bind_inv E. bind_inv E. bind_inv E. ok_subst E.
  apply ok_wrap in E0; [|apply clean_ok, clean_join_sp, okl_strip, Forall_removelast; exact H].
  apply ok_app_nl; [exact E0|]. apply ok_rep_any.
Qed.

Lemma defined content : section_shape LINK_REFERENCE_DEFINITION content ->
  exists label parts, defines content label parts.
Proof.
  intros (l & rest & -> & (ws & label & body & -> & Hw & _ & Hl & Hn)).
  exists label. eexists. exists ws, body, rest. repeat split; auto; apply Hn.
Qed.

Lemma ok_fmt_lrd lines w r : Forall one_line lines -> section_shape LINK_REFERENCE_DEFINITION lines ->
  okl lines -> fmt_link_reference_definition lines w = Ok r -> ok r.
Proof.
  intros Ho Sh H E. destruct (defined _ Sh) as (name & parts & D). unfold fmt_link_reference_definition in E.
  rewrite (lrd_parts_spec _ _ _ Ho D) in E. cbn [bind] in E.
  destruct D as (ws & body & rest & -> & _ & _ & _ & Hp).
  assert (Hname : ok name /\ one_line name).
  { assert (H1 := Forall_inv H). assert (H2 := Forall_inv Ho). cbv beta in H1. split.
    - eapply (ok_infix _ (ws ++ [c_lbr]) name (c_rbr :: c_colon :: body)); [|exact H1].
      rewrite <- app_assoc. reflexivity.
    - apply Forall_app in H2. destruct H2 as [_ H2]. apply Forall_inv_tail in H2.
      apply Forall_app in H2. apply H2. }
  destruct Hname as [Hname Hone].
  assert (Hparts : Forall (fun p => Forall (fun c => is_space c = false) p) parts).
  { rewrite Hp. eapply Forall_impl; [|apply ProofsLines.words_not_space]. intros p Hw. apply Hw. }
  set (link := hd [] parts) in *. set (title := str_join [c_sp] (tl parts)) in *.
  assert (Hlink : Forall (fun c => is_space c = false) link).
  { unfold link. destruct Hparts; [constructor|assumption]. }
  assert (Htitle : clean title).
  { unfold title. apply clean_join_sp. eapply Forall_impl; [apply clean_nospace|]. apply Forall_tl. exact Hparts. }
  clearbody link title. clear Hp Hparts.
  set (st := [c_lbr] ++ name ++ [c_rbr; c_colon]) in *.
  assert (Hst : clean st).
  { unfold st. apply clean_app; [apply clean_one; reflexivity|].
    replace (name ++ [c_rbr; c_colon]) with ((name ++ [c_rbr]) ++ [c_colon]) by (rewrite <- app_assoc; reflexivity).
    apply clean_snoc; [reflexivity|]. rewrite <- app_assoc. apply ok_tail; [exact Hname|].
    repeat constructor; discriminate. }
  assert (Host : one_line st).
  { unfold st, one_line. apply Forall_app. split; [repeat constructor|]. apply Forall_app. split; [exact Hone|repeat constructor]. }
  assert (Nst : st <> []) by discriminate. clearbody st.
  destruct (nilb link) eqn:Nl; [ok_subst E; apply clean_ok; exact Hst|]. bind_inv E. rename a into l0.
  assert (Holink : one_line link).
  { eapply Forall_impl; [|exact Hlink]. intros c Hc. destruct (is_linebreak c) eqn:Eb; [|reflexivity].
    apply linebreak_space in Eb. congruence. }
  assert (G : forall i s,
      (if contains link l0 then (0, st ++ [c_sp] ++ link) else (1, st ++ [c_nl] ++ link))
      = (i, s) -> ok s /\ clean (last (splitlines s) []) /\ okl (removelast (splitlines s))).
  { intros i s Es. destruct (contains link l0); injection Es as <- <-.
    - rewrite splitlines_single.
      + assert (C : clean (st ++ [c_sp] ++ link)) by auto using clean_app, clean_sp, clean_nospace.
        cbn [last removelast]. split; [apply clean_ok; exact C|]. split; [exact C|constructor].
      + apply Forall_app. split; [exact Host|]. constructor; [reflexivity|exact Holink].
      + destruct st; discriminate.
    - cbn [app]. rewrite splitlines_app_nl by exact Host. rewrite splitlines_single;
        [|exact Holink|intros ->; discriminate].
      cbn [last removelast]. split; [|split].
      + apply (ok_app_nl st link); [apply clean_ok; exact Hst|apply clean_ok, clean_nospace; exact Hlink].
      + apply clean_nospace. exact Hlink.
      + constructor; [apply clean_ok; exact Hst|constructor]. }
  destruct (if contains link l0 then _ else _) as [li s]. destruct (G _ _ eq_refl) as (G1 & G2 & G3).
  destruct (words title) as [|fw fws]; [ok_subst E; exact G1|]. bind_inv E.
  destruct (contains fw a).
  - destruct (len_le _ w).
    + bind_inv E. ok_subst E. apply ok_wrap in E2.
      * apply ok_lines. apply Forall_app. split; [exact G3|]. constructor; [exact E2|constructor].
      * apply ok_app; [exact G2|]. apply ok_app; [apply clean_sp|apply clean_ok; exact Htitle].
    + bind_inv E. ok_subst E. apply ok_wrap in E2; [|apply clean_ok; exact Htitle].
      apply (ok_app_nl [] _); [reflexivity|exact E2].
  - bind_inv E. ok_subst E. apply ok_wrap in E2; [|apply clean_ok; exact Htitle].
    apply ok_app_nl; [exact G1|exact E2].
Qed.

(** ** Tables *)

Lemma clean_pad t n : clean t -> clean (center_align t n) /\ clean (left_align t n) /\ clean (right_align t n).
Proof.
  intros H. unfold center_align, left_align, right_align. auto using clean_app, clean_spaces.
Qed.

Lemma clean_row cells : Forall clean cells -> clean (table_row cells).
Proof.
  intros H. unfold table_row. assert (B : clean [c_bar]) by (apply clean_one; reflexivity).
  apply clean_app; [exact B|]. apply clean_app; [|exact B].
  induction H as [|c cs Hc H IH]; [apply clean_nil|]. destruct cs as [|d cs]; [exact Hc|].
  change (str_join [c_bar] (c :: d :: cs)) with (c ++ [c_bar] ++ str_join [c_bar] (d :: cs)).
  auto using clean_app.
Qed.

Lemma clean_header_cell c wa : ok c -> clean (header_cell (c, wa)).
Proof.
  intros H. destruct wa as [n a]. unfold header_cell. apply clean_strip in H.
  destruct (clean_pad _ n H) as (P1 & P2 & P3).
  apply clean_app; [apply clean_sp|]. apply clean_app; [|apply clean_sp]. destruct a; assumption.
Qed.
Lemma clean_body_cell c wa : ok c -> clean (body_cell (c, wa)).
Proof.
  intros H. destruct wa as [n a]. unfold body_cell. apply clean_strip in H.
  destruct (clean_pad _ n H) as (P1 & P2 & P3).
  apply clean_app; [apply clean_sp|]. apply clean_app; [|apply clean_sp]. destruct a; assumption.
Qed.
Lemma clean_divider_cell wa : clean (divider_cell wa).
Proof.
  destruct wa as [n a]. unfold divider_cell.
  assert (D : clean (rep c_dash n)) by (apply clean_rep; reflexivity).
  assert (D1 : clean [c_dash]) by (apply clean_one; reflexivity).
  assert (D2 : clean [c_colon]) by (apply clean_one; reflexivity).
  destruct a; auto using clean_app.
Qed.

Lemma ok_fmt_table i lines r : okl lines -> fmt_table i lines = Ok r -> ok r.
Proof.
  intros H E. destruct lines as [|h [|d body]]; try discriminate.
  unfold fmt_table in E. bind_inv E. ok_subst E.
  inversion H as [|? ? Hh H']; subst. inversion H' as [|? ? Hd Hb]; subst.
  apply ok_lines. eapply Forall_impl; [apply clean_ok|]. constructor; [|constructor].
  - apply clean_row. apply Forall_map.
    assert (G := Forall_inner _ _ (ok_split_unescaped false h Hh)).
    eapply Forall_impl; [|apply zip2_fst; exact G].
    intros [c wa] Hc. apply clean_header_cell. exact Hc.
  - apply clean_row. apply Forall_map. apply Forall_forall.
    intros wa _. apply clean_divider_cell.
  - apply Forall_map. eapply Forall_impl; [|exact Hb]. intros l Hl. apply clean_row. apply Forall_map.
    assert (G := Forall_inner _ _ (ok_split_on c_bar l Hl)).
    eapply Forall_impl; [|apply zip2_fst; exact G].
    intros [c wa] Hc. apply clean_body_cell. exact Hc.
Qed.

(** ** Lists and block quotes *)

Lemma split_list_plain lines es : split_list lines = Ok es -> okl lines -> Forall okl es.
Proof.
  intros E H. unfold split_list in E. destruct lines as [|l ls]; [discriminate|].
  bind_inv E. bind_inv E. ok_subst E.
  assert (A : forall es l es', append_to_last es l = Ok es' -> Forall okl es -> ok l -> Forall okl es').
  { clear. induction es as [|e es IH]; intros l es' E H Hl; [discriminate|].
    cbn [append_to_last] in E. inversion H as [|? ? He Hes]; subst.
    destruct es as [|e2 es].
    - ok_subst E. constructor; [|constructor]. apply Forall_app. auto.
    - bind_inv E. ok_subst E. constructor; eauto. }
  assert (G : forall ls st st', okl ls -> foldM split_list_step ls st = Ok st' ->
            Forall okl (sl_entries st) -> Forall okl (sl_entries st')).
  { clear -A. induction ls as [|l ls IH]; intros st st' H E Hst; cbn in E.
    - ok_subst E. exact Hst.
    - bind_inv E. inversion H as [|? ? Hl Hls]; subst. eapply IH; [exact Hls|exact E|].
      unfold split_list_step in E0.
      match type of E0 with (let '(a, b) := ?x in _) = _ => destruct x as [ic ce] end.
      destruct (marker_end l) as [k|].
      + destruct (negb ic && (get_indent l <=? sl_max_indent st)).
        * ok_subst E0. cbn. apply Forall_app. auto.
        * bind_inv E0. ok_subst E0. cbn. eapply A; eauto.
      + bind_inv E0. ok_subst E0. cbn. eapply A; eauto. }
  eapply G; [exact H|exact E1|constructor].
Qed.

Lemma dedent_plain es ds : dedent_entries es = Ok ds -> Forall okl es -> Forall okl ds.
Proof.
  intros E H. unfold dedent_entries in E. apply mapM_ok in E.
  induction E as [|e d es ds Hd E IH]; [constructor|]. inversion H as [|? ? He Hes]; subst.
  constructor; [|auto].
  unfold dedent_entry in Hd. destruct e as [|l rest]; [discriminate|]. bind_inv Hd.
  injection Hd as <-. inversion He as [|? ? Hl Hrest]; subst. constructor; [apply ok_skipn; auto|].
  apply Forall_map. eapply Forall_impl; [|exact Hrest]. intros x Hx.
  destruct (lstrip_by_spec is_space (firstn (a + 1) x)) as (pre & Ep & _).
  apply (ok_suffix false pre). rewrite app_assoc. unfold lstrip. rewrite <- Ep, firstn_skipn. exact Hx.
Qed.

Section Nested.
  Variable nested : list str -> width -> res str.
  Hypothesis Hnested : forall lines w r, okl lines -> nested lines w = Ok r -> ok r.

  Lemma ok_format_entry prefix indent w entry r :
    clean prefix -> okl entry -> format_entry nested prefix indent w entry = Ok r -> ok r.
  Proof.
    intros Hp He E. unfold format_entry in E. bind_inv E. rewrite !with_redirect_ok in E0.
    apply Hnested in E0; [|exact He]. ok_subst E.
    apply ok_app; [exact Hp|]. apply ok_app; [apply clean_sp|].
    apply ok_join_nl, ok_split_on, ok_rstrip. exact E0.
  Qed.

  Lemma ok_fmt_bullet lines w r : okl lines -> fmt_bullet_list nested lines w = Ok r -> ok r.
  Proof.
    intros H E. unfold fmt_bullet_list in E.
    bind_inv E. bind_inv E. bind_inv E. bind_inv E. bind_inv E. ok_subst E.
    apply split_list_plain in E0; [|exact H]. apply dedent_plain in E1; [|exact E0].
    assert (Hm : is_space a2 = false).
    { destruct (lstrip a1) as [|c s] eqn:El; inv E3. eapply lstrip_by_head; exact El. }
    apply ok_lines. apply mapM_ok in E4. clear -E4 E1 Hm Hnested.
    induction E4 as [|x y xs ys Hy E4 IH]; [constructor|]. inversion E1; subst. constructor; [|auto].
    eapply ok_format_entry; [|eassumption|exact Hy]. apply clean_one. exact Hm.
  Qed.

  Lemma clean_dec n : clean (dec n).
  Proof.
    apply clean_nospace. unfold dec. generalize (N.to_uint n). intros u.
    induction u; cbn [uint_str]; constructor; auto.
  Qed.

  Lemma ok_fmt_ordered lines w r : okl lines -> fmt_ordered_list nested lines w = Ok r -> ok r.
  Proof.
    intros H E. unfold fmt_ordered_list in E.
    bind_inv E. bind_inv E. bind_inv E. bind_inv E. bind_inv E. ok_subst E.
    apply split_list_plain in E0; [|exact H]. apply dedent_plain in E3; [|exact E0].
    apply ok_lines. apply mapM_ok in E4.
    assert (G : Forall (fun ne => okl (snd ne)) (enumerate a1 a2)).
    { clear -E3. revert a1. induction E3; intros n; cbn; constructor; auto. }
    clear -E4 G Hnested.
    induction E4 as [|[n x] y xs ys Hy E4 IH]; [constructor|]. inversion G; subst. constructor; [|auto].
    eapply ok_format_entry; [|eassumption|exact Hy].
    apply clean_app; [apply clean_dec|apply clean_one; reflexivity].
  Qed.

  Lemma ok_fmt_block_quote lines w r : okl lines -> fmt_block_quote nested lines w = Ok r -> ok r.
  Proof.
    intros H E. unfold fmt_block_quote in E. bind_inv E. bind_inv E. ok_subst E.
    rewrite with_redirect_ok in E1. apply Hnested in E1.
    - apply ok_lines. apply Forall_map. eapply Forall_impl; [|apply ok_splitlines; exact E1].
      intros l Hl. apply clean_ok, clean_strip. apply ok_app; [|exact Hl].
      assert (P : clean (rep c_sp (Z.to_nat (Z.of_nat (length (lstrip a)) - Z.of_nat (length a))) ++ [c_gt])).
      { apply clean_app; [apply clean_spaces|apply clean_one; reflexivity]. }
      destruct (quote_has_space _); [apply clean_app; [exact P|apply clean_sp]|exact P].
    - assert (G : okl (map strip_quote_marker (fully_quote 0 lines))).
      { apply Forall_map.
        assert (F : okl (fully_quote 0 lines)).
        { generalize 0. clear -H. induction H as [|l ls Hl H IH]; intros d; cbn; [constructor|].
          destruct (is_explicit_block_quote_line l); constructor; auto.
          apply ok_app; [apply clean_rep; reflexivity|exact Hl]. }
        eapply Forall_impl; [|exact F]. intros l Hl. unfold strip_quote_marker.
        destruct (rmatch _ _); auto using ok_skipn. }
      destruct (quote_has_space _); [|exact G]. apply Forall_map. eapply Forall_impl; [|exact G].
      intros [|c l] Hl; [exact Hl|]. destruct (N.eqb c c_sp); [apply (ok_suffix false [c]); exact Hl|exact Hl].
  Qed.

  Lemma ok_reformatted ty i lines w r :
    ty = BLANK_LINE \/ (section_shape ty lines /\ Forall one_line lines /\ okl lines) ->
    reformatted nested ty i lines w = Ok r -> ok r.
  Proof.
    intros [->|(Sh & Ho & H)]; [cbn; intros E; ok_subst E; reflexivity|].
    destruct ty; cbn [reformatted]; intros E.
    - eapply ok_fmt_atx; eauto.
    - ok_subst E. reflexivity.
    - eapply ok_fmt_block_quote; eauto.
    - eapply ok_fmt_bullet; eauto.
    - eapply ok_fmt_fenced; eauto.
    - eapply ok_fmt_indented; eauto.
    - eapply ok_fmt_lrd; eauto.
    - eapply ok_fmt_ordered; eauto.
    - eapply ok_fmt_paragraph; eauto.
    - eapply ok_fmt_setext; eauto.
    - eapply ok_fmt_table; eauto.
    - eapply ok_fmt_thematic; eauto.
  Qed.
End Nested.

(** ** A whole pass *)

Lemma plain_pass lim text w r :
  okl (splitlines text) -> reformat_pass lim text w = Ok r -> ok r.
Proof.
  revert text w r. induction lim as [|lim IH]; intros text w r H E; [discriminate|].
  cbn [reformat_pass] in E. bind_inv E. bind_inv E. bind_inv E. ok_subst E.
  rewrite pep479_ok in E2. apply mapM_ok in E2. apply ok_nl, ok_lines.
  assert (Hn : forall lines w' r', okl lines ->
             reformat_pass lim (str_join [c_nl] lines ++ [c_nl]) w' = Ok r' -> ok r').
  { intros lines w' r' Hl. apply IH. apply ok_splitlines, ok_nl, ok_lines. exact Hl. }
  assert (F : forall ty i ls, In (ty, i, ls) a0 ->
    ty = BLANK_LINE \/ (section_shape ty ls /\ Forall one_line ls /\ okl ls)).
  { intros ty i ls Hin. apply (in_formatters _ _ _ _ _ _ _ E1) in Hin. destruct Hin as [Hin|Hin]; [auto|].
    right. assert (Hs := C10_section_shapes _ _ _ _ _ E0 Hin). apply parse_markdown_lossless in E0.
    destruct E0 as [E0 _]. apply in_split in Hin. destruct Hin as (s1 & s2 & ->).
    rewrite map_app, concat_app in E0. cbn [map concat snd] in E0.
    assert (Ho := splitlines_one_line text). rewrite <- E0 in *.
    split; [exact Hs|]. split; eapply Forall_infix; eassumption. }
  clear -E2 F Hn. induction E2 as [|[[ty i] ls] y fs ys Hy E2 IHf]; [constructor|].
  constructor; [|apply IHf; intros ty' i' ls' Hin; eapply F; right; exact Hin].
  eapply ok_reformatted; [exact Hn| |exact Hy]. apply (F ty i ls). left. reflexivity.
Qed.

(** ** Relation to the specification *)

Lemma after_true c : after true c = true -> is_space c = true.
Proof. unfold after. intros H. apply andb_true_iff in H. destruct H as [H _]. apply andb_true_iff in H. apply H. Qed.

Lemma ends_false_spaces b ws : one_line ws -> spaces ws -> ends b ws = false -> Forall (fun c => c = c_sp) ws.
Proof.
  intros Ho Hs. revert b. induction ws as [|c ws IH]; intros b H; [constructor|].
  inversion Ho as [|? ? Ho1 Ho2]; subst. inversion Hs as [|? ? Hs1 Hs2]; subst. cbn [ends] in H.
  constructor; [|exact (IH Ho2 Hs2 _ H)]. destruct (N.eqb c c_sp) eqn:Ec; [apply N.eqb_eq; exact Ec|].
  exfalso. unfold after in H at 1. rewrite Ho1, Hs1, Ec, orb_true_r in H. cbn [negb andb] in H.
  clear -H Ho2 Hs2. revert H. induction ws as [|d ws IH]; [discriminate|]. cbn [ends].
  inversion Ho2 as [|? ? Ho1 Ho3]; subst. inversion Hs2 as [|? ? Hs1 Hs3]; subst.
  unfold after at 1. rewrite Ho1, Hs1. cbn [negb andb orb]. auto.
Qed.

Lemma ends_true s : ends false s = true -> exists a ws, s = a ++ ws /\ spaces ws /\ ~ Forall (fun c => c = c_sp) ws.
Proof.
  induction s as [|c s IH] using rev_ind; [discriminate|]. rewrite ends_app. cbn [ends]. intros H.
  unfold after in H. apply andb_true_iff in H. destruct H as [H1 H2]. apply andb_true_iff in H1.
  destruct H1 as [_ H1]. apply orb_true_iff in H2. destruct H2 as [H2|H2].
  - destruct (IH H2) as (a & ws & -> & Hw & Hn). exists a, (ws ++ [c]). rewrite app_assoc.
    split; [reflexivity|]. split; [apply Forall_app; split; [exact Hw|constructor; [exact H1|constructor]]|].
    intros F. apply Hn. apply Forall_app in F. tauto.
  - exists s, [c]. split; [reflexivity|]. split; [constructor; [exact H1|constructor]|].
    intros F. inversion F as [|? ? F1 _]; subst. discriminate.
Qed.

Lemma plain_spec l : one_line l -> plain false l = true <-> plain_indent l.
Proof.
  intros Ho. split.
  - intros H a ws b -> Hw. rewrite !plain_app in H. apply andb_true_iff in H. destruct H as [_ H].
    apply andb_true_iff in H. destruct H as [_ H]. cbn [plain] in H. apply andb_true_iff in H.
    destruct H as [H _]. apply Forall_app in Ho. destruct Ho as [_ Ho]. apply Forall_app in Ho.
    eapply ends_false_spaces; [apply Ho|exact Hw|]. apply negb_true_iff in H. exact H.
  - intros H. cut (forall p s, l = p ++ s -> plain (ends false p) s = true); [intros G; apply (G [] l eq_refl)|].
    intros p s. revert p. induction s as [|c s IH]; intros p E; [reflexivity|]. cbn [plain].
    apply andb_true_iff. split.
    + apply negb_true_iff. destruct (N.eqb c c_gt) eqn:Ec; [|reflexivity]. cbn [andb].
      destruct (ends false p) eqn:Ep; [|reflexivity]. exfalso. apply N.eqb_eq in Ec. subst c.
      destruct (ends_true _ Ep) as (a & ws & -> & Hw & Hn). apply Hn. apply (H a ws s); [|exact Hw].
      rewrite E, <- app_assoc. reflexivity.
    + specialize (IH (p ++ [c])). rewrite ends_app in IH. apply IH. rewrite E, <- app_assoc. reflexivity.
Qed.

Lemma plain_indent_pass lim text w r :
  Forall plain_indent (splitlines text) -> reformat_pass lim text w = Ok r ->
  Forall plain_indent (splitlines r).
Proof.
  intros H E. assert (L := splitlines_one_line text). assert (L' := splitlines_one_line r).
  assert (G : ok r).
  { eapply plain_pass; [|exact E]. rewrite Forall_forall in *. intros l Hl. apply plain_spec; auto. }
  apply ok_splitlines in G. rewrite Forall_forall in *. intros l Hl. apply plain_spec; auto.
Qed.
