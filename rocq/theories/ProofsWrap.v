(** Proofs about TextWrap.v. *)
From Coq Require Import String.
From Verif Require Import Py Regex Utils TextWrap Base SpecLines ProofsLines ProofsRegex SpecWrap.

(** * [join] *)

Definition piece_of (t : tok) : piece := (t_text t, t_lead t).

Lemma fits_spec w n : len_le n w || width_nonpos w = true <-> fits w n.
Proof.
  destruct w as [z| |q]; cbn [len_le width_nonpos fits].
  - rewrite orb_true_iff, !Z.leb_le. tauto.
  - cbn. tauto.
  - rewrite orb_true_iff, !Qle_bool_iff. tauto.
Qed.

Lemma put_spec cur t :
  (if t_lead t && negb (nilb cur) then cur ++ [c_sp] ++ t_text t else cur ++ t_text t)
  = put cur (piece_of t).
Proof.
  destruct t as [text lead ev], cur as [|c cur], lead; reflexivity.
Qed.

Lemma html_newline_spec p : is_html_newline (fst p) = true <-> html_break p.
Proof.
  destruct p as [word lead]. cbn [fst]. unfold is_html_newline, html_break. cbn [fst].
  split.
  - destruct (rmatch HTML_NEWLINE_REGEX word) as [n|] eqn:E; [|discriminate]. intros _.
    apply rmatch_den in E. destruct E as [_ E]. exists (firstn n word), (skipn n word).
    split; [symmetry; apply firstn_skipn|]. revert E. generalize (firstn n word). intros s.
    unfold HTML_NEWLINE_REGEX, Is, Opt. cbn [den].
    intros (c1 & s1 & -> & E1 & c2 & s2 & -> & E2 & c3 & s3 & -> & E3 & a & b & -> & Ha & La
      & a' & b' & -> & Ha' & La' & c4 & s4 & -> & E4 & ->).
    repeat match goal with H : N.eqb _ _ = true |- _ => apply N.eqb_eq in H; subst end.
    destruct a as [|y [|y' a]]; destruct a' as [|z [|z' a']]; cbn [length] in *; try lia;
      repeat match goal with H : Forall _ (_ :: _) |- _ => inversion H; subst; clear H end;
      repeat match goal with H : N.eqb _ _ = true |- _ => apply N.eqb_eq in H; subst end;
      cbn; tauto.
  - intros (tag & t & -> & H). cbn in H.
    repeat destruct H as [<-|H]; try reflexivity. destruct H.
Qed.

Lemma line_of_snoc g p : line_of (g ++ [p]) = put (line_of g) p.
Proof. unfold line_of. rewrite fold_left_app. reflexivity. Qed.

(** Consecutive groups are separated for a reason. *)
Definition brk (w : width) (g g' : list piece) : Prop :=
  ends_in_break g \/ exists p g1, g' = p :: g1 /\ ~ fits w (length (put (line_of g) p)).

Definition breaks (w : width) (groups : list (list piece)) : Prop :=
  forall before g g' after, groups = before ++ g :: g' :: after -> brk w g g'.

Definition one_break (g : list piece) : Prop :=
  forall g1 p g2, g = g1 ++ p :: g2 -> html_break p -> g2 = [].

Definition fills (w : width) (g : list piece) : Prop :=
  fits w (length (line_of g)) \/ exists p, In p g /\ line_of g = fst p.

Lemma breaks_replace w groups g g' :
  breaks w (groups ++ [g]) ->
  (forall b, brk w b g -> brk w b g') ->
  breaks w (groups ++ [g']).
Proof.
  intros H Hg before a b after E.
  destruct after as [|x after] using rev_ind.
  - change (before ++ a :: [b]) with (before ++ [a] ++ [b]) in E. rewrite app_assoc in E.
    apply app_inj_tail in E. destruct E as [-> <-]. apply Hg. apply (H before a g []).
    rewrite <- app_assoc. reflexivity.
  - clear IHafter. change (before ++ a :: b :: after ++ [x]) with (before ++ (a :: b :: after) ++ [x]) in E.
    rewrite app_assoc in E. apply app_inj_tail in E. destruct E as [-> <-].
    apply (H before a b (after ++ [g])). rewrite <- app_assoc. reflexivity.
Qed.

Lemma breaks_snoc w groups g g' :
  breaks w (groups ++ [g]) -> brk w g g' -> breaks w ((groups ++ [g]) ++ [g']).
Proof.
  intros H Hg before a b after E.
  destruct after as [|x after] using rev_ind.
  - change (before ++ a :: [b]) with (before ++ [a] ++ [b]) in E. rewrite app_assoc in E.
    apply app_inj_tail in E. destruct E as [E <-]. apply app_inj_tail in E.
    destruct E as [_ <-]. exact Hg.
  - clear IHafter. change (before ++ a :: b :: after ++ [x]) with (before ++ (a :: b :: after) ++ [x]) in E.
    rewrite app_assoc in E. apply app_inj_tail in E. destruct E as [E <-].
    apply (H before a b after). exact E.
Qed.

Lemma breaks_init w groups g : breaks w (groups ++ [g]) -> breaks w groups.
Proof.
  intros H before a b after ->. apply (H before a b (after ++ [g])). rewrite <- app_assoc. reflexivity.
Qed.

(** What [join] knows after some of the tokens: the finished groups and the current one. *)
Definition join_inv (w : width) (ps : list piece) (st : list str * str) : Prop :=
  exists groups cg,
    ps = concat groups ++ cg
    /\ fst st = map line_of groups /\ snd st = line_of cg
    /\ Forall (fun line => line <> []) (map line_of groups)
    /\ Forall (fills w) groups /\ (line_of cg = [] \/ fills w cg)
    /\ breaks w (groups ++ [cg])
    /\ Forall one_break groups /\ Forall (fun p => ~ html_break p) cg.

Lemma put_ne cur p : fst p <> [] -> put cur p <> [].
Proof.
  destruct p as [text [|]], cur as [|c cur]; cbn; intros H; auto; discriminate.
Qed.

Lemma html_break_ne p : html_break p -> fst p <> [].
Proof.
  intros (tag & t & -> & H). cbn in H. repeat destruct H as [<-|H]; try discriminate. destruct H.
Qed.

Lemma one_break_snoc cg p : Forall (fun p => ~ html_break p) cg -> one_break (cg ++ [p]).
Proof.
  intros H g1 q g2 E Hq. destruct g2 as [|x g2] using rev_ind; [reflexivity|]. exfalso.
  change (g1 ++ q :: g2 ++ [x]) with (g1 ++ (q :: g2) ++ [x]) in E.
  rewrite app_assoc in E. apply app_inj_tail in E. destruct E as [-> _].
  apply Forall_app in H. destruct H as [_ H]. inv H. auto.
Qed.

Lemma join_step_inv w ps st t :
  join_inv w ps st -> join_inv w (ps ++ [piece_of t]) (join_step w st t).
Proof.
  destruct st as [done cur].
  intros (groups & cg & -> & Ed & Ec & Hne & Hf & Hc & Hb & Ho & Hh). cbn [fst snd] in *. subst.
  set (p := piece_of t).
  (* the two ways to go on: the token joins the current line or starts a new one *)
  assert (Step : exists groups' cg',
    (concat groups ++ cg) ++ [p] = concat groups' ++ cg'
    /\ (let potential :=
          if t_lead t && negb (nilb (line_of cg)) then line_of cg ++ [c_sp] ++ t_text t
          else line_of cg ++ t_text t in
        if len_le (length potential) w || nilb (line_of cg) || width_nonpos w
        then (map line_of groups, potential) else (map line_of groups ++ [line_of cg], t_text t))
       = (map line_of groups', line_of cg')
    /\ Forall (fun line => line <> []) (map line_of groups')
    /\ Forall (fills w) groups' /\ fills w cg'
    /\ breaks w (groups' ++ [cg'])
    /\ Forall one_break groups' /\ exists c0, cg' = c0 ++ [p] /\ Forall (fun p => ~ html_break p) c0).
  { cbn zeta. rewrite put_spec. fold p.
    destruct (len_le (length (put (line_of cg) p)) w || nilb (line_of cg) || width_nonpos w) eqn:E.
    - exists groups, (cg ++ [p]). rewrite line_of_snoc, app_assoc.
      split; [reflexivity|]. split; [reflexivity|]. split; [exact Hne|]. split; [exact Hf|].
      split; [|split; [|split; [exact Ho|exists cg; auto]]].
      + destruct (nilb (line_of cg)) eqn:En.
        * right. exists p. split; [apply in_app_iff; right; left; reflexivity|].
          rewrite line_of_snoc. apply nilb_true in En. rewrite En. destruct p. reflexivity.
        * left. rewrite line_of_snoc. apply fits_spec. rewrite orb_false_r in E. exact E.
      + eapply breaks_replace; [exact Hb|]. intros b [Hbr|(q & g1 & -> & Hnf)]; [left; exact Hbr|].
        right. exists q, (g1 ++ [p]). auto.
    - apply orb_false_iff in E. destruct E as [E E3]. apply orb_false_iff in E.
      destruct E as [E1 E2]. apply nilb_false in E2.
      exists (groups ++ [cg]), [p]. rewrite concat_app, map_app. cbn [concat map].
      rewrite app_nil_r. split; [reflexivity|].
      split; [reflexivity|].
      split; [apply Forall_app; split; [exact Hne|constructor; [exact E2|constructor]]|].
      split; [apply Forall_app; split; [exact Hf|constructor; [|constructor]];
              destruct Hc; [congruence|assumption]|].
      split; [right; exists p; split; [left; reflexivity|destruct p; reflexivity]|].
      split; [|split].
      + apply breaks_snoc; [exact Hb|]. right. exists p, []. split; [reflexivity|].
        rewrite <- fits_spec, E1, E3. discriminate.
      + apply Forall_app. split; [exact Ho|]. constructor; [|constructor].
        intros g1 q g2 Eg Hq. exfalso. rewrite Forall_forall in Hh. apply (Hh q); [|exact Hq].
        rewrite Eg. apply in_app_iff. right. left. reflexivity.
      + exists []. split; [reflexivity|constructor]. }
  destruct Step as (groups' & cg' & Ep & Es & Hne' & Hf' & Hc' & Hb' & Ho' & c0 & Ecg & Hh').
  unfold join_step. cbn zeta in Es. cbn zeta. rewrite Es.
  assert (Eh := html_newline_spec p). change (fst p) with (t_text t) in Eh.
  destruct (is_html_newline (t_text t)) eqn:Eb.
  - assert (Hp : html_break p) by tauto.
    exists (groups' ++ [cg']), []. rewrite Ep, concat_app, map_app. cbn [concat map fst snd].
    rewrite !app_nil_r. split; [reflexivity|]. split; [reflexivity|]. split; [reflexivity|].
    split; [|split; [|split; [left; reflexivity|split; [|split; [|constructor]]]]].
    + apply Forall_app. split; [exact Hne'|]. constructor; [|constructor]. subst cg'.
      rewrite line_of_snoc. apply put_ne, html_break_ne. exact Hp.
    + apply Forall_app. split; [exact Hf'|]. constructor; [exact Hc'|constructor].
    + apply breaks_snoc; [exact Hb'|]. left. exists c0, p. auto.
    + apply Forall_app. split; [exact Ho'|]. constructor; [|constructor]. subst cg'.
      apply one_break_snoc. exact Hh'.
  - exists groups', cg'. cbn [fst snd]. split; [exact Ep|]. repeat (split; [solve [auto]|]).
    subst cg'. apply Forall_app. split; [exact Hh'|]. constructor; [|constructor].
    intros Hp. apply Eh in Hp. discriminate.
Qed.

Lemma join_fold_inv w ts : join_inv w (map piece_of ts) (fold_left (join_step w) ts ([], [])).
Proof.
  induction ts as [|t ts IH] using rev_ind.
  - exists [], []. cbn. repeat (split; [solve [auto]|]). split; [|split; constructor].
    intros before g g' after E. destruct before as [|x [|y before]]; discriminate.
  - rewrite fold_left_app, map_app. cbn [fold_left map]. apply join_step_inv. exact IH.
Qed.

Lemma join_filled w ts :
  exists lines, join ts w = str_join [c_nl] lines /\ filled w (map piece_of ts) lines.
Proof.
  unfold join. assert (H := join_fold_inv w ts).
  destruct (fold_left (join_step w) ts ([], [])) as [done cur].
  destruct H as (groups & cg & Ep & Ed & Ec & Hne & Hf & Hc & Hb & Ho & Hh). cbn [fst snd] in *.
  subst done cur.
  destruct (nilb (line_of cg)) eqn:En.
  - apply nilb_true in En. eexists. split; [reflexivity|]. exists groups, cg.
    split; [exact Ep|]. split; [exact En|]. split; [reflexivity|]. split; [exact Hne|].
    split; [exact Hf|]. split; [|exact Ho]. exact (breaks_init _ _ _ Hb).
  - apply nilb_false in En. eexists. split; [reflexivity|]. exists (groups ++ [cg]), [].
    rewrite concat_app, map_app. cbn [concat map]. rewrite !app_nil_r.
    split; [exact Ep|]. split; [reflexivity|]. split; [reflexivity|].
    split; [apply Forall_app; split; [exact Hne|constructor; [exact En|constructor]]|].
    split; [apply Forall_app; split; [exact Hf|constructor; [|constructor]];
            destruct Hc; [congruence|assumption]|].
    split; [exact Hb|]. apply Forall_app. split; [exact Ho|]. constructor; [|constructor].
    intros g1 q g2 Eg Hq. exfalso. rewrite Forall_forall in Hh. apply (Hh q); [|exact Hq].
    rewrite Eg. apply in_app_iff. right. left. reflexivity.
Qed.
