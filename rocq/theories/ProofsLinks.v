(** [link_split] of TextWrap.v, and the four passes together. *)
From Coq Require Import String Sorted Permutation.
From Verif Require Import Py Regex Utils TextWrap Base SpecLines ProofsLines ProofsRegex SpecWrap
  ProofsScan ProofsWrap ProofsTokens ProofsParser.

(** * [s.split("](")] *)

Lemma split_on2_cons2 a b x y s :
  split_on2 a b (x :: y :: s) =
  if N.eqb x a && N.eqb y b then [] :: split_on2 a b s
  else match split_on2 a b (y :: s) with [] => [[x]] | w :: ws => (x :: w) :: ws end.
Proof. reflexivity. Qed.

Lemma split_on2_ne a b s : split_on2 a b s <> [].
Proof.
  destruct s as [|x [|y s]]; [discriminate|discriminate|]. rewrite split_on2_cons2.
  destruct (N.eqb x a && N.eqb y b); [discriminate|].
  destruct (split_on2 a b (y :: s)); discriminate.
Qed.

Lemma split_on2_join a b s : str_join [a; b] (split_on2 a b s) = s.
Proof.
  remember (length s) as n eqn:Hn. assert (Hle : length s <= n) by lia. clear Hn. revert s Hle.
  induction n as [|n IH]; intros s Hle; [destruct s; [reflexivity|cbn in Hle; lia]|].
  destruct s as [|x [|y s]]; [reflexivity|reflexivity|]. rewrite split_on2_cons2.
  cbn [length] in Hle. destruct (N.eqb x a && N.eqb y b) eqn:E.
  - apply andb_true_iff in E. destruct E as [E1 E2]. apply N.eqb_eq in E1, E2. subst.
    rewrite str_join_cons by apply split_on2_ne. rewrite IH by lia. reflexivity.
  - assert (H := IH (y :: s) ltac:(cbn; lia)). destruct (split_on2 a b (y :: s)) as [|w ws] eqn:Es.
    + exfalso. eapply split_on2_ne. exact Es.
    + destruct ws as [|w' ws].
      * cbn in *. congruence.
      * rewrite str_join_cons by discriminate. rewrite str_join_cons in H by discriminate.
        cbn [app]. cbn [app] in H. rewrite <- H. reflexivity.
Qed.

Lemma split_on2_none a b s : contains [a; b] s = false -> split_on2 a b s = [s].
Proof.
  remember (length s) as n eqn:Hn. assert (Hle : length s <= n) by lia. clear Hn. revert s Hle.
  induction n as [|n IH]; intros s Hle H; [destruct s; [reflexivity|cbn in Hle; lia]|].
  destruct s as [|x [|y s]]; [reflexivity|reflexivity|]. rewrite split_on2_cons2.
  cbn [length] in Hle. cbn [contains startswith] in H. apply orb_false_iff in H. destruct H as [H1 H2].
  rewrite andb_true_r in H1. rewrite (N.eqb_sym x a), (N.eqb_sym y b), H1.
  rewrite IH; [reflexivity|cbn; lia|exact H2].
Qed.

Lemma split_on2_at a b u v :
  a <> b -> contains [a; b] (u ++ [a]) = false ->
  split_on2 a b (u ++ [a; b] ++ v) = u :: split_on2 a b v.
Proof.
  intros Hab. induction u as [|x u IH]; intros H.
  - cbn [app]. rewrite split_on2_cons2, !N.eqb_refl. reflexivity.
  - assert (H2 : contains [a; b] (u ++ [a]) = false).
    { cbn [app contains] in H. apply orb_false_iff in H. tauto. }
    specialize (IH H2).
    destruct u as [|y u].
    + cbn [app] in *. rewrite split_on2_cons2, IH.
      destruct (N.eqb x a && N.eqb a b) eqn:E; [|reflexivity].
      apply andb_true_iff in E. destruct E as [_ E]. apply N.eqb_eq in E. congruence.
    + cbn [app] in *. rewrite split_on2_cons2, IH.
      cbn [contains startswith] in H. apply orb_false_iff in H. destruct H as [H _].
      rewrite andb_true_r in H. rewrite (N.eqb_sym x a), (N.eqb_sym y b), H. reflexivity.
Qed.

Lemma split_on2_two a b s :
  a <> b -> contains [a; b] s = true -> exists x y l, split_on2 a b s = x :: y :: l.
Proof.
  intros Hab H. assert (J := split_on2_join a b s).
  destruct (split_on2 a b s) as [|x [|y l]] eqn:E.
  - exfalso. eapply split_on2_ne. exact E.
  - cbn in J. subst x. exfalso.
    (* cut at the first occurrence *)
    revert E. clear -Hab H.
    assert (G : forall s, contains [a; b] s = true ->
                exists u v, s = u ++ [a; b] ++ v /\ contains [a; b] (u ++ [a]) = false).
    { induction s0 as [|c s0 IH]; [discriminate|]. intros Hc. cbn [contains] in Hc.
      destruct (startswith [a; b] (c :: s0)) eqn:Es.
      - apply startswith_spec in Es. destruct Es as (t & ->). exists [], t.
        split; [reflexivity|]. cbn. destruct (N.eqb a a); reflexivity.
      - cbn [orb] in Hc. destruct (IH Hc) as (u & v & -> & Hu). exists (c :: u), v.
        split; [reflexivity|]. cbn [app contains]. apply orb_false_iff. split; [|exact Hu].
        clear -Es Hab. destruct u as [|y u].
        + cbn [app startswith] in *. rewrite andb_true_r. apply andb_false_iff. right.
          apply N.eqb_neq. congruence.
        + cbn [app startswith] in *. exact Es. }
    destruct (G s H) as (u & v & -> & Hu). rewrite split_on2_at by assumption.
    intros E. injection E as E1 E2. exfalso. eapply split_on2_ne. exact E2.
  - eauto.
Qed.

(** * Links *)

(** The parts of a link. *)
Record link (g p q u r : str) (o cl : char) : Prop := {
  l_eq : g = p ++ [c_lbr] ++ q ++ [c_rbr; o] ++ u ++ [cl] ++ r;
  l_kind : (o = c_lpar /\ cl = c_rpar) \/ (o = c_lbr /\ cl = c_rbr);
  l_p : Forall (fun c => is_space c = false /\ c <> c_rbr /\ c <> c_rpar) p;
  l_q : Forall (fun c => c <> c_lbr) q;
  l_u : Forall (fun c => c <> cl) u;
  l_r : Forall (fun c => is_space c = false /\ c <> c_lbr /\ c <> c_lpar) r
}.

Lemma not_in_spec cs c : not_in cs c = true <-> ~ In c cs.
Proof.
  unfold not_in. rewrite negb_true_iff. split.
  - intros H Hin. assert (E : existsb (N.eqb c) cs = true).
    { apply existsb_exists. exists c. split; [exact Hin|apply N.eqb_refl]. }
    congruence.
  - intros H. destruct (existsb (N.eqb c) cs) eqn:E; [|reflexivity].
    apply existsb_exists in E. destruct E as (x & Hx & Ex). apply N.eqb_eq in Ex. subst. contradiction.
Qed.

Lemma not_in_s_spec cs c : not_in_s cs c = true <-> is_space c = false /\ ~ In c cs.
Proof. unfold not_in_s. rewrite andb_true_iff, negb_true_iff, not_in_spec. reflexivity. Qed.

Lemma footnote_den g : den FOOTNOTE_REGEX g -> exists p q u r, link g p q u r c_lbr c_rbr.
Proof.
  unfold FOOTNOTE_REGEX, URL_REGEX, Plus, Is. cbn [app den]. intros H.
  destruct H as (p & s1 & -> & Hp & c1 & s2 & -> & E1 & q1 & s3 & -> & Hq1 & q & s4 & -> & Hq
    & c2 & s5 & -> & E2 & c3 & s6 & -> & E3 & u1 & s7 & -> & Hu1 & u & s8 & -> & Hu
    & c4 & s9 & -> & E4 & r & s10 & -> & Hr & ->).
  apply N.eqb_eq in E1, E2, E3, E4. subst. exists p, (q1 :: q), (u1 :: u), r. constructor.
  - rewrite app_nil_r. reflexivity.
  - right. auto.
  - eapply Forall_impl; [|exact Hp]. cbn. intros c Hc. apply not_in_s_spec in Hc. cbn in Hc.
    intuition congruence.
  - constructor; [apply not_in_spec in Hq1; cbn in Hq1; intuition congruence|].
    eapply Forall_impl; [|exact Hq]. cbn. intros c Hc. apply not_in_spec in Hc. cbn in Hc.
    intuition congruence.
  - constructor; [apply not_in_spec in Hu1; cbn in Hu1; intuition congruence|].
    eapply Forall_impl; [|exact Hu]. cbn. intros c Hc. apply not_in_spec in Hc. cbn in Hc.
    intuition congruence.
  - eapply Forall_impl; [|exact Hr]. cbn. intros c Hc. apply not_in_s_spec in Hc. cbn in Hc.
    intuition congruence.
Qed.

Lemma url_den g : den URL_REGEX g -> exists p q u r, link g p q u r c_lpar c_rpar.
Proof.
  unfold FOOTNOTE_REGEX, URL_REGEX, Plus, Is. cbn [app den]. intros H.
  destruct H as (p & s1 & -> & Hp & c1 & s2 & -> & E1 & q1 & s3 & -> & Hq1 & q & s4 & -> & Hq
    & c2 & s5 & -> & E2 & c3 & s6 & -> & E3 & u1 & s7 & -> & Hu1 & u & s8 & -> & Hu
    & c4 & s9 & -> & E4 & r & s10 & -> & Hr & ->).
  apply N.eqb_eq in E1, E2, E3, E4. subst. exists p, (q1 :: q), (u1 :: u), r. constructor.
  - rewrite app_nil_r. reflexivity.
  - left. auto.
  - eapply Forall_impl; [|exact Hp]. cbn. intros c Hc. apply not_in_s_spec in Hc. cbn in Hc.
    intuition congruence.
  - constructor; [apply not_in_spec in Hq1; cbn in Hq1; intuition congruence|].
    eapply Forall_impl; [|exact Hq]. cbn. intros c Hc. apply not_in_spec in Hc. cbn in Hc.
    intuition congruence.
  - constructor; [apply not_in_spec in Hu1; cbn in Hu1; intuition congruence|].
    eapply Forall_impl; [|exact Hu]. cbn. intros c Hc. apply not_in_spec in Hc. cbn in Hc.
    intuition congruence.
  - eapply Forall_impl; [|exact Hr]. cbn. intros c Hc. apply not_in_s_spec in Hc. cbn in Hc.
    intuition congruence.
Qed.

Lemma link_den g :
  den FOOTNOTE_REGEX g \/ den URL_REGEX g -> exists p q u r o cl, link g p q u r o cl.
Proof.
  intros [H|H]; [apply footnote_den in H|apply url_den in H]; destruct H as (p & q & u & r & H); eauto 7.
Qed.

Lemma split_link_ok g p q u r o cl :
  link g p q u r o cl ->
  exists x y z, split_link g = Ok (strip x ++ z, strip y) /\ (z = [c_rbr; c_lpar] \/ z = [c_rbr; c_lbr]).
Proof.
  intros [E K _ _ _ _]. unfold split_link.
  destruct (contains [c_rbr; c_lpar] g) eqn:C1.
  - destruct (split_on2_two c_rbr c_lpar g ltac:(discriminate) C1) as (x & y & l & ->). eauto 7.
  - assert (C2 : contains [c_rbr; c_lbr] g = true).
    { destruct K as [[-> _]|[-> _]].
      - assert (contains [c_rbr; c_lpar] g = true); [|congruence]. apply contains_spec.
        exists (p ++ [c_lbr] ++ q), (u ++ [cl] ++ r). rewrite E, <- !app_assoc. reflexivity.
      - apply contains_spec. exists (p ++ [c_lbr] ++ q), (u ++ [cl] ++ r).
        rewrite E, <- !app_assoc. reflexivity. }
    destruct (split_on2_two c_rbr c_lbr g ltac:(discriminate) C2) as (x & y & l & ->). eauto 7.
Qed.

(** Matches of a regular expression are slices of the text. *)
Lemma scan_In m pos s ms : scan m pos s ms -> forall a b, In (a, b) ms ->
  exists x g y, s = x ++ g ++ y /\ g <> [] /\ m (g ++ y) = Some (length g)
    /\ a = pos + length x /\ b = pos + length x + length g.
Proof.
  intros H. induction H as [pos s Hs|pos gap g rest ms Hno Hg Hm Hsc IH]; intros a b Hin.
  - destruct Hin.
  - destruct Hin as [E|Hin].
    + injection E as <- <-. exists gap, g, rest. auto.
    + destruct (IH a b Hin) as (x & g' & y & -> & Hg' & Hm' & -> & ->).
      exists (gap ++ g ++ x), g', y. rewrite !app_length. repeat split; auto; try lia.
      rewrite <- !app_assoc. reflexivity.
Qed.

Lemma scan_sorted m pos s ms : scan m pos s ms ->
  Forall (fun x => pos <= fst x /\ fst x < snd x) ms
  /\ ForallOrdPairs (fun x y => snd x <= fst y) ms.
Proof.
  intros H. induction H as [pos s Hs|pos gap g rest ms Hno Hg Hm Hsc [IH1 IH2]].
  - split; constructor.
  - assert (0 < length g) by (destruct g; [congruence|cbn; lia]). split.
    + constructor; [cbn; lia|]. eapply Forall_impl; [|exact IH1]. cbn. intros x Hx. lia.
    + constructor; [|exact IH2]. eapply Forall_impl; [|exact IH1]. cbn. intros x Hx. lia.
Qed.

Lemma finditer_In r text a b : In (a, b) (finditer r text) ->
  exists x g y, text = x ++ g ++ y /\ g <> [] /\ den r g /\ a = length x /\ b = length x + length g.
Proof.
  intros H. destruct (scan_In _ _ _ _ (finditer_scan r text) a b H)
    as (x & g & y & E & Hg & Hm & Ha & Hb).
  exists x, g, y. repeat split; auto. apply rmatch_den in Hm. destruct Hm as [_ Hm].
  rewrite firstn_app, firstn_all, Nat.sub_diag in Hm. cbn [firstn] in Hm.
  rewrite app_nil_r in Hm. exact Hm.
Qed.

(** A match standing in the text. *)
Definition link_at (text : str) (m : nat * nat) : Prop :=
  exists x g y p q u r o cl, text = x ++ g ++ y /\ link g p q u r o cl
    /\ fst m = length x /\ snd m = length x + length g.

Lemma link_at_slice text m : link_at text m ->
  exists p q u r o cl, link (slice text (fst m) (snd m)) p q u r o cl.
Proof.
  intros (x & g & y & p & q & u & r & o & cl & -> & H & -> & ->). rewrite slice_mid. eauto 7.
Qed.

Lemma sort_permutation l : Permutation (sort_matches l) l.
Proof.
  induction l as [|m l IH]; [constructor|]. cbn [sort_matches fold_right].
  fold (sort_matches l). rewrite <- IH at 2. generalize (sort_matches l). clear.
  induction l as [|x l IH]; [reflexivity|]. cbn [insert_match].
  destruct (fst m <=? fst x); [reflexivity|]. rewrite IH. apply perm_swap.
Qed.

Lemma sort_sorted l : StronglySorted (fun x y => fst x <= fst y) (sort_matches l).
Proof.
  induction l as [|m l IH]; [constructor|]. cbn [sort_matches fold_right].
  fold (sort_matches l). revert IH. generalize (sort_matches l). clear.
  induction l as [|x l IH]; intros H; cbn [insert_match].
  - constructor; constructor.
  - inversion H as [|? ? H1 H2]; subst. destruct (fst m <=? fst x) eqn:E.
    + apply Nat.leb_le in E. constructor; [exact H|]. constructor; [exact E|].
      eapply Forall_impl; [|exact H2]. cbn. intros y Hy. lia.
    + apply Nat.leb_gt in E. constructor; [apply IH; exact H1|].
      apply Forall_forall. intros y Hy. clear IH H.
      assert (Hin : y = m \/ In y l).
      { clear -Hy. induction l as [|z l IH]; cbn [insert_match] in Hy.
        - destruct Hy as [<-|[]]. auto.
        - destruct (fst m <=? fst z).
          + destruct Hy as [<-|Hy]; auto.
          + destruct Hy as [<-|Hy]; [right; left; reflexivity|].
            destruct (IH Hy); [auto|right; right; assumption]. }
      rewrite Forall_forall in H2. destruct Hin as [->|Hin]; [lia|auto].
Qed.

Lemma link_matches_at text : Forall (link_at text) (link_matches text).
Proof.
  unfold link_matches. apply Forall_forall. intros [a b] H.
  apply (Permutation_in _ (sort_permutation _)) in H. apply in_app_iff in H.
  assert (G : exists x g y, text = x ++ g ++ y /\ g <> []
              /\ (den FOOTNOTE_REGEX g \/ den URL_REGEX g) /\ a = length x /\ b = length x + length g).
  { destruct H as [H|H]; apply finditer_In in H; destruct H as (x & g & y & E & Hg & Hd & Ha & Hb);
      exists x, g, y; auto. }
  destruct G as (x & g & y & E & _ & Hd & -> & ->). apply link_den in Hd.
  destruct Hd as (p & q & u & r & o & cl & Hl). unfold link_at. cbn [fst snd].
  exists x, g, y, p, q, u, r, o, cl. auto.
Qed.

(** * The sequence of tokens *)

(** Tokens that are not evaluated further are there for a reason. *)
Fixpoint okseq (code : str -> Prop) (joint : Prop) (ts : list tok) : Prop :=
  match ts with
  | [] => True
  | t :: ts' =>
      (t_eval t = false -> code (t_text t) \/ html_break (piece_of t) \/ joint)
      /\ okseq code (link_joint (t_text t)) ts'
  end.

Definition no_code (s : str) : Prop := False.

Lemma okseq_weaken code (j j' : Prop) ts : (j -> j') -> okseq code j ts -> okseq code j' ts.
Proof. destruct ts as [|t ts]; cbn; [auto|]. intros H [H1 H2]. split; [tauto|exact H2]. Qed.

Definition joint_after (j : Prop) (ts : list tok) : Prop :=
  match rev ts with [] => j | t :: _ => link_joint (t_text t) end.

Lemma joint_after_cons j t ts : joint_after j (t :: ts) = joint_after (link_joint (t_text t)) ts.
Proof.
  unfold joint_after. cbn [rev]. destruct (rev ts) as [|u l] eqn:E; [reflexivity|]. reflexivity.
Qed.

Lemma joint_after_snoc j t ts : joint_after j (ts ++ [t]) = link_joint (t_text t).
Proof. unfold joint_after. rewrite rev_app_distr. reflexivity. Qed.

Lemma okseq_code (code code' : str -> Prop) j ts :
  (forall s, code s -> code' s) -> okseq code j ts -> okseq code' j ts.
Proof.
  intros H. revert j. induction ts as [|t ts IH]; intros j; [auto|]. cbn. intros [H1 H2].
  split; [|auto]. intros E. destruct (H1 E) as [G|G]; auto.
Qed.

Lemma okseq_app code j a b : okseq code j (a ++ b) <-> okseq code j a /\ okseq code (joint_after j a) b.
Proof.
  revert j. induction a as [|t a IH]; intros j; [cbn; tauto|]. cbn [app okseq].
  rewrite IH, joint_after_cons. tauto.
Qed.

Lemma okseq_app_last j ts x : okseq no_code j ts -> okseq no_code j (app_last ts x).
Proof.
  destruct ts as [|t ts] using rev_ind; [auto|]. clear IHts. rewrite app_last_snoc, !okseq_app.
  cbn [okseq t_eval t_text piece_of t_lead]. intros [H1 [H2 _]]. split; [exact H1|]. split; [|exact I].
  intros E. destruct (H2 E) as [[]|[(tag & y & Ey & Hin)|Hj]]; [right; left|auto].
  - exists tag, (y ++ x). cbn in *. rewrite Ey, <- app_assoc. auto.
Qed.

Lemma okseq_evals (code : str -> Prop) j ts :
  Forall (fun t => t_eval t = false -> code (t_text t) \/ html_break (piece_of t)) ts -> okseq code j ts.
Proof.
  intros H. revert j. induction H as [|t ts Ht H IH]; intros j; [exact I|]. cbn. split; [tauto|apply IH].
Qed.

Lemma ink_joint z : z = [c_rbr; c_lpar] \/ z = [c_rbr; c_lbr] -> ink z <> [].
Proof. intros [->| ->]; discriminate. Qed.

Lemma link_step_ok text lead ts le m :
  link_at text m -> okseq no_code False ts ->
  exists ts', link_step text lead (ts, le) m = Ok (ts', snd m) /\ okseq no_code False ts' /\ ts' <> []
    /\ ink (texts ts') <> [].
Proof.
  intros Hm Ho. apply link_at_slice in Hm. destruct Hm as (p & q & u & r & o & cl & Hl).
  destruct m as [a b]. cbn [fst snd] in *. unfold link_step.
  destruct (split_link_ok _ _ _ _ _ _ _ Hl) as (x & y & z & -> & Hz).
  match goal with |- context [let '(ts, lead_link) := ?X in _] =>
    assert (A : exists ts1 ll, X = (ts1, ll) /\ okseq no_code False ts1) end.
  { destruct (blank (slice text le a)); cbn [negb]; [eauto|]. eexists. eexists.
    split; [reflexivity|]. apply okseq_app. split.
    - destruct (negb (nilb ts) && _); [apply okseq_app_last|]; exact Ho.
    - cbn. split; [discriminate|exact I]. }
  destruct A as (ts1 & ll & -> & Ho1). cbn [bind]. eexists. split; [reflexivity|]. split; [|split].
  - apply okseq_app. split; [exact Ho1|]. cbn [okseq t_eval t_text]. split; [discriminate|].
    split; [|exact I]. intros _. right. right. exists (strip x).
    destruct Hz as [->| ->]; auto.
  - destruct ts1; discriminate.
  - rewrite texts_app, ink_app. unfold texts at 2. cbn [map concat t_text].
    rewrite !ink_app. intros E. apply app_eq_nil in E. destruct E as [_ E].
    apply app_eq_nil in E. destruct E as [E _]. apply app_eq_nil in E. destruct E as [_ E].
    apply (ink_joint z Hz E).
Qed.

Lemma link_fold_ok text lead ms ts le :
  Forall (link_at text) ms -> okseq no_code False ts ->
  exists ts' le', foldM (link_step text lead) ms (ts, le) = Ok (ts', le') /\ okseq no_code False ts'
    /\ (ms = [] -> ts' = ts /\ le' = le) /\ (ms <> [] -> ts' <> [] /\ ink (texts ts') <> []).
Proof.
  intros H. revert ts le. induction H as [|m ms Hm H IH]; intros ts le Ho.
  - exists ts, le. cbn. split; [reflexivity|]. split; [exact Ho|]. split; [auto|congruence].
  - destruct (link_step_ok text lead ts le m Hm Ho) as (ts1 & E & Ho1 & Hn1 & Hi1).
    destruct (IH ts1 (snd m) Ho1) as (ts2 & le2 & E2 & Ho2 & Hnil & Hne).
    exists ts2, le2. cbn [foldM]. rewrite E. cbn [bind]. split; [exact E2|]. split; [exact Ho2|].
    split; [discriminate|]. intros _. destruct ms as [|m' ms].
    + destruct (Hnil eq_refl) as [-> _]. auto.
    + apply Hne. discriminate.
Qed.

Lemma split_tail_okseq ts s le lead ts' :
  okseq no_code False ts -> split_tail ts s le lead = Ok ts' -> okseq no_code False ts'.
Proof.
  intros Ho. unfold split_tail. destruct (one_dot s).
  - destruct ts as [|t ts]; [discriminate|]. cbn [bind].
    assert (Ho' : okseq no_code False (app_last (t :: ts) [c_dot])) by (apply okseq_app_last; exact Ho).
    destruct (blank (tl s)); cbn [negb]; intros E; apply ok_inj in E; subst ts'; [exact Ho'|].
    apply okseq_app. split; [exact Ho'|]. cbn. split; [discriminate|exact I].
  - cbn [bind]. destruct (blank s); cbn [negb]; intros E; apply ok_inj in E; subst ts'; [exact Ho|].
    apply okseq_app. split; [exact Ho|]. cbn. split; [discriminate|exact I].
Qed.

Lemma split_tail_ink ts s le lead ts' :
  ink (texts ts) <> [] -> split_tail ts s le lead = Ok ts' -> ink (texts ts') <> [].
Proof.
  intros Hi. unfold split_tail. destruct (one_dot s).
  - destruct ts as [|t ts] using rev_ind; [discriminate|]. clear IHts.
    assert (Em : match ts ++ [t] with [] => Err IndexError
                 | _ => Ok (app_last (ts ++ [t]) [c_dot], tl s) end
                 = Ok (app_last (ts ++ [t]) [c_dot], tl s)) by (destruct ts; reflexivity).
    rewrite Em. cbn [bind]. rewrite app_last_snoc.
    assert (Hi' : ink (texts (ts ++ [Tok (t_text t ++ [c_dot]) (t_lead t) (t_eval t)])) <> []).
    { rewrite texts_app, texts_one in *. cbn [t_text]. rewrite app_assoc, ink_app.
      intros E. apply app_eq_nil in E. tauto. }
    destruct (blank (tl s)); cbn [negb]; intros E; apply ok_inj in E; subst ts'; [exact Hi'|].
    rewrite texts_app, ink_app. intros E. apply app_eq_nil in E. tauto.
  - cbn [bind]. destruct (blank s); cbn [negb]; intros E; apply ok_inj in E; subst ts'; [exact Hi|].
    rewrite texts_app, ink_app. intros E. apply app_eq_nil in E. tauto.
Qed.

Lemma link_split_okseq text lead ts :
  link_split text lead = Ok ts -> okseq no_code False ts /\ (ink text <> [] -> ink (texts ts) <> []).
Proof.
  unfold link_split.
  destruct (link_fold_ok text lead (link_matches text) [] 0 (link_matches_at text) I)
    as (ts1 & le & E & Ho & Hnil & Hne).
  rewrite E. cbn [bind]. intros H. split; [eapply split_tail_okseq; eauto|]. intros Hi.
  destruct (link_matches text) as [|m ms].
  - destruct (Hnil eq_refl) as [-> ->]. cbn [skipn] in H.
    destruct (split_tail_spec (fun _ => True) text [] text [] 0 lead ts) as [-> _]; auto.
  - eapply split_tail_ink; [|exact H]. apply Hne. discriminate.
Qed.

Lemma link_split_err text lead e :
  link_split text lead = Err e -> one_dot text = true /\ e = IndexError.
Proof.
  unfold link_split.
  destruct (link_fold_ok text lead (link_matches text) [] 0 (link_matches_at text) I)
    as (ts1 & le & E & Ho & Hnil & Hne).
  rewrite E. cbn [bind]. intros H. apply split_tail_err in H. destruct H as (-> & Hd & ->).
  split; [|reflexivity]. destruct (link_matches text) as [|m ms].
  - destruct (Hnil eq_refl) as [_ ->]. exact Hd.
  - destruct (Hne ltac:(discriminate)). congruence.
Qed.
