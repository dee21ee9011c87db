(** Texts whose links are apart: no character is lost. *)
From Coq Require Import String Sorted Permutation.
From Verif Require Import Py Regex Utils TextWrap Base SpecLines ProofsLines ProofsRegex SpecWrap
  ProofsScan ProofsWrap ProofsTokens ProofsParser ProofsLinks ProofsPieces.

Lemma links_apart_infix x g y : links_apart (x ++ g ++ y) -> links_apart g.
Proof.
  intros H a z cl b z' cl' c E Hz Hz'. apply (H (x ++ a) z cl b z' cl' (c ++ y)); auto.
  rewrite E, <- !app_assoc. reflexivity.
Qed.

Lemma first_sep (cl : char) u : Forall (fun c => c <> cl) u -> forall r b t,
  u ++ cl :: r = b ++ cl :: t -> exists k, r = k ++ t \/ (k = [] /\ r = t).
Proof.
  intros H. induction H as [|c u Hc H IH]; intros r b t E.
  - destruct b as [|d b]; [injection E as <-; exists []; auto|].
    injection E as <- ->. exists (b ++ [cl]). left. rewrite <- app_assoc. reflexivity.
  - destruct b as [|d b]; [injection E as E1 _; congruence|]. injection E as _ E.
    apply (IH r b t E).
Qed.

Lemma first_sep_suffix (cl : char) u r b t :
  Forall (fun c => c <> cl) u -> u ++ cl :: r = b ++ cl :: t -> exists k, r = k ++ t.
Proof.
  intros H E. destruct (first_sep cl u H r b t E) as (k & [->|[_ ->]]); [eauto|exists []; reflexivity].
Qed.

Lemma no_sep_suffix (cl : char) u : Forall (fun c => c <> cl) u -> forall r b t,
  u ++ r = b ++ cl :: t -> exists k, r = k ++ cl :: t.
Proof.
  intros H. induction H as [|c u Hc H IH]; intros r b t E; [eauto|].
  destruct b as [|d b]; [injection E as E1 _; congruence|]. injection E as _ E. eauto.
Qed.

Lemma joint_shape z cl : In (z, cl) joints ->
  exists o, z = [c_rbr; o] /\ (o = c_lpar /\ cl = [c_rpar] \/ o = c_lbr /\ cl = [c_rbr]).
Proof.
  cbn [joints In]. intros [E|[E|[]]]; injection E as <- <-; eexists; (split; [reflexivity|]); auto.
Qed.

Lemma joint_in o cl : (o = c_lpar /\ cl = c_rpar) \/ (o = c_lbr /\ cl = c_rbr) ->
  In ([c_rbr; o], [cl]) joints.
Proof. intros [[-> ->]|[-> ->]]; cbn; auto. Qed.

(** The only joint inside a link is its own. *)
Lemma only_joint g p q u r o cl s1 z' cl' s2 :
  link g p q u r o cl -> links_apart g -> In (z', cl') joints -> g = s1 ++ z' ++ s2 ->
  s1 = p ++ [c_lbr] ++ q /\ z' = [c_rbr; o].
Proof.
  intros [E K Hp Hq Hu Hr] HA Hz' E'. set (P := p ++ [c_lbr] ++ q).
  destruct (joint_shape _ _ Hz') as (o' & -> & K').
  assert (EP : g = P ++ [c_rbr; o] ++ u ++ [cl] ++ r) by (rewrite E; unfold P; rewrite <- !app_assoc; reflexivity).
  assert (Ho : o <> c_rbr) by (destruct K as [[-> _]|[-> _]]; discriminate).
  assert (Ho' : o' <> c_rbr) by (destruct K' as [[-> _]|[-> _]]; discriminate).
  assert (EE := E'). rewrite EP in EE. apply app_eq_app in EE.
  destruct EE as (l & [[E1 E2]|[E1 E2]]).
  - (* before the joint, or there *)
    destruct l as [|l1 [|l2 l]].
    + cbn [app] in E2. injection E2 as -> _. rewrite E1, app_nil_r. auto.
    + exfalso. cbn [app] in E2. injection E2 as _ E2 _. congruence.
    + exfalso. cbn [app] in E2. injection E2 as <- <- E2.
      destruct (HA s1 [c_rbr; o'] cl' l [c_rbr; o] [cl] (u ++ [cl] ++ r)) as (b1 & b2 & b3 & Eb & _).
      * rewrite EP, E1, <- !app_assoc. reflexivity.
      * exact Hz'.
      * apply joint_in. exact K.
      * (* an opening bracket after "]": impossible, the text of a link has none *)
        assert (S : exists k, q = k ++ c_rbr :: o' :: l).
        { apply no_sep_suffix with (p ++ [c_lbr]) s1.
          - apply Forall_app. split.
            + eapply Forall_impl; [|exact Hp]. cbn. tauto.
            + constructor; [discriminate|constructor].
          - rewrite <- app_assoc. exact E1. }
        destruct S as (k & ->). apply Forall_app in Hq. destruct Hq as [_ Hq].
        inversion Hq as [|? ? _ Hq']; subst. inversion Hq' as [|? ? _ Hq2]; subst.
        rewrite Forall_forall in Hq2. apply (Hq2 c_lbr); [|reflexivity].
        change (lit "[") with [c_lbr]. rewrite !in_app_iff. do 3 right. left. reflexivity.
  - (* after it *)
    destruct l as [|l1 [|l2 l]].
    + cbn [app] in E2. injection E2 as -> _. rewrite E1, app_nil_r. auto.
    + exfalso. cbn [app] in E2. injection E2 as _ E2 _. congruence.
    + exfalso. cbn [app] in E2. injection E2 as <- <- E2.
      destruct (HA P [c_rbr; o] [cl] l [c_rbr; o'] cl' s2) as (b1 & b2 & b3 & Eb & _).
      * rewrite E', E1, <- !app_assoc. reflexivity.
      * apply joint_in. exact K.
      * exact Hz'.
      * rewrite Eb in E2. cbn [app] in E2. rewrite <- !app_assoc in E2. cbn [app] in E2.
        apply first_sep_suffix in E2; [|exact Hu]. destruct E2 as (k & Ek). rewrite Ek in Hr.
        rewrite Forall_forall in Hr. destruct (Hr c_lbr) as [_ [Hx' _]]; [|congruence].
        change (lit "[") with [c_lbr]. rewrite !in_app_iff. cbn [In]. auto 6.
Qed.

Lemma split_link_at g p q u r o cl :
  link g p q u r o cl -> links_apart g ->
  split_link g = Ok (strip (p ++ [c_lbr] ++ q) ++ [c_rbr; o], strip (u ++ [cl] ++ r)).
Proof.
  intros Hl HA. assert (Hl' := Hl). destruct Hl' as [E K _ _ _ _].
  set (P := p ++ [c_lbr] ++ q) in *. set (Y := u ++ [cl] ++ r).
  assert (EP : g = P ++ [c_rbr; o] ++ Y) by (rewrite E; unfold P, Y; rewrite <- !app_assoc; reflexivity).
  assert (Ho : c_rbr <> o) by (destruct K as [[-> _]|[-> _]]; discriminate).
  assert (S : split_on2 c_rbr o g = [P; Y]).
  { rewrite EP, split_on2_at; [|exact Ho|].
    - rewrite split_on2_none; [reflexivity|]. destruct (contains [c_rbr; o] Y) eqn:C; [|reflexivity].
      exfalso. apply contains_spec in C. destruct C as (a & b & EY).
      destruct (only_joint g p q u r o cl (P ++ [c_rbr; o] ++ a) [c_rbr; o] [cl] b Hl HA) as [L _].
      + apply joint_in. exact K.
      + rewrite EP, EY, <- !app_assoc. reflexivity.
      + change (p ++ [c_lbr] ++ q) with P in L. apply (f_equal (@length _)) in L. rewrite !app_length in L. cbn in L. lia.
    - destruct (contains [c_rbr; o] (P ++ [c_rbr])) eqn:C; [|reflexivity].
      exfalso. apply contains_spec in C. destruct C as (a & b & EY).
      destruct (only_joint g p q u r o cl a [c_rbr; o] [cl] (b ++ [o] ++ Y) Hl HA) as [L _].
      + apply joint_in. exact K.
      + rewrite EP. change ([c_rbr; o] ++ Y) with ([c_rbr] ++ [o] ++ Y). rewrite app_assoc, EY, <- !app_assoc.
        reflexivity.
      + assert (L2 := f_equal (@length _) EY). rewrite L in L2. unfold P in L2.
        rewrite !app_length in L2. cbn in L2. lia. }
  change (split_link g = Ok (strip P ++ [c_rbr; o], strip Y)). unfold split_link.
  destruct K as [[-> ->]|[-> ->]].
  - replace (contains [c_rbr; c_lpar] g) with true; [rewrite S; reflexivity|].
    symmetry. apply contains_spec. exists P, Y. exact EP.
  - replace (contains [c_rbr; c_lpar] g) with false; [rewrite S; reflexivity|].
    symmetry. destruct (contains [c_rbr; c_lpar] g) eqn:C; [|reflexivity]. exfalso.
    apply contains_spec in C. destruct C as (a & b & EY).
    destruct (only_joint g p q u r c_lbr c_rbr a [c_rbr; c_lpar] [c_rpar] b Hl HA) as [_ L];
      [cbn; auto|exact EY|discriminate].
Qed.

Lemma split_link_apart g p q u r o cl :
  link g p q u r o cl -> links_apart g ->
  exists x y z, split_link g = Ok (strip x ++ z, strip y) /\ g = x ++ z ++ y.
Proof.
  intros Hl HA. exists (p ++ [c_lbr] ++ q), (u ++ [cl] ++ r), [c_rbr; o].
  split; [apply (split_link_at g p q u r o cl Hl HA)|]. destruct Hl as [E _ _ _ _ _].
  rewrite E, <- !app_assoc. reflexivity.
Qed.

(** * Matches do not overlap *)

Lemma prefix_of_sep (P : char -> Prop) q : Forall (fun c => ~ P c) q -> forall a w x t,
  a ++ q = w ++ x :: t -> P x -> exists k, a = w ++ x :: k.
Proof.
  intros H a w x t E Hx. apply app_eq_app in E. destruct E as (l & [[E1 E2]|[E1 E2]]).
  - destruct l as [|y l].
    + exfalso. cbn in E2. rewrite <- E2 in H. apply Forall_inv in H. contradiction.
    + injection E2 as <- E2. eauto.
  - exfalso. rewrite E2 in H. apply Forall_app in H. destruct H as [_ H]. apply Forall_inv in H.
    contradiction.
Qed.

Lemma suffix_of_sep (P : char -> Prop) u : Forall (fun c => ~ P c) u -> forall r b x t,
  u ++ r = b ++ x :: t -> P x -> exists k, r = k ++ x :: t.
Proof.
  intros H. induction H as [|c u Hc H IH]; intros r b x t E Hx; [eauto|].
  destruct b as [|d b]; [injection E as <- _; contradiction|]. injection E as _ E. eauto.
Qed.

Lemma apart_disjoint text x1 g1 y1 p1 q1 u1 r1 o1 cl1 x2 g2 y2 p2 q2 u2 r2 o2 cl2 :
  links_apart text -> o1 <> o2 ->
  text = x1 ++ g1 ++ y1 -> link g1 p1 q1 u1 r1 o1 cl1 ->
  text = x2 ++ g2 ++ y2 -> link g2 p2 q2 u2 r2 o2 cl2 ->
  length x1 + length p1 + length q1 < length x2 + length p2 + length q2 ->
  length x1 + length g1 <= length x2.
Proof.
  intros HA Hne E1 [G1 K1 Hp1 Hq1 Hu1 Hr1] E2 [G2 K2 Hp2 Hq2 Hu2 Hr2] Hlt.
  assert (Ho1 : o1 <> c_rbr) by (destruct K1 as [[-> _]|[-> _]]; discriminate).
  set (A1 := x1 ++ p1 ++ [c_lbr] ++ q1). set (A2 := x2 ++ p2 ++ [c_lbr] ++ q2).
  assert (F1 : text = A1 ++ [c_rbr; o1] ++ u1 ++ [cl1] ++ r1 ++ y1).
  { rewrite E1, G1. unfold A1. rewrite <- !app_assoc. reflexivity. }
  assert (F2 : text = A2 ++ [c_rbr; o2] ++ u2 ++ [cl2] ++ r2 ++ y2).
  { rewrite E2, G2. unfold A2. rewrite <- !app_assoc. reflexivity. }
  assert (L : length A1 < length A2) by (unfold A1, A2; rewrite !app_length; cbn; lia).
  assert (EE := F1). rewrite F2 in EE. apply app_eq_app in EE.
  destruct EE as (l & [[H1 H2]|[H1 H2]]); [|apply (f_equal (@length _)) in H1; rewrite app_length in H1; lia].
  destruct l as [|l1 [|l2 b]].
  { rewrite app_nil_r in H1. rewrite H1 in L. lia. }
  { cbn [app] in H2. injection H2 as _ H2 _. congruence. }
  cbn [app] in H2. injection H2 as <- <- H2.
  destruct (HA A1 [c_rbr; o1] [cl1] b [c_rbr; o2] [cl2] (u2 ++ [cl2] ++ r2 ++ y2))
    as (b1 & b2' & b4 & Eb & Hx).
  { rewrite F2, H1, <- !app_assoc. reflexivity. }
  { apply joint_in. exact K1. }
  { apply joint_in. exact K2. }
  destruct Hx as [Hx|(x & Hx & Hxs)]; [congruence|]. apply in_split in Hx. destruct Hx as (b2 & b3 & ->).
  change (lit "[") with [c_lbr] in Eb. rewrite <- app_assoc in Eb. cbn [app] in Eb.
  set (W := A1 ++ [c_rbr; o1] ++ b1 ++ [cl1] ++ b2).
  assert (HW : A2 = W ++ x :: b3 ++ c_lbr :: b4).
  { unfold W. rewrite H1, Eb. repeat (cbn [app]; rewrite <- ?app_assoc). reflexivity. }
  (* the second link begins after x *)
  assert (X2 : exists k, x2 = W ++ x :: k).
  { assert (H : exists k, (x2 ++ p2) ++ [c_lbr] = (W ++ x :: b3) ++ c_lbr :: k).
    { apply (prefix_of_sep (fun c => c = c_lbr) q2) with b4; [|rewrite <- !app_assoc|reflexivity].
      - exact Hq2.
      - cbn [app]. rewrite <- HW. reflexivity. }
    destruct H as (k & Ek).
    assert (H : exists k, x2 ++ p2 = W ++ x :: k).
    { destruct k as [|k0 k] using rev_ind.
      - apply app_inj_tail in Ek. destruct Ek as [Ek _]. eauto.
      - rewrite app_comm_cons, app_assoc in Ek. apply app_inj_tail in Ek. destruct Ek as [Ek _].
        rewrite <- app_assoc in Ek. cbn [app] in Ek. eauto. }
    destruct H as (k' & Ek').
    apply (prefix_of_sep (fun c => is_space c = true) p2) with k'; auto.
    eapply Forall_impl; [|exact Hp2]. cbn. intros c (Hc & _). congruence. }
  (* the first link ends before x *)
  assert (Y1 : exists k, y1 = k ++ x :: b3 ++ c_lbr :: b4 ++ [c_rbr; o2] ++ u2 ++ [cl2] ++ r2 ++ y2).
  { rewrite Eb in H2. cbn [app] in H2. rewrite <- !app_assoc in H2. cbn [app] in H2.
    rewrite <- !app_assoc in H2. cbn [app] in H2.
    apply first_sep_suffix in H2; [|exact Hu1]. destruct H2 as (k & H2).
    repeat (cbn [app] in H2; rewrite <- ?app_assoc in H2).
    rewrite (app_assoc k b2) in H2.
    apply (suffix_of_sep (fun c => is_space c = true) r1) in H2; auto.
    eapply Forall_impl; [|exact Hr1]. cbn. intros c (Hc & _). congruence. }
  destruct X2 as (k2 & ->). destruct Y1 as (k1 & ->).
  assert (LL : length text = length text) by reflexivity. rewrite E1 in LL at 1.
  rewrite F2, HW in LL. repeat (rewrite app_length in LL || cbn [length] in LL).
  rewrite app_length. cbn [length]. lia.
Qed.

Definition disjoint (m m' : nat * nat) : Prop := snd m <= fst m' \/ snd m' <= fst m.

Lemma FOP_perm {A} (R : A -> A -> Prop) l l' :
  (forall x y, R x y -> R y x) -> Permutation l l' -> ForallOrdPairs R l -> ForallOrdPairs R l'.
Proof.
  intros Hs H. induction H as [|x l l' H IH|x y l|l l' l'' H1 IH1 H2 IH2]; intros F.
  - exact F.
  - inversion F as [|? ? F1 F2]; subst. constructor; [|auto].
    eapply Permutation_Forall; eauto.
  - inversion F as [|? ? F1 F2]; subst. inversion F2 as [|? ? F3 F4]; subst.
    inversion F1 as [|? ? F5 F6]; subst. constructor; [constructor; auto|constructor; auto].
  - auto.
Qed.

Lemma FOP_app {A} (R : A -> A -> Prop) l l' :
  ForallOrdPairs R l -> ForallOrdPairs R l' -> (forall x y, In x l -> In y l' -> R x y) ->
  ForallOrdPairs R (l ++ l').
Proof.
  intros H H' Hx. induction H as [|x l H1 H2 IH]; [exact H'|]. cbn [app]. constructor.
  - apply Forall_app. split; [exact H1|]. apply Forall_forall. intros y Hy. apply Hx; [left; reflexivity|exact Hy].
  - apply IH. intros a b Ha Hb. apply Hx; [right; exact Ha|exact Hb].
Qed.

Lemma FOP_impl {A} (R R' : A -> A -> Prop) l :
  (forall x y, R x y -> R' x y) -> ForallOrdPairs R l -> ForallOrdPairs R' l.
Proof.
  intros Hi H. induction H as [|x l H1 H2 IH]; [constructor|]. constructor; [|exact IH].
  eapply Forall_impl; [|exact H1]. auto.
Qed.

Lemma nth_at {A} (a : list A) x c : nth_error (a ++ x :: c) (length a) = Some x.
Proof. rewrite nth_error_app2, Nat.sub_diag by lia. reflexivity. Qed.

Lemma footnote_url_disjoint text m m' :
  links_apart text -> In m (finditer FOOTNOTE_REGEX text) -> In m' (finditer URL_REGEX text) ->
  disjoint m m'.
Proof.
  intros HA H H'. destruct m as [a b], m' as [a' b'].
  apply finditer_In in H. destruct H as (x1 & g1 & y1 & E1 & _ & D1 & -> & ->).
  apply finditer_In in H'. destruct H' as (x2 & g2 & y2 & E2 & _ & D2 & -> & ->).
  apply footnote_den in D1. destruct D1 as (p1 & q1 & u1 & r1 & L1).
  apply url_den in D2. destruct D2 as (p2 & q2 & u2 & r2 & L2).
  unfold disjoint. cbn [fst snd].
  destruct (lt_eq_lt_dec (length x1 + length p1 + length q1) (length x2 + length p2 + length q2))
    as [[H|H]|H].
  - left. eapply apart_disjoint; eauto. discriminate.
  - exfalso. destruct L1 as [G1 _ _ _ _ _], L2 as [G2 _ _ _ _ _].
    assert (N1 : nth_error text (length x1 + length p1 + length q1 + 2) = Some c_lbr).
    { rewrite E1, G1. replace (length x1 + length p1 + length q1 + 2)
        with (length (x1 ++ p1 ++ [c_lbr] ++ q1 ++ [c_rbr])) by (rewrite !app_length; cbn; lia).
      transitivity (nth_error ((x1 ++ p1 ++ [c_lbr] ++ q1 ++ [c_rbr]) ++ c_lbr :: u1 ++ [c_rbr] ++ r1 ++ y1)
        (length (x1 ++ p1 ++ [c_lbr] ++ q1 ++ [c_rbr]))).
      - f_equal. rewrite <- !app_assoc. reflexivity.
      - apply nth_at. }
    assert (N2 : nth_error text (length x2 + length p2 + length q2 + 2) = Some c_lpar).
    { rewrite E2, G2. replace (length x2 + length p2 + length q2 + 2)
        with (length (x2 ++ p2 ++ [c_lbr] ++ q2 ++ [c_rbr])) by (rewrite !app_length; cbn; lia).
      transitivity (nth_error ((x2 ++ p2 ++ [c_lbr] ++ q2 ++ [c_rbr]) ++ c_lpar :: u2 ++ [c_rpar] ++ r2 ++ y2)
        (length (x2 ++ p2 ++ [c_lbr] ++ q2 ++ [c_rbr]))).
      - f_equal. rewrite <- !app_assoc. reflexivity.
      - apply nth_at. }
    rewrite H, N2 in N1. discriminate.
  - right. eapply apart_disjoint; eauto. discriminate.
Qed.

Fixpoint chain (n from : nat) (ms : list (nat * nat)) : Prop :=
  match ms with
  | [] => True
  | m :: ms' => from <= fst m /\ fst m < snd m /\ snd m <= n /\ chain n (snd m) ms'
  end.

Lemma sorted_chain n ms from :
  StronglySorted (fun x y => fst x <= fst y) ms -> ForallOrdPairs disjoint ms ->
  Forall (fun m => fst m < snd m /\ snd m <= n) ms -> Forall (fun m => from <= fst m) ms ->
  chain n from ms.
Proof.
  revert from. induction ms as [|m ms IH]; intros from HS HD HF Hfrom; [exact I|].
  inversion HS as [|? ? HS1 HS2]; subst. inversion HD as [|? ? HD1 HD2]; subst.
  inversion HF as [|? ? HF1 HF2]; subst. inversion Hfrom as [|? ? Hf1 Hf2]; subst.
  cbn [chain]. split; [exact Hf1|]. split; [apply HF1|]. split; [apply HF1|].
  apply IH; auto. rewrite Forall_forall in *. intros m' Hin. specialize (HS2 m' Hin).
  specialize (HD1 m' Hin). specialize (HF2 m' Hin). unfold disjoint in HD1. lia.
Qed.

Lemma link_matches_chain text : links_apart text -> chain (length text) 0 (link_matches text).
Proof.
  intros HA. unfold link_matches. apply sorted_chain.
  - apply sort_sorted.
  - eapply FOP_perm; [|apply Permutation_sym, sort_permutation|].
    + unfold disjoint. intros; lia.
    + apply FOP_app.
      * eapply FOP_impl; [|apply (scan_sorted _ _ _ _ (finditer_scan FOOTNOTE_REGEX text))].
        unfold disjoint. auto.
      * eapply FOP_impl; [|apply (scan_sorted _ _ _ _ (finditer_scan URL_REGEX text))].
        unfold disjoint. auto.
      * intros x y. apply footnote_url_disjoint. exact HA.
  - eapply Permutation_Forall; [apply Permutation_sym, sort_permutation|]. apply Forall_app.
    split; apply Forall_forall; intros [a b] H; apply finditer_In in H;
      destruct H as (x & g & y & E & Hg & _ & -> & ->); cbn [fst snd];
      assert (L := f_equal (@length _) E); rewrite !app_length in L;
      (destruct g; [congruence|]); cbn [length] in *; lia.
  - apply Forall_forall. intros; lia.
Qed.

(** * No character is lost *)

Lemma firstn_slice (s : str) a b : a <= b -> firstn b s = firstn a s ++ slice s a b.
Proof.
  intros H. unfold slice. revert a b H. induction s as [|c s IH]; intros a b H.
  - rewrite skipn_nil, !firstn_nil. reflexivity.
  - destruct a as [|a]; [cbn [firstn skipn app]; f_equal; lia|]. destruct b as [|b]; [lia|].
    cbn [firstn skipn]. rewrite (IH a b) by lia. reflexivity.
Qed.

Lemma link_step_ink text lead ts le m :
  links_apart text -> link_at text m -> le <= fst m -> fst m < snd m ->
  ink (texts ts) = ink (firstn le text) ->
  exists ts', link_step text lead (ts, le) m = Ok (ts', snd m)
    /\ ink (texts ts') = ink (firstn (snd m) text).
Proof.
  intros HA Hm Hle Hlt Hi.
  destruct Hm as (x & g & y & p & q & u & r & o & cl & Et & Hl & Ha & Hb).
  destruct m as [a b]. cbn [fst snd] in *. unfold link_step.
  assert (Sg : slice text a b = g) by (rewrite Et, Ha, Hb; apply slice_mid). rewrite Sg.
  destruct (split_link_apart g p q u r o cl Hl) as (gx & gy & gz & -> & Eg).
  { rewrite Et in HA. eapply links_apart_infix. exact HA. }
  match goal with |- context [let '(ts, lead_link) := ?X in _] =>
    assert (A : exists ts1 ll, X = (ts1, ll) /\ ink (texts ts1) = ink (firstn a text)) end.
  { rewrite (firstn_slice text le a) by lia. rewrite ink_app, <- Hi.
    destruct (blank (slice text le a)) eqn:Eb; cbn [negb].
    - eexists. eexists. split; [reflexivity|]. rewrite (ink_blank _ Eb), app_nil_r. reflexivity.
    - eexists. eexists. split; [reflexivity|]. rewrite texts_app, texts_one, ink_app. cbn [t_text].
      rewrite ink_strip. destruct (negb (nilb ts) && one_dot (slice text le a)) eqn:Ed; [|reflexivity].
      apply andb_true_iff in Ed. destruct Ed as [En Ed].
      destruct ts as [|t ts] using rev_ind; [discriminate|]. clear IHts.
      apply one_dot_spec in Ed. destruct Ed as (v & -> & _). cbn [tl].
      rewrite app_last_snoc, !texts_app, !texts_one. cbn [t_text].
      change (c_dot :: v) with ([c_dot] ++ v). rewrite !ink_app, <- !app_assoc. reflexivity. }
  destruct A as (ts1 & ll & -> & Hi1). cbn [bind]. eexists. split; [reflexivity|].
  rewrite texts_app. unfold texts at 2. cbn [map concat t_text].
  rewrite (firstn_slice text a b) by lia. rewrite Sg, Eg, !ink_app, Hi1, !ink_strip, app_nil_r, !app_assoc.
  reflexivity.
Qed.

Lemma link_fold_ink text lead ms : links_apart text ->
  Forall (link_at text) ms -> forall ts le,
  chain (length text) le ms -> ink (texts ts) = ink (firstn le text) -> (ts = [] -> le = 0) ->
  le <= length text ->
  exists ts' le', foldM (link_step text lead) ms (ts, le) = Ok (ts', le')
    /\ ink (texts ts') = ink (firstn le' text) /\ le' <= length text.
Proof.
  intros HA H. induction H as [|m ms Hm H IH]; intros ts le HC Hi Hn Hle.
  - exists ts, le. cbn. auto.
  - cbn [chain] in HC. destruct HC as (H1 & H2 & H3 & HC).
    destruct (link_step_ink text lead ts le m HA Hm H1 H2 Hi) as (ts1 & E & Hi1).
    destruct (IH ts1 (snd m) HC Hi1) as (ts2 & le2 & E2 & G).
    + intros ->. exfalso. unfold link_step in E. destruct m as [a b]. cbn [snd] in E.
      match type of E with (let '(ts, lead_link) := ?X in _) = _ => destruct X as [t1 ll] end.
      apply bind_ok in E. destruct E as ([? ?] & _ & E). apply ok_inj in E.
      apply (f_equal fst) in E. cbn [fst] in E. destruct t1; discriminate.
    + exact H3.
    + exists ts2, le2. cbn [foldM]. rewrite E. cbn [bind]. auto.
Qed.

Lemma link_split_ink text lead ts :
  links_apart text -> link_split text lead = Ok ts -> ink (texts ts) = ink text.
Proof.
  intros HA. unfold link_split.
  destruct (link_fold_ink text lead (link_matches text) HA (link_matches_at text) [] 0)
    as (ts1 & le & E & Hi & Hle); [apply link_matches_chain; exact HA|reflexivity|auto|lia|].
  rewrite E. cbn [bind]. intros H.
  assert (Hn : ts1 = [] -> firstn le text = []).
  { intros ->. destruct (link_fold_ok text lead (link_matches text) [] 0 (link_matches_at text) I)
      as (ts2 & le2 & E2 & _ & Hnil & Hne). rewrite E in E2. apply ok_inj in E2. injection E2 as <- <-.
    destruct (link_matches text) as [|m ms].
    - destruct (Hnil eq_refl) as [_ ->]. reflexivity.
    - destruct (Hne ltac:(discriminate)). congruence. }
  destruct (split_tail_spec (fun _ => True) text (firstn le text) (skipn le text) ts1 le lead ts)
    as [G _]; auto.
  - symmetry. apply firstn_skipn.
  - apply Forall_forall. auto.
Qed.

Lemma link_pass_ink text ts r :
  Forall (code_tok text) ts -> links_apart text ->
  split_pass link_split ts = Ok r -> ink (texts r) = ink (texts ts).
Proof.
  intros H HA. revert r. induction H as [|t ts Ht H IH]; intros r E.
  - apply ok_inj in E. subst. reflexivity.
  - rewrite split_pass_cons in E. apply bind_ok in E. destruct E as (a & Ea & E).
    apply bind_ok in E. destruct E as (b & Eb & E). apply ok_inj in E. subst r.
    rewrite texts_app, ink_app, (IH b Eb). change (t :: ts) with ([t] ++ ts).
    rewrite texts_app, ink_app, texts_one. f_equal. unfold code_tok in Ht. destruct (t_eval t).
    + eapply link_split_ink; [|exact Ea]. destruct Ht as (x & y & -> & _).
      eapply links_apart_infix. exact HA.
    + apply ok_inj in Ea. subst a. rewrite texts_one. reflexivity.
Qed.

Lemma wrap_tokens_ink text ts :
  links_apart (joined text) -> wrap_tokens text = Ok ts -> ink (texts ts) = ink text.
Proof.
  unfold wrap_tokens. intros HA E. apply bind_ok in E. destruct E as (ts1 & E1 & E).
  apply bind_ok in E. destruct E as (ts2 & E2 & E). apply bind_ok in E. destruct E as (ts3 & E3 & E4).
  apply code_pass_inv in E1. destruct E1 as [Hi1 H1].
  rewrite (split_pass_ink space_split ts3 ts) by
    (auto; intros t l r Er; apply space_pass_ok in Er; tauto).
  rewrite (split_pass_ink newline_split ts2 ts3) by
    (auto; intros t l r Er; apply newline_pass_ok in Er; tauto).
  rewrite (link_pass_ink (joined text) ts1 ts2) by auto. rewrite Hi1. apply ink_joined.
Qed.
