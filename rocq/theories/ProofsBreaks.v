(** Where lines are broken in text with links. *)
From Coq Require Import String Permutation.
From Verif Require Import Py Regex Utils TextWrap Lines Base SpecLines SpecParser SpecWrap SpecFormat ProofsLines
  ProofsRegex ProofsScan ProofsWrap ProofsTokens ProofsParser ProofsLinks ProofsPieces ProofsApart ProofsFilled
  ProofsChars ProofsGaps ProofsSeams.

(** * The edges of a link *)

Definition opens (s : str) : Prop :=
  forall c s', s = c :: s' -> is_space c = true \/ In c (lit "[(").
Definition edges (text : str) (m : nat * nat) : Prop :=
  exists x g y, text = x ++ g ++ y /\ fst m = length x /\ snd m = length x + length g
    /\ opens y
    /\ (x = [] \/ (exists a c, x = a ++ [c] /\ (is_space c = true \/ In c (lit "])")))
        \/ exists c g', g = c :: g' /\ In c (lit "[(")).

Lemma rmatch_greedy (p : char -> bool) l : forall s n, rmatch (l ++ [Star p]) s = Some n ->
  forall c s', skipn n s = c :: s' -> p c = false.
Proof.
  induction l as [|i l IH]; intros s n.
  - cbn [app]. revert n. induction s as [|d s IHs]; intros n E c s' Hs.
    + rewrite skipn_nil in Hs. discriminate.
    + rewrite rmatch_star in E. destruct (p d) eqn:Ed.
      * destruct (rmatch [Star p] s) as [k|] eqn:Ek.
        -- injection E as <-. cbn [skipn] in Hs. eapply IHs; [reflexivity|exact Hs].
        -- cbn in E. injection E as <-. cbn [skipn] in Hs. exfalso. clear -Ek. induction s as [|e s IHs]; [discriminate|].
           rewrite rmatch_star in Ek. destruct (p e); [|discriminate]. destruct (rmatch [Star p] s); discriminate.
      * cbn in E. injection E as <-. cbn [skipn] in Hs. congruence.
  - destruct i as [q|q|q k]; cbn [app].
    + intros E c s' Hs. destruct s as [|d s]; [discriminate|]. cbn [rmatch] in E. destruct (q d); [|discriminate].
      destruct (rmatch (l ++ [Star p]) s) as [k|] eqn:Ek; [|discriminate]. cbn in E. injection E as <-. cbn [skipn] in Hs.
      eapply IH; eassumption.
    + revert n. induction s as [|d s IHs]; intros n E c s' Hs; rewrite rmatch_star in E.
      * eapply IH; eassumption.
      * destruct (q d); [|eapply IH; eassumption].
        destruct (rmatch (Star q :: l ++ [Star p]) s) as [k|] eqn:Ek; [|eapply IH; eassumption].
        injection E as <-. cbn [skipn] in Hs. eapply IHs; [reflexivity|exact Hs].
    + revert k n. induction s as [|d s IHs]; intros k n E c s' Hs; rewrite rmatch_upto in E.
      * destruct k; eapply IH; eassumption.
      * destruct k as [|k]; [eapply IH; eassumption|]. destruct (q d); [|eapply IH; eassumption].
        destruct (rmatch (Upto q k :: l ++ [Star p]) s) as [j|] eqn:Ek; [|eapply IH; eassumption].
        injection E as <-. cbn [skipn] in Hs. eapply IHs; [exact Ek|exact Hs].
Qed.

Lemma scan_edges (p q : char -> bool) l text :
  (forall c, p c = false -> is_space c = true \/ In c (lit "])")) ->
  (forall c, q c = false -> is_space c = true \/ In c (lit "[(")) ->
  (forall c g, den (Star p :: l ++ [Star q]) (c :: g) -> is_space c = false) ->
  forall pos s ms, scan (rmatch (Star p :: l ++ [Star q])) pos s ms ->
  forall pre, text = pre ++ s -> pos = length pre -> (pre = [] \/ opens s) -> Forall (edges text) ms.
Proof.
  intros Hp Hq Hd pos s ms H. set (r := Star p :: l ++ [Star q]) in *.
  induction H as [|pos gap g rest ms Hg Hn Hm H IH]; intros pre Et Ep Ho; [constructor|].
  assert (Hr : opens rest).
  { intros c s' ->. apply Hq. change r with ((Star p :: l) ++ [Star q]) in Hm.
    eapply (rmatch_greedy q (Star p :: l)); [exact Hm|]. apply skipn_pre. }
  constructor.
  - exists (pre ++ gap), g, rest. cbn [fst snd]. rewrite Et, Ep, app_length, <- app_assoc.
    split; [reflexivity|]. split; [reflexivity|]. split; [reflexivity|]. split; [exact Hr|].
    destruct gap as [|c gap _] using rev_ind.
    + destruct Ho as [->|Ho]; [auto|]. right. right. destruct g as [|c g]; [congruence|]. exists c, g. split; [reflexivity|].
      destruct (Ho c (g ++ rest) eq_refl) as [Hs|Hs]; [|exact Hs]. exfalso.
      apply rmatch_den in Hm. destruct Hm as [_ Hm]. rewrite firstn_app, Nat.sub_diag, firstn_all, app_nil_r in Hm.
      apply Hd in Hm. congruence.
    + right. left. exists (pre ++ gap), c. split; [rewrite app_assoc; reflexivity|]. apply Hp.
      destruct (p c) eqn:Ec; [|reflexivity]. exfalso.
      specialize (Hg gap [c] eq_refl ltac:(discriminate)). unfold r in Hg, Hm. unfold no_match in Hg.
      cbn [app] in Hg. rewrite rmatch_star, Ec, Hm in Hg. destruct Hg; discriminate.
  - apply (IH (pre ++ gap ++ g)); [rewrite Et, <- !app_assoc; reflexivity|rewrite !app_length; lia|auto].
Qed.

Lemma link_first c g : den FOOTNOTE_REGEX (c :: g) \/ den URL_REGEX (c :: g) -> is_space c = false.
Proof.
  intros H. apply link_den in H. destruct H as (p & q & u & r & o & cl & [E _ Hp _ _ _]).
  destruct p as [|d p]; cbn [app] in E; injection E as -> _; [reflexivity|]. apply Forall_inv in Hp. apply Hp.
Qed.

Lemma not_in_s_false cs c : not_in_s cs c = false -> is_space c = true \/ In c cs.
Proof.
  unfold not_in_s, not_in. intros H. apply andb_false_iff in H. destruct H as [H|H]; apply negb_false_iff in H; [auto|].
  right. apply existsb_exists in H. destruct H as (x & Hin & Ex). apply N.eqb_eq in Ex. subst x. exact Hin.
Qed.

Lemma link_matches_edges text : Forall (edges text) (link_matches text).
Proof.
  unfold link_matches. eapply Permutation_Forall; [apply Permutation_sym, sort_permutation|]. apply Forall_app. split.
  - refine (scan_edges (not_in_s [c_rbr; c_rpar]) (not_in_s [c_lbr; c_lpar])
      ([Is c_lbr] ++ Plus (not_in [c_lbr]) ++ [Is c_rbr; Is c_lbr] ++ Plus (not_in [c_rbr]) ++ [Is c_rbr]) text
      (not_in_s_false _) (not_in_s_false _) _ 0 text _ (finditer_scan FOOTNOTE_REGEX text) [] eq_refl eq_refl (or_introl eq_refl)).
    intros c g H. apply (link_first c g). left. exact H.
  - refine (scan_edges (not_in_s [c_rbr; c_rpar]) (not_in_s [c_lbr; c_lpar])
      ([Is c_lbr] ++ Plus (not_in [c_lbr]) ++ [Is c_rbr; Is c_lpar] ++ Plus (not_in [c_rpar]) ++ [Is c_rpar]) text
      (not_in_s_false _) (not_in_s_false _) _ 0 text _ (finditer_scan URL_REGEX text) [] eq_refl eq_refl (or_introl eq_refl)).
    intros c g H. apply (link_first c g). right. exact H.
Qed.

(** * Close to each other *)

(** What can be broken: [x] and what follows it. *)
Definition touch2 (x : char) (s : str) : Prop :=
  In x (lit "`.>([") \/ (exists y s', s = y :: s' /\ In y (lit "`<[("))
  \/ (In x (lit "])") /\ exists p b, s = p ++ [c_lbr] ++ b /\ ~ In c_rbr p /\ ~ In c_rpar p).

Lemma touch2_app x s t : touch2 x s -> touch2 x (s ++ t).
Proof.
  intros [H|[(y & s' & -> & H)|(H & p & b & -> & Hp)]]; [left; exact H|right; left; exists y, (s' ++ t); auto|].
  right. right. split; [exact H|]. exists p, (b ++ t). split; [rewrite <- !app_assoc; reflexivity|exact Hp].
Qed.

Fixpoint nearly (z : option char) (m n : list (flag * char)) : Prop :=
  match m, n with
  | [], [] => True
  | (f, c) :: m, (g, d) :: n =>
      c = d /\ (gapf f = true -> gapf g = true \/ exists x, z = Some x /\ touch2 x (c :: map snd m)) /\ nearly (Some c) m n
  | _, _ => False
  end.

Lemma near_nearly m : forall z n, near z m n -> nearly z m n.
Proof.
  induction m as [|[f c] m IH]; intros z [|[g d] n] H; try exact H. destruct H as (H1 & H2 & H3).
  split; [exact H1|]. split; [|apply IH, H3]. intros G. destruct (H2 G) as [G1|(x & -> & [G1|G1])]; [auto| |];
    right; exists x; (split; [reflexivity|]); cbn in G1; [left; cbn; tauto|].
  right. left. exists c, (map snd m). split; [reflexivity|]. cbn. tauto.
Qed.

Lemma nearly_chars m : forall z n, nearly z m n -> map snd m = map snd n.
Proof.
  induction m as [|[f c] m IH]; intros z [|[g d] n] H; try contradiction; [reflexivity|]. destruct H as (-> & _ & H).
  cbn [map snd]. f_equal. eapply IH. exact H.
Qed.

Lemma nearly_trans m : forall z n k, nearly z m n -> nearly z n k -> nearly z m k.
Proof.
  induction m as [|[f c] m IH]; intros z [|[g d] n] [|[h e] k] H H'; try contradiction; [exact I|].
  destruct H as (<- & H2 & H3), H' as (<- & H2' & H3'). split; [reflexivity|]. split; [|eapply IH; eassumption].
  intros G. rewrite (nearly_chars _ _ _ H3) in *. destruct (H2 G) as [G1|G1]; auto.
Qed.

Lemma relm_nearly m n : Forall2 (relm False) m n -> forall z, nearly z m n.
Proof.
  intros H. induction H as [|[f c] [g d] m n [H1 (_ & H2 & _)] H IH]; intros z; [exact I|]. cbn in H1, H2.
  split; [exact H1|]. split; [auto|apply IH].
Qed.

Definition lastc (z : option char) (m : list (flag * char)) : option char :=
  fold_left (fun _ p => Some (snd p)) m z.

Lemma nearly_app m : forall z n m' n', nearly z m n -> nearly (lastc z n) m' n' -> nearly z (m ++ m') (n ++ n').
Proof.
  induction m as [|[f c] m IH]; intros z [|[g d] n] m' n' H H'; try contradiction; [exact H'|].
  destruct H as (<- & H2 & H3). cbn [app nearly]. split; [reflexivity|]. split; [|apply IH; [exact H3|exact H']].
  intros G. destruct (H2 G) as [G1|(x & Ex & G1)]; [auto|]. right. exists x. split; [exact Ex|].
  rewrite map_app, app_comm_cons. apply touch2_app. exact G1.
Qed.

Lemma nearly_nil m z n : nearly z m n -> (m = [] <-> n = []).
Proof. destruct m as [|[f c] m], n as [|[g d] n]; cbn; intros H; try contradiction; split; congruence. Qed.

Lemma nearly_nth m : forall z n i f c, nearly z m n -> nth_error m i = Some (f, c) -> gapf f = true ->
  exists g, nth_error n i = Some (g, c)
    /\ (gapf g = true \/ exists x0, match i with 0 => z | S j => nth_error (map (fun p => snd p) n) j end = Some x0
         /\ touch2 x0 (skipn i (map (fun p => snd p) n))).
Proof.
  induction m as [|[f0 c0] m IH]; intros x n i f c H E G; [destruct i; discriminate|].
  destruct n as [|[g0 d0] n]; [destruct H|]. assert (Hc := nearly_chars _ _ _ H). destruct H as (<- & H1 & H2). destruct i as [|i].
  - injection E as -> ->. exists g0. split; [reflexivity|]. cbn [skipn].
    change (map (fun p : flag * char => snd p)) with (map (@snd flag char)). rewrite <- Hc. apply H1, G.
  - cbn [nth_error] in E. destruct (IH _ _ _ _ _ H2 E G) as (g & Eg & H). exists g. split; [exact Eg|].
    destruct H as [H|(x0 & Ex & H)]; [auto|]. right. exists x0. split; [|exact H]. destruct i; exact Ex.
Qed.

(** The same with some whitespace removed. *)
Inductive loose : str -> str -> Prop :=
| loose_nil : loose [] []
| loose_keep x s c : loose s c -> loose (x :: s) (x :: c)
| loose_drop x s c : is_space x = true -> loose s c -> loose s (x :: c).

Lemma loose_refl s : loose s s.
Proof. induction s; constructor; assumption. Qed.
Lemma loose_spaces ws : spaces ws -> loose [] ws.
Proof. intros H. induction H; constructor; assumption. Qed.
Lemma loose_app a b c d : loose a b -> loose c d -> loose (a ++ c) (b ++ d).
Proof. intros H G. induction H; [exact G| |]; cbn [app]; constructor; assumption. Qed.

Lemma loose_nearly s c : loose s c -> forall z P Q, (P = Fs <-> Q = Fs) -> (gapf P = true -> gapf Q = true) ->
  nearly z (marks P s) (marks Q c).
Proof.
  intros H. induction H as [|x s c H IH|x s c Hx H IH]; intros z P Q H0 H1; [exact I| |].
  - cbn [marks]. destruct (is_space x).
    + apply IH; destruct P, Q; revert H0 H1; flags.
    + split; [reflexivity|]. split; [auto|]. apply IH; auto; tauto.
  - cbn [marks]. rewrite Hx. apply IH; destruct P, Q; revert H0 H1; flags.
Qed.

Definition wide (ts : list tok) : str := rend widely (map piece_of ts).

Lemma wide_app a b : wide (a ++ b) = wide a ++ wide b.
Proof. unfold wide. rewrite map_app. apply rend_app. Qed.
Lemma wide_one t : wide [t] = [c_sp] ++ t_text t.
Proof. unfold wide, rend, widely. cbn. rewrite app_nil_r. reflexivity. Qed.

Lemma endf_adjacent q s : q <> Fa -> endf q s = Fa -> ink_last s.
Proof.
  intros Hq. destruct s as [|c s _] using rev_ind; [cbn; congruence|]. rewrite endf_app. cbn [endf].
  destruct (is_space c) eqn:Ec.
  - destruct (endf q s); cbn; try destruct (N.eqb c c_nl); discriminate.
  - intros _. exists s, c. auto.
Qed.

Lemma lastc_ink z q s c : is_space c = false -> lastc z (marks q (s ++ [c])) = Some c.
Proof. intros H. rewrite marks_app. cbn [marks]. rewrite H. unfold lastc. rewrite fold_left_app. reflexivity. Qed.

Lemma nearly_add z P Q ts t pre ws y s c :
  P <> Fa -> Q <> Fa -> (P = Fs <-> Q = Fs) -> nearly z (marks P (wide ts)) (marks Q pre) ->
  spaces ws -> t_text t = y :: s -> is_space y = false -> loose s c ->
  (pre = [] \/ ws <> [] \/ In y (lit "`<[(") \/ (exists a d, pre = a ++ [d] /\ (is_space d = true \/ In d (lit "`.>(["))) 
   \/ (exists a d p b, pre = a ++ [d] /\ In d (lit "])") /\ y :: ink s = p ++ [c_lbr] ++ b /\ ~ In c_rbr p /\ ~ In c_rpar p)) ->
  nearly z (marks P (wide (ts ++ [t]))) (marks Q (pre ++ ws ++ y :: c)).
Proof.
  intros HP HQ H0 H Hw Et Hy Hc Hor.
  rewrite wide_app, wide_one, Et, !marks_app. apply nearly_app; [exact H|].
  rewrite (marks_spaces _ ws Hw), (marks_spaces _ [c_sp]) by (repeat constructor). cbn [app marks].
  change (y :: s) with ([y] ++ s). rewrite Hy. split; [reflexivity|]. split; [|apply loose_nearly; [exact Hc|tauto|auto]].
  intros G. destruct (gapf (endf (endf Q pre) ws)) eqn:Eg; [auto|]. right.
  assert (E0 : endf P (wide ts) = Fs <-> endf Q pre = Fs).
  { rewrite !endf_start, H0. apply nearly_nil in H. tauto. }
  assert (E1 : ws = [] /\ endf Q pre = Fa).
  { destruct ws as [|w ws].
    - split; [reflexivity|]. cbn [endf] in Eg. destruct (endf Q pre); try discriminate; [|reflexivity].
      exfalso. rewrite (proj2 E0 eq_refl) in G. discriminate.
    - exfalso. assert (K : endf (endf Q pre) (w :: ws) = Fs).
      { assert (K2 := Hw). destruct (endf (endf Q pre) (w :: ws)) eqn:K; try discriminate; [reflexivity|].
        exfalso. apply Forall_inv in Hw. cbn [endf] in K. rewrite Hw in K.
        apply endf_adjacent in K; [|destruct (endf Q pre); cbn; try discriminate; destruct (N.eqb w c_nl); discriminate].
        destruct K as (a & d & -> & Hd). apply Forall_inv_tail in K2. apply Forall_app in K2. destruct K2 as [_ K2].
        apply Forall_inv in K2. congruence. }
      apply endf_start in K. destruct K as [K _]. rewrite (proj2 E0 K) in G. discriminate. }
  destruct E1 as [-> E1]. destruct (endf_adjacent Q pre HQ E1) as (a & d & -> & Hd).
  exists d. split; [apply lastc_ink; exact Hd|].
  destruct Hor as [K|[K|[K|[(a' & d' & K & K')|(a' & d' & p & b & K & K' & K2)]]]];
    [destruct a; discriminate|congruence|right; left; eexists; eexists; split; [reflexivity|exact K]| |];
    apply app_inj_tail in K; destruct K as [_ <-].
  - destruct K' as [K'|K']; [congruence|left; exact K'].
  - right. right. split; [exact K'|]. exists p, b. rewrite marks_ink. exact K2.
Qed.

Lemma strip_loose s : blank s = false -> exists ws y a c, s = ws ++ y :: c /\ strip s = y :: a /\ spaces ws
  /\ is_space y = false /\ loose a c.
Proof.
  intros H. destruct (strip_ends s H) as [(y & a & Es & Hy) _].
  destruct (strip_spec s) as (pre & post & E & Hp & Hq). apply spaces_forallb in Hp, Hq. rewrite Es in E.
  exists pre, y, a, (a ++ post). split; [exact E|]. split; [exact Es|]. split; [exact Hp|]. split; [exact Hy|].
  rewrite <- (app_nil_r a) at 1. apply loose_app; [apply loose_refl|apply loose_spaces, Hq].
Qed.

(** * Links *)

Lemma app_len_inj (a b c d : str) : a ++ b = c ++ d -> length a = length c -> a = c /\ b = d.
Proof.
  revert c. induction a as [|x a IH]; intros [|y c] E L; try discriminate; [auto|]. injection E as -> E. injection L as L.
  destruct (IH c E L) as [-> ->]. auto.
Qed.

Lemma opens_dot s : opens s -> one_dot s = false.
Proof.
  intros H. destruct (one_dot s) eqn:E; [|reflexivity]. exfalso. apply one_dot_spec in E. destruct E as (v & -> & _).
  destruct (H _ _ eq_refl) as [K|K]; [discriminate|]. cbn in K. intuition discriminate.
Qed.

Section Link.
Variables (z : option char) (P Q : flag).
Hypotheses (HP : P <> Fa) (HQ : Q <> Fa) (HPQ : P = Fs <-> Q = Fs).

Definition linking (text : str) (ts : list tok) (le : nat) : Prop :=
  nearly z (marks P (wide ts)) (marks Q (firstn le text))
  /\ ((ts = [] /\ le = 0) \/ (ts <> [] /\ opens (skipn le text))).

Lemma nearly_text ts lead ev pre gap :
  nearly z (marks P (wide ts)) (marks Q pre) -> blank gap = false -> pre = [] \/ opens gap ->
  nearly z (marks P (wide (ts ++ [Tok (strip gap) lead ev]))) (marks Q (pre ++ gap)).
Proof.
  intros H Hb Ho. destruct (strip_loose gap Hb) as (ws & y & a & c & Eg & Es & Hw & Hy & Hl). rewrite Eg at 2.
  eapply nearly_add; [exact HP|exact HQ|exact HPQ|exact H|exact Hw|exact Es|exact Hy|exact Hl|].
  destruct Ho as [->|Ho]; [auto|]. right. destruct ws as [|w ws]; [|left; discriminate].
  right. left. destruct (Ho y c Eg) as [K|K]; [congruence|]. cbn in K |- *. tauto.
Qed.

Lemma link_step_near text lead ts le m ts' le' :
  links_apart text -> link_at text m -> edges text m -> le <= fst m -> fst m < snd m -> le <= length text ->
  linking text ts le -> link_step text lead (ts, le) m = Ok (ts', le') -> le' = snd m /\ linking text ts' le'.
Proof.
  intros HA Hm (x & g & y & Et & Ha & Hb & Hy & Hx) Hle Hlt Hlen [H1 H2].
  destruct Hm as (x' & g' & y' & lp & lq & lu & lr & o & cl & Et' & Hl & Ha' & Hb').
  assert (x' = x /\ g' = g /\ y' = y).
  { rewrite Et in Et'. apply app_len_inj in Et'; [|congruence]. destruct Et' as [-> Et'].
    apply app_len_inj in Et'; [|lia]. destruct Et' as [-> ->]. auto. }
  destruct H as (-> & -> & ->). clear Et' Ha' Hb'.
  destruct m as [a b]. cbn [fst snd] in *. unfold link_step.
  assert (Sg : slice text a b = g) by (rewrite Et, Ha, Hb; apply slice_mid). rewrite Sg.
  rewrite (split_link_at g lp lq lu lr o cl Hl) by (rewrite Et in HA; eapply links_apart_infix; exact HA).
  destruct Hl as [Eg K Hp _ _ _].
  set (L := lp ++ [c_lbr] ++ lq). set (Y := lu ++ [cl] ++ lr).
  assert (EP : g = L ++ [c_rbr; o] ++ Y) by (rewrite Eg; unfold L, Y; rewrite <- !app_assoc; reflexivity).
  set (gap := slice text le a).
  assert (Fa' : firstn a text = firstn le text ++ gap) by (apply firstn_slice; lia).
  assert (Ex : firstn a text = x) by (rewrite Et, Ha, firstn_app, Nat.sub_diag, firstn_all, app_nil_r; reflexivity).
  assert (Hgo : ts <> [] -> opens gap).
  { intros Hn c s' Ec. destruct H2 as [[-> _]|[_ H2]]; [congruence|]. apply (H2 c (s' ++ skipn a text)).
    rewrite app_comm_cons, <- Ec. apply (app_inv_head (firstn le text)).
    rewrite firstn_skipn, app_assoc, <- Fa', firstn_skipn. reflexivity. }
  match goal with |- context [let '(ts, lead_link) := ?X in _] =>
    assert (A : exists ts1 ll, X = (ts1, ll) /\ nearly z (marks P (wide ts1)) (marks Q (firstn a text))) end.
  { destruct (blank gap) eqn:Eb; cbn [negb]; eexists; eexists; (split; [reflexivity|]).
    - assert (Hsp : spaces gap) by (apply spaces_forallb, blank_spec, Eb).
      rewrite Fa', marks_app, (marks_spaces _ gap Hsp), app_nil_r. exact H1.
    - assert (Ed : negb (nilb ts) && one_dot gap = false).
      { destruct ts as [|t ts]; [reflexivity|]. cbn [nilb negb andb]. apply opens_dot, Hgo. discriminate. }
      rewrite Ed, Fa'. apply nearly_text; [exact H1|exact Eb|]. destruct H2 as [[_ ->]|[Hn _]]; [left; reflexivity|right; auto]. }
  destruct A as (ts1 & ll & -> & A). cbn [bind]. intros E. injection E as <- <-. split; [reflexivity|].
  assert (Hb0 : blank L = false).
  { apply ink_ne_blank. unfold L. rewrite ink_app. destruct (ink lp); discriminate. }
  assert (HbY : blank Y = false).
  { apply ink_ne_blank. unfold Y. rewrite !ink_app. assert (Ec : ink [cl] = [cl]) by (destruct K as [[_ ->]|[_ ->]]; reflexivity).
    rewrite Ec. destruct (ink lu); discriminate. }
  split.
  - change (ts1 ++ [?u; ?v]) with (ts1 ++ [u] ++ [v]). rewrite app_assoc.
    assert (Fb : firstn b text = ((firstn a text ++ L ++ [c_rbr; o]) ++ Y)).
    { rewrite (firstn_slice text a b) by lia. rewrite Sg, EP, <- !app_assoc. reflexivity. }
    rewrite Fb. destruct (strip_loose Y HbY) as (ws & y0 & s0 & c0 & EY & EsY & HwY & Hy0 & HlY). rewrite EY at 2.
    eapply nearly_add; [exact HP|exact HQ|exact HPQ| |exact HwY|exact EsY|exact Hy0|exact HlY|].
    + destruct (strip_loose L Hb0) as (wsL & yL & sL & cL & EL & EsL & HwL & HyL & HlL).
      assert (wsL = []).
      { destruct wsL as [|w wsL]; [reflexivity|]. exfalso. apply Forall_inv in HwL. unfold L in EL.
        destruct lp as [|d lp]; cbn [app] in EL; injection EL as <- _; [discriminate|]. apply Forall_inv in Hp. destruct Hp. congruence. }
      subst wsL. cbn [app] in EL.
      assert (E2 : firstn a text ++ L ++ [c_rbr; o] = firstn a text ++ [] ++ yL :: (cL ++ [c_rbr; o])) by (rewrite EL; reflexivity).
      rewrite E2.
      eapply nearly_add; [exact HP|exact HQ|exact HPQ|exact A|constructor| |exact HyL| |].
      * cbn [t_text]. rewrite EsL. reflexivity.
      * apply loose_app; [exact HlL|apply loose_refl].
      * rewrite Ex. destruct Hx as [->|[(a0 & d & -> & Hd)|(d & g' & Ed & Hd)]]; [auto| |].
        -- right. right. right. destruct Hd as [Hd|Hd]; [left; eauto 6|]. right. exists a0, d, lp, (ink lq ++ [c_rbr; o]).
           split; [reflexivity|]. split; [exact Hd|].
           assert (Eo : ink [o] = [o]) by (destruct K as [[-> _]|[-> _]]; reflexivity).
           assert (Elp : ink lp = lp) by (apply ink_nonspace; eapply Forall_impl; [|exact Hp]; cbn; tauto).
           split; [|split; intros Hin; rewrite Forall_forall in Hp; destruct (Hp _ Hin) as (_ & ? & ?); congruence].
           assert (E3 : yL :: ink sL = ink (strip L)).
           { rewrite EsL. unfold ink, not_space. cbn [filter]. rewrite HyL. reflexivity. }
           assert (E4 : ink [c_rbr; o] = [c_rbr; o]) by (change [c_rbr; o] with ([c_rbr] ++ [o]); rewrite ink_app, Eo; reflexivity).
           rewrite ink_app, app_comm_cons, E3, ink_strip, E4. unfold L. rewrite !ink_app, Elp, <- !app_assoc. reflexivity.
        -- right. right. left. rewrite EP, EL in Ed. injection Ed as <- _. cbn in Hd |- *. tauto.
    + right. right. right. left. exists (firstn a text ++ L ++ [c_rbr]), o. split; [rewrite <- !app_assoc; reflexivity|]. right.
      destruct K as [[-> _]|[-> _]]; cbn; tauto.
  - right. split; [destruct ts1; discriminate|]. rewrite Et, Hb.
    replace (x ++ g ++ y) with ((x ++ g) ++ y) by (rewrite <- app_assoc; reflexivity).
    rewrite <- app_length, skipn_pre. exact Hy.
Qed.

Lemma link_fold_near text lead ms : links_apart text -> Forall (fun m => link_at text m /\ edges text m) ms ->
  forall ts le ts' le', chain (length text) le ms -> le <= length text -> linking text ts le ->
  foldM (link_step text lead) ms (ts, le) = Ok (ts', le') -> linking text ts' le' /\ le' <= length text.
Proof.
  intros HA H. induction H as [|m ms [Hm He] H IH]; intros ts le ts' le' HC Hle Hi E.
  - apply ok_inj in E. injection E as <- <-. auto.
  - cbn [chain] in HC. destruct HC as (H1 & H2 & H3 & HC). cbn [foldM] in E.
    apply bind_ok in E. destruct E as ([ts1 le1] & E1 & E).
    destruct (link_step_near _ _ _ _ _ _ _ HA Hm He H1 H2 Hle Hi E1) as [-> G]. eapply IH; [exact HC|exact H3|exact G|exact E].
Qed.

Lemma link_split_near text lead r : links_apart text -> link_split text lead = Ok r ->
  nearly z (marks P (wide r)) (marks Q text).
Proof.
  intros HA E. unfold link_split in E. apply bind_ok in E. destruct E as ([ts le] & E1 & E).
  assert (HF : Forall (fun m => link_at text m /\ edges text m) (link_matches text)).
  { assert (G1 := link_matches_at text). assert (G2 := link_matches_edges text). rewrite Forall_forall in *. auto. }
  destruct (link_fold_near text lead (link_matches text) HA HF [] 0 ts le) as [[H1 H2] Hle];
    [apply link_matches_chain; exact HA|lia|split; [exact I|auto]|exact E1|].
  assert (Et := firstn_skipn le text). rewrite <- Et. unfold split_tail in E.
  assert (Ed : one_dot (skipn le text) = true -> ts = []).
  { intros Ed. destruct H2 as [[-> _]|[_ H2]]; [reflexivity|]. rewrite (opens_dot _ H2) in Ed. discriminate. }
  destruct (one_dot (skipn le text)); [rewrite (Ed eq_refl) in E; discriminate|]. cbn [bind] in E.
  destruct (blank (skipn le text)) eqn:Eb; cbn [negb] in E; apply ok_inj in E; subst r.
  - rewrite marks_app, (marks_spaces _ (skipn le text)), app_nil_r; [exact H1|]. apply spaces_forallb, blank_spec, Eb.
  - apply nearly_text; [exact H1|exact Eb|]. destruct H2 as [[_ ->]|[_ H2]]; auto.
Qed.

(** * The other passes *)

Lemma near_relm_split text r :
  seams None r -> Forall2 (relm False) (marks Q (render r)) (marks Q text) -> nearly z (marks P (wide r)) (marks Q text).
Proof.
  intros H G. eapply nearly_trans; [apply near_nearly|apply relm_nearly; exact G].
  apply (near_pieces r None z P Q); [|exact H]. split; [exact HPQ|]. intros _ X. destruct (HQ X).
Qed.

Lemma lead_rel lead text : relf False (endf Q (lead_str lead)) (hdf Q text).
Proof.
  assert (G : gap_or_start Q) by (unfold gap_or_start; destruct Q; cbn; auto; congruence).
  destruct (hdf_gap Q text G) as [G1 G2].
  assert (E : endf Q (lead_str lead) = Q \/ endf Q (lead_str lead) = Fg /\ Q <> Fs).
  { destruct lead, Q; cbn; auto; try congruence; right; split; congruence. }
  unfold relf. destruct E as [->|[-> E]].
  - split; [tauto|]. split; [|tauto]. intros K. destruct G1 as [G1|G1]; [|exact G1]. rewrite (proj1 G2 G1) in K. discriminate.
  - split; [split; [discriminate|intros K; destruct (E (proj1 G2 K))]|]. split; [|tauto]. intros _.
    destruct G1 as [G1|G1]; [destruct (E (proj1 G2 G1))|exact G1].
Qed.
End Link.

Definition near_split (f : str -> bool -> res (list tok)) (t : tok) : Prop :=
  forall z P Q r, P <> Fa -> Q <> Fa -> (P = Fs <-> Q = Fs) -> f (t_text t) (t_lead t) = Ok r ->
  nearly z (marks P (wide r)) (marks Q (t_text t)).

Lemma pass_near f ts r : Forall (fun t => t_eval t = true -> near_split f t) ts -> split_pass f ts = Ok r ->
  forall z P Q, (P = Fs <-> Q = Fs) -> nearly z (marks P (wide r)) (marks Q (wide ts)).
Proof.
  intros H. revert r. induction H as [|t ts Ht H IH]; intros r E z P Q H0; [apply ok_inj in E; subst; exact I|].
  rewrite split_pass_cons in E. apply bind_ok in E. destruct E as (a & Ea & E).
  apply bind_ok in E. destruct E as (b & Eb & E). apply ok_inj in E. subst r.
  change (t :: ts) with ([t] ++ ts). rewrite !wide_app, !marks_app.
  assert (G : nearly z (marks P (wide a)) (marks Q (wide [t]))).
  { destruct (t_eval t).
    - rewrite wide_one, marks_app, (marks_spaces Q [c_sp]) by (repeat constructor). cbn [app].
      assert (K := Ht eq_refl z (endf P [c_sp]) (endf Q [c_sp]) a
        ltac:(destruct P; discriminate) ltac:(destruct Q; discriminate) ltac:(destruct P, Q; revert H0; clear; flags) Ea).
      assert (Ew : marks P (wide a) = marks (endf P [c_sp]) (wide a)).
      { destruct a as [|u a]; [reflexivity|]. change (u :: a) with ([u] ++ a).
        rewrite wide_app, wide_one, <- app_assoc, !(marks_app _ [c_sp]), !(marks_spaces _ [c_sp]) by (repeat constructor).
        cbn [app]. f_equal. destruct P; reflexivity. }
      rewrite Ew. exact K.
    - apply ok_inj in Ea. subst a. rewrite wide_one, !(marks_app _ [c_sp]), !(marks_spaces _ [c_sp]) by (repeat constructor).
      cbn [app]. apply loose_nearly; [apply loose_refl| |]; destruct P, Q; revert H0; clear; flags. }
  apply nearly_app; [exact G|]. apply IH; [exact Eb|]. rewrite !endf_start, H0. apply nearly_nil in G. tauto.
Qed.

(** * The wrapped text *)

Lemma trim_cases t : trim_tok False t -> t_eval t = true -> t_text t = [] \/ (ink_first (t_text t) /\ ink_last (t_text t)).
Proof. intros H E. destruct (H E) as [[E0 _]|H1]; auto. Qed.

Lemma near_nil f t : (forall lead r, f [] lead = Ok r -> r = []) -> t_text t = [] -> near_split f t.
Proof. intros Hf Et z P Q r _ _ _ E. rewrite Et in *. apply Hf in E. subst r. exact I. Qed.

Lemma wrap_tokens_near text ts : links_apart (joined text) -> wrap_tokens text = Ok ts ->
  nearly None (marks Fs (wide ts)) (marks Fs (joined text)).
Proof.
  unfold wrap_tokens. intros HA E. apply bind_ok in E. destruct E as (t1 & E1 & E).
  apply bind_ok in E. destruct E as (t2 & E2 & E). apply bind_ok in E. destruct E as (t3 & E3 & E4).
  assert (C1 := E1). apply code_pass_inv in C1. destruct C1 as [_ C1].
  assert (E1' := E1). rewrite split_pass_one in E1'.
  destruct (code_split_keeps False (joined text) false t1 Fs Fs ltac:(tauto) (start_rel _ _ _) ltac:(tauto) E1') as (K1 & _ & T1).
  destruct (code_split_seams _ _ _ E1') as [S1 F1].
  assert (A1 : nearly None (marks Fs (wide t1)) (marks Fs (joined text))).
  { apply near_relm_split; [discriminate|tauto|exact S1|exact K1]. }
  assert (HL : forall t, In t t1 -> t_eval t = true -> links_apart (t_text t)).
  { intros t Hin He. rewrite Forall_forall in C1. specialize (C1 t Hin). unfold code_tok in C1. rewrite He in C1.
    destruct C1 as (x & y & Ex & _). eapply links_apart_infix. rewrite <- Ex. exact HA. }
  assert (A2 : nearly None (marks Fs (wide t2)) (marks Fs (wide t1))).
  { apply (pass_near link_split); [|exact E2|tauto]. apply Forall_forall. intros t Hin He z P Q r HP HQ HPQ Er.
    eapply link_split_near; [exact HP|exact HQ|exact HPQ|apply HL; assumption|exact Er]. }
  assert (T2 : Forall (trim_tok False) t2).
  { eapply (pass_trim False link_split t1 t2 (fun t => In t t1)); [|apply Forall_forall; auto|exact E2].
    intros t r Hin He Er.
    destruct (link_split_keeps False (t_text t) (t_lead t) r Fs Fs ltac:(tauto) ltac:(tauto) (HL t Hin He) (start_rel _ _ _) ltac:(tauto) Er)
      as (_ & _ & G). exact G. }
  assert (A3 : nearly None (marks Fs (wide t3)) (marks Fs (wide t2))).
  { apply (pass_near newline_split); [|exact E3|tauto]. apply Forall_forall. intros t Hin He. rewrite Forall_forall in T2.
    destruct (trim_cases t (T2 t Hin) He) as [Et|[Hi Hj]]; [apply near_nil; [exact newline_nil|exact Et]|].
    intros z P Q r HP HQ HPQ Er. apply near_relm_split; [exact HQ|exact HPQ| |].
    - apply (newline_split_full _ _ None r Hi Hj Er I).
    - apply (newline_split_keeps False _ _ _ Q Q ltac:(tauto) (lead_rel P Q HQ HPQ _ _) ltac:(tauto) Er). }
  assert (T3 : Forall (trim_tok False) t3).
  { eapply (pass_trim False newline_split t2 t3 (fun _ => True)); [|apply Forall_forall; auto|exact E3]. intros t r _ He Er.
    destruct (newline_split_keeps False _ _ _ Fs Fs ltac:(tauto) (start_rel _ _ _) ltac:(tauto) Er) as (_ & _ & G). exact G. }
  assert (A4 : nearly None (marks Fs (wide ts)) (marks Fs (wide t3))).
  { apply (pass_near space_split); [|exact E4|tauto]. apply Forall_forall. intros t Hin He. rewrite Forall_forall in T3.
    destruct (trim_cases t (T3 t Hin) He) as [Et|[Hi Hj]]; [apply near_nil; [exact space_nil|exact Et]|].
    intros z P Q r HP HQ HPQ Er. apply near_relm_split; [exact HQ|exact HPQ| |].
    - apply (space_split_seams _ _ _ None Hi Hj Er I).
    - apply (space_split_keeps False _ _ _ Q Q (lead_rel P Q HQ HPQ _ _) ltac:(tauto) Er). }
  eapply nearly_trans; [exact A4|]. eapply nearly_trans; [exact A3|]. eapply nearly_trans; [exact A2|exact A1].
Qed.

(** A gap of the wrapped text is one of the text, or it is beside inline code, a link or an HTML line break. *)
Lemma wrap_breaks_links text w out i ws :
  links_apart (joined text) -> wrap text w = Ok out -> gap_at out i ws ->
  (exists ws', gap_at text i ws')
  \/ exists a x y b, ink text = a ++ [x; y] ++ b /\ length (a ++ [x]) = i
     /\ (In x (lit "`.>([") \/ In y (lit "`<[(")
         \/ (In x (lit "])") /\ exists p q, y :: b = p ++ [c_lbr] ++ q /\ ~ In c_rbr p /\ ~ In c_rpar p)).
Proof.
  intros HA E Hg. apply wrap_ok in E. destruct E as (ts & lines & Et & -> & Hf & _).
  apply gap_mark in Hg. destruct Hg as (c & Hg & Hi).
  destruct (Forall2_nth _ _ _ _ _ (lines_relw _ _ _ Hf) Hg) as ([f d] & H1 & _ & R1). cbn [fst snd] in R1.
  destruct R1 as (_ & R1). assert (Gf : gapf f = true) by (apply R1; destruct (in_dec N.eq_dec c_nl ws); reflexivity).
  assert (N0 := wrap_tokens_near text ts HA Et).
  destruct (nearly_nth _ _ _ _ _ _ N0 H1 Gf) as (g & Hgr & [Hor|(x0 & Ex & Hor)]).
  - left. destruct (mark_gap_at _ _ _ _ Hgr Hor) as (ws' & G' & _). eapply gap_same_words; [|exact G']. apply words_joined.
  - right. destruct i as [|j]; [discriminate|].
    assert (E1 : map snd (marks Fs (joined text)) = ink text) by (rewrite marks_ink, !ink_words, words_joined; reflexivity).
    change (map (fun p : flag * char => snd p)) with (map (@snd flag char)) in Ex, Hor. rewrite E1 in Ex, Hor.
    assert (Ey : nth_error (ink text) (S j) = Some d).
    { rewrite <- E1. erewrite map_nth_error; [|exact Hgr]. reflexivity. }
    apply nth_error_split in Ex. destruct Ex as (a & b & Eb & La). rewrite Eb in Ey.
    rewrite nth_error_app2 in Ey by lia. replace (S j - length a) with 1 in Ey by lia. cbn in Ey.
    destruct b as [|y b]; [discriminate|]. injection Ey as ->. exists a, x0, d, b. split; [exact Eb|].
    split; [rewrite app_length; cbn; lia|].
    assert (Es : skipn (S j) (ink text) = d :: b).
    { rewrite Eb. replace (S j) with (length (a ++ [x0])) by (rewrite app_length; cbn; lia).
      replace (a ++ x0 :: d :: b) with ((a ++ [x0]) ++ d :: b) by (rewrite <- app_assoc; reflexivity). apply skipn_pre. }
    rewrite Es in Hor. destruct Hor as [Hor|[(y & s' & Ey & Hor)|Hor]]; [auto|injection Ey as <- _; auto|auto].
Qed.
