(** The pieces of prose are the tokens it is wrapped by. *)
From Coq Require Import String Sorting Permutation.
From Verif Require Import Py Regex Utils TextWrap Base SpecLines ProofsLines ProofsRegex SpecWrap SpecProse
  ProofsScan ProofsWrap ProofsTokens ProofsParser ProofsLinks ProofsPieces ProofsFilled ProofsCode
  ProofsGaps ProofsSeams SpecFormat PropsWrap ProofsStable.

(** * Words and links *)

Inductive chunk : bool -> list piece -> str -> Prop :=
| chunk_end b ws : blanks ws -> chunk b [] ws
| chunk_word b ws x ps rest :
    blanks ws -> x <> [] -> Forall (fun c => is_space c = false) x -> ordinary x ->
    parted rest -> chunk true ps rest ->
    chunk b ((x, true) :: ps) (ws ++ x ++ rest)
| chunk_link ws x ws' y ps rest :
    blanks ws -> blanks ws' -> link_halves x y -> parted rest -> chunk false ps rest ->
    chunk true (words_as_pieces (words x) ++ (y, false) :: ps) (ws ++ x ++ ws' ++ y ++ rest).

Lemma infix2 (x y : char) (B : str) v : forall A u, A ++ B = u ++ [x; y] ++ v ->
  (exists v', A = u ++ [x; y] ++ v' /\ v = v' ++ B)
  \/ (A = u ++ [x] /\ B = y :: v)
  \/ (exists u', u = A ++ u' /\ B = u' ++ [x; y] ++ v).
Proof.
  induction A as [|a A IH]; intros u E.
  - right. right. exists u. auto.
  - destruct u as [|c u]; cbn [app] in E.
    + injection E as -> E. destruct A as [|a A]; cbn [app] in E.
      * right. left. auto.
      * injection E as -> E. left. exists A. auto.
    + injection E as -> E. destruct (IH u E) as [(v' & -> & ->)|[(-> & ->)|(u' & -> & ->)]].
      * left. exists v'. auto.
      * right. left. auto.
      * right. right. exists u'. auto.
Qed.

Definition opener (o : char) : Prop := o = c_lpar \/ o = c_lbr.
Definition unjoined (s : str) : Prop := forall u o v, opener o -> s <> u ++ [c_rbr; o] ++ v.

Lemma unjoined_no s : ~ In c_rbr s -> unjoined s.
Proof. intros H u o v _ ->. apply H. apply in_or_app. right. left. reflexivity. Qed.

Lemma blanks_in ws c : blanks ws -> In c ws -> c = c_sp.
Proof. intros H Hin. unfold blanks in H. rewrite Forall_forall in H. auto. Qed.

Lemma blanks_unjoined ws : blanks ws -> unjoined ws.
Proof. intros H. apply unjoined_no. intros G. apply (blanks_in ws) in G; [discriminate|exact H]. Qed.

(** The joint is in the rest. *)
Lemma joint_after_blanks ws B u o v : blanks ws -> opener o -> ws ++ B = u ++ [c_rbr; o] ++ v ->
  exists u', u = ws ++ u' /\ B = u' ++ [c_rbr; o] ++ v.
Proof.
  intros H Ho E. apply infix2 in E. destruct E as [(v' & E & _)|[(E & _)|E]]; [| |exact E].
  - exfalso. eapply blanks_unjoined; eassumption.
  - exfalso. assert (G : In c_rbr ws) by (rewrite E; apply in_or_app; right; left; reflexivity).
    apply (blanks_in ws) in G; [discriminate|exact H].
Qed.

Lemma joint_after_parted A B u o v : unjoined A -> parted B -> opener o -> A ++ B = u ++ [c_rbr; o] ++ v ->
  exists u', u = A ++ u' /\ B = u' ++ [c_rbr; o] ++ v.
Proof.
  intros H Hp Ho E. apply infix2 in E. destruct E as [(v' & E & _)|[(_ & E)|E]]; [| |exact E].
  - exfalso. eapply H; eassumption.
  - exfalso. destruct Hp as [->|(r & ->)]; [discriminate|]. injection E as <- _. destruct Ho; discriminate.
Qed.

Lemma ordinary_unjoined x : ordinary x -> unjoined x.
Proof.
  intros (H & _) u o v Ho E. apply (H [c_rbr; o] u v); [|exact E].
  apply in_or_app. left. unfold markup. cbn. destruct Ho as [->| ->]; auto.
Qed.

Record parts (a b p q : str) (o : char) (u : str) (cl : char) (r : str) : Prop := {
  pt_a : a = p ++ [c_lbr] ++ q ++ [c_rbr; o];
  pt_b : b = u ++ [cl] ++ r;
  pt_kind : (o = c_lpar /\ cl = c_rpar) \/ (o = c_lbr /\ cl = c_rbr);
  pt_p : Forall (fun c => is_space c = false /\ ~ In c (lit "[])")) p;
  pt_q : Forall (fun c => ~ In c (lit "[]")) q;
  pt_u : Forall (fun c => ~ In c (lit "[]()")) u;
  pt_r : Forall (fun c => is_space c = false /\ ~ In c (lit "[](")) r;
  pt_q' : exists q' c, q = q' ++ [c] /\ is_space c = false;
  pt_u' : exists c u', u = c :: u' /\ is_space c = false }.

Lemma link_parts_spec a b : link_parts a b <-> exists p q o u cl r, parts a b p q o u cl r.
Proof.
  split.
  - intros (p & q & o & u & cl & r & H). exists p, q, o, u, cl, r. destruct H as (H1 & H2 & H3 & H4 & H5 & H6 & H7 & H8 & H9).
    constructor; assumption.
  - intros (p & q & o & u & cl & r & [H1 H2 H3 H4 H5 H6 H7 H8 H9]). exists p, q, o, u, cl, r. auto 10.
Qed.

Lemma parts_opener a b p q o u cl r : parts a b p q o u cl r -> opener o.
Proof. intros H. destruct (pt_kind _ _ _ _ _ _ _ _ H) as [[-> _]|[-> _]]; [left|right]; reflexivity. Qed.

Lemma Forall_no (P : char -> Prop) s c : Forall P s -> ~ P c -> ~ In c s.
Proof. intros H Hn Hin. rewrite Forall_forall in H. apply Hn, H, Hin. Qed.

Lemma parts_no a b p q o u cl r : parts a b p q o u cl r ->
  ~ In c_rbr p /\ ~ In c_lbr p /\ ~ In c_rbr q /\ ~ In c_lbr q /\ ~ In cl u /\ ~ In c_rbr u.
Proof.
  intros H. repeat split.
  - apply (Forall_no _ _ _ (pt_p _ _ _ _ _ _ _ _ H)). cbn. intuition.
  - apply (Forall_no _ _ _ (pt_p _ _ _ _ _ _ _ _ H)). cbn. intuition.
  - apply (Forall_no _ _ _ (pt_q _ _ _ _ _ _ _ _ H)). cbn. intuition.
  - apply (Forall_no _ _ _ (pt_q _ _ _ _ _ _ _ _ H)). cbn. intuition.
  - apply (Forall_no _ _ _ (pt_u _ _ _ _ _ _ _ _ H)). destruct (pt_kind _ _ _ _ _ _ _ _ H) as [[_ ->]|[_ ->]]; cbn; intuition.
  - apply (Forall_no _ _ _ (pt_u _ _ _ _ _ _ _ _ H)). cbn. intuition.
Qed.

(** The only joint of a first half is at its end; the second half has none. *)
Lemma first_half_joint a b p q o u cl r x o' z : parts a b p q o u cl r -> opener o' ->
  a = x ++ [c_rbr; o'] ++ z -> x = p ++ [c_lbr] ++ q /\ o' = o /\ z = [].
Proof.
  intros H Ho E. destruct (parts_no _ _ _ _ _ _ _ _ H) as (N1 & _ & N2 & _).
  rewrite (pt_a _ _ _ _ _ _ _ _ H) in E. rewrite app_assoc, (app_assoc (p ++ [c_lbr])) in E.
  assert (N : ~ In c_rbr ((p ++ [c_lbr]) ++ q)).
  { intros G. apply in_app_iff in G. destruct G as [G|G]; [|contradiction]. apply in_app_iff in G.
    destruct G as [G|[G|[]]]; [contradiction|discriminate]. }
  apply infix2 in E. destruct E as [(v' & E & _)|[(E & _)|(u' & E1 & E2)]].
  - exfalso. apply N. rewrite E. apply in_or_app. right. left. reflexivity.
  - exfalso. apply N. rewrite E. apply in_or_app. right. left. reflexivity.
  - destruct u' as [|c u']; [injection E2 as <- <-; rewrite E1, app_nil_r, <- app_assoc; auto|].
    exfalso. destruct u' as [|d [|e u']]; discriminate.
Qed.

Lemma second_half_unjoined a b p q o u cl r : parts a b p q o u cl r -> unjoined b.
Proof.
  intros H x o' z Ho E. destruct (parts_no _ _ _ _ _ _ _ _ H) as (_ & _ & _ & _ & _ & N).
  rewrite (pt_b _ _ _ _ _ _ _ _ H) in E. apply infix2 in E.
  assert (R := pt_r _ _ _ _ _ _ _ _ H).
  destruct E as [(v' & E & _)|[(E & _)|(u' & _ & E)]].
  - apply N. rewrite E. apply in_or_app. right. left. reflexivity.
  - apply N. rewrite E. apply in_or_app. right. left. reflexivity.
  - destruct u' as [|c u']; cbn [app] in E; injection E as -> ->.
    + apply Forall_inv in R. destruct R as [_ R]. apply R. cbn. destruct Ho as [->| ->]; auto.
    + apply Forall_app in R. destruct R as [_ R]. apply Forall_inv in R. destruct R as [_ R]. apply R. cbn. auto.
Qed.

(** What stands before a joint. *)
Definition before_joint (y : str) : Prop :=
  exists y1 p q, y = y1 ++ p ++ [c_lbr] ++ q /\ (y1 = [] \/ exists y2, y1 = y2 ++ [c_sp])
    /\ Forall (fun c => is_space c = false /\ ~ In c (lit "[])")) p /\ ~ In c_lbr q.

Lemma blanks_end ws : blanks ws -> ws = [] \/ exists ws', ws = ws' ++ [c_sp].
Proof.
  intros H. destruct ws as [|c ws _] using rev_ind; [auto|]. right. exists ws. apply Forall_app in H. destruct H as [_ H].
  apply Forall_inv in H. rewrite H. reflexivity.
Qed.

Lemma before_joint_app A B y : parted B -> (exists z, B = y ++ c_rbr :: z) -> before_joint y -> before_joint (A ++ y).
Proof.
  intros Hp (z & E) (y1 & p & q & -> & H1 & H2 & H3). exists (A ++ y1), p, q.
  split; [rewrite <- !app_assoc; reflexivity|]. split; [|auto]. right.
  destruct H1 as [->|(y2 & ->)]; [|exists (A ++ y2); apply app_assoc]. exfalso.
  destruct Hp as [->|(B' & ->)]; [destruct p; discriminate|].
  destruct p as [|c p]; [discriminate|]. injection E as <- _. apply Forall_inv in H2. destruct H2 as [H2 _]. discriminate.
Qed.

Lemma chunk_joint b ps s : chunk b ps s -> forall y o z, opener o -> s = y ++ [c_rbr; o] ++ z -> before_joint y.
Proof.
  intros H. induction H as [b ws Hw|b ws x ps rest Hw Hx Hxs Hxo Hp H IH|ws x ws' y' ps rest Hw Hw' Hl Hp H IH];
    intros y o z Ho E.
  - exfalso. eapply blanks_unjoined; eassumption.
  - apply joint_after_blanks in E; [|assumption|assumption]. destruct E as (u & -> & E).
    apply joint_after_parted in E; [|apply ordinary_unjoined; assumption|assumption|assumption]. destruct E as (v & -> & E).
    rewrite app_assoc. eapply before_joint_app; [exact Hp|eexists; exact E|]. eapply IH; eassumption.
  - destruct Hl as (Hl & _). apply link_parts_spec in Hl. destruct Hl as (p & q & o' & u & cl & r & Hl).
    apply joint_after_blanks in E; [|assumption|assumption]. destruct E as (v & -> & E).
    apply infix2 in E. destruct E as [(v' & E & _)|[(E & _)|(v' & -> & E)]].
    + destruct (first_half_joint _ _ _ _ _ _ _ _ _ _ _ Hl Ho E) as (-> & _ & _).
      exists ws, p, q. split; [reflexivity|]. split; [apply blanks_end, Hw|]. split; [apply (pt_p _ _ _ _ _ _ _ _ Hl)|].
      apply (parts_no _ _ _ _ _ _ _ _ Hl).
    + exfalso. rewrite (pt_a _ _ _ _ _ _ _ _ Hl) in E. change [c_rbr; o'] with ([c_rbr] ++ [o']) in E.
      rewrite !app_assoc in E. apply app_inj_tail in E. destruct E as [_ E].
      destruct (parts_opener _ _ _ _ _ _ _ _ Hl) as [G|G]; rewrite G in E; discriminate.
    + apply joint_after_blanks in E; [|assumption|assumption]. destruct E as (v & -> & E).
      apply joint_after_parted in E; [|eapply second_half_unjoined; eassumption|assumption|assumption].
      destruct E as (w & -> & E). rewrite !app_assoc. eapply before_joint_app; [exact Hp|eexists; exact E|].
      eapply IH; eassumption.
Qed.

(** * What the regular expressions of links find *)

Definition link_regex (o cl : char) : list ritem :=
  [Star (not_in_s [c_rbr; c_rpar]); Is c_lbr] ++ Plus (not_in [c_lbr])
  ++ [Is c_rbr; Is o] ++ Plus (not_in [cl])
  ++ [Is cl; Star (not_in_s [c_lbr; c_lpar])].

Record den_parts (g : str) (o cl : char) (p q u r : str) : Prop := {
  dp_eq : g = p ++ [c_lbr] ++ q ++ [c_rbr; o] ++ u ++ [cl] ++ r;
  dp_p : Forall (fun c => is_space c = false /\ ~ In c [c_rbr; c_rpar]) p;
  dp_q : Forall (fun c => ~ In c [c_lbr]) q;
  dp_qn : q <> [];
  dp_u : Forall (fun c => ~ In c [cl]) u;
  dp_un : u <> [];
  dp_r : Forall (fun c => is_space c = false /\ ~ In c [c_lbr; c_lpar]) r }.

Lemma Forall_not_in_s cs s : Forall (fun c => not_in_s cs c = true) s <-> Forall (fun c => is_space c = false /\ ~ In c cs) s.
Proof. rewrite !Forall_forall. split; intros H c Hc; apply not_in_s_spec, H, Hc. Qed.

Lemma Forall_not_in cs s : Forall (fun c => not_in cs c = true) s <-> Forall (fun c => ~ In c cs) s.
Proof. rewrite !Forall_forall. split; intros H c Hc; apply not_in_spec, H, Hc. Qed.

Lemma link_regex_den o cl g : den (link_regex o cl) g <-> exists p q u r, den_parts g o cl p q u r.
Proof.
  unfold link_regex, Plus, Is. cbn [app den]. split.
  - intros H.
    destruct H as (p & s1 & -> & Hp & c1 & s2 & -> & E1 & q1 & s3 & -> & Hq1 & q & s4 & -> & Hq
      & c2 & s5 & -> & E2 & c3 & s6 & -> & E3 & u1 & s7 & -> & Hu1 & u & s8 & -> & Hu
      & c4 & s9 & -> & E4 & r & s10 & -> & Hr & ->).
    apply N.eqb_eq in E1, E2, E3, E4. subst. exists p, (q1 :: q), (u1 :: u), r. constructor.
    + rewrite app_nil_r. reflexivity.
    + apply Forall_not_in_s, Hp.
    + apply Forall_not_in. constructor; assumption.
    + discriminate.
    + apply Forall_not_in. constructor; assumption.
    + discriminate.
    + apply Forall_not_in_s, Hr.
  - intros (p & q & u & r & [-> Hp Hq Hqn Hu Hun Hr]).
    destruct q as [|q1 q]; [congruence|]. destruct u as [|u1 u]; [congruence|].
    apply Forall_not_in_s in Hp, Hr. apply Forall_not_in in Hq, Hu.
    apply Forall_inv in Hq as Hq1. apply Forall_inv_tail in Hq. apply Forall_inv in Hu as Hu1. apply Forall_inv_tail in Hu.
    exists p. eexists. split; [reflexivity|]. split; [exact Hp|].
    eexists. eexists. split; [reflexivity|]. split; [apply N.eqb_refl|].
    eexists. eexists. split; [reflexivity|]. split; [exact Hq1|].
    exists q. eexists. split; [reflexivity|]. split; [exact Hq|].
    eexists. eexists. split; [reflexivity|]. split; [apply N.eqb_refl|].
    eexists. eexists. split; [reflexivity|]. split; [apply N.eqb_refl|].
    eexists. eexists. split; [reflexivity|]. split; [exact Hu1|].
    exists u. eexists. split; [reflexivity|]. split; [exact Hu|].
    eexists. eexists. split; [reflexivity|]. split; [apply N.eqb_refl|].
    exists r, []. rewrite app_nil_r. auto.
Qed.

(** A repetition at the end takes all it can. *)
Lemma star_greedy p r0 : forall s n, rmatch (r0 ++ [Star p]) s = Some n -> forall c t, skipn n s = c :: t -> p c = false.
Proof.
  induction r0 as [|[q|q|q k] r0 IH]; cbn [app].
  - induction s as [|d s IHs]; intros n; rewrite rmatch_star.
    + intros H c t E. rewrite skipn_nil in E. discriminate.
    + destruct (p d) eqn:Hd.
      * destruct (rmatch [Star p] s) as [m|] eqn:E; intros H c t.
        -- injection H as <-. cbn [skipn]. apply (IHs m eq_refl).
        -- exfalso. apply (den_rmatch [Star p] [] s); [|exact E]. exists [], []. split; [reflexivity|]. split; [constructor|reflexivity].
      * intros H c t. injection H as <-. cbn [skipn]. intros E. injection E as <- _. exact Hd.
  - intros [|d s] n; [discriminate|]. cbn [rmatch]. destruct (q d); [|discriminate].
    destruct (rmatch (r0 ++ [Star p]) s) as [m|] eqn:E; [|discriminate]. intros H. injection H as <-.
    cbn [skipn]. apply (IH s m E).
  - induction s as [|d s IHs]; intros n; rewrite rmatch_star.
    + intros H. apply (IH _ _ H).
    + destruct (q d); [|intros H; apply (IH _ _ H)].
      destruct (rmatch (Star q :: r0 ++ [Star p]) s) as [m|] eqn:E; intros H.
      * injection H as <-. cbn [skipn]. apply (IHs m eq_refl).
      * apply (IH _ _ H).
  - induction k as [|k IHk]; intros s n; rewrite rmatch_upto; [apply IH|]. destruct s as [|d s]; [apply IH|].
    destruct (q d); [|apply IH]. destruct (rmatch (Upto q k :: r0 ++ [Star p]) s) as [m|] eqn:E; intros H.
    + injection H as <-. cbn [skipn]. apply (IHk s m E).
    + apply (IH _ _ H).
Qed.

Lemma link_regex_match o cl s n : rmatch (link_regex o cl) s = Some n ->
  exists p q u r t, s = (p ++ [c_lbr] ++ q ++ [c_rbr; o] ++ u ++ [cl] ++ r) ++ t
    /\ n = length (p ++ [c_lbr] ++ q ++ [c_rbr; o] ++ u ++ [cl] ++ r)
    /\ den_parts (p ++ [c_lbr] ++ q ++ [c_rbr; o] ++ u ++ [cl] ++ r) o cl p q u r
    /\ forall c t', t = c :: t' -> is_space c = true \/ In c [c_lbr; c_lpar].
Proof.
  intros H. assert (G := star_greedy (not_in_s [c_lbr; c_lpar])
    ([Star (not_in_s [c_rbr; c_rpar]); Is c_lbr] ++ Plus (not_in [c_lbr]) ++ [Is c_rbr; Is o] ++ Plus (not_in [cl]) ++ [Is cl]) s n H).
  apply rmatch_den in H. destruct H as [Hn H]. apply link_regex_den in H. destruct H as (p & q & u & r & H).
  assert (E := dp_eq _ _ _ _ _ _ _ H). exists p, q, u, r, (skipn n s). rewrite <- E. split; [symmetry; apply firstn_skipn|].
  split; [symmetry; apply firstn_length_le, Hn|]. split; [exact H|]. intros c t' Et. specialize (G c t' Et).
  destruct (is_space c) eqn:Ec; [auto|]. right.
  destruct (in_dec N.eq_dec c [c_lbr; c_lpar]) as [Hin|Hin]; [exact Hin|].
  assert (K : not_in_s [c_lbr; c_lpar] c = true) by (apply not_in_s_spec; auto). congruence.
Qed.

Lemma last_occurrence (x : char) a b a' b' : a ++ [x] ++ b = a' ++ [x] ++ b' -> ~ In x b -> ~ In x b' -> a = a' /\ b = b'.
Proof.
  intros E H H'. assert (Er := f_equal (@rev _) E). rewrite !rev_app_distr in Er. cbn [rev app] in Er.
  assert (G : forall (m m' n n' : str), m ++ x :: n = m' ++ x :: n' -> ~ In x m -> ~ In x m' -> m = m' /\ n = n').
  { induction m as [|c m IH]; intros [|c' m'] n n' Em Hm Hm'; cbn [app] in Em.
    - injection Em. auto.
    - injection Em as -> _. exfalso. apply Hm'. left. reflexivity.
    - injection Em as -> _. exfalso. apply Hm. left. reflexivity.
    - injection Em as -> Em. destruct (IH m' n n' Em) as [-> ->]; [intros K; apply Hm; right; exact K|intros K; apply Hm'; right; exact K|auto]. }
  rewrite <- !app_assoc in Er. cbn [app] in Er. apply G in Er; [|rewrite <- in_rev; assumption..].
  destruct Er as [E1 E2]. apply (f_equal (@rev _)) in E1, E2. rewrite !rev_involutive in *. auto.
Qed.

Lemma first_occurrence (x : char) : forall a a' b b', a ++ x :: b = a' ++ x :: b' -> ~ In x a -> ~ In x a' -> a = a' /\ b = b'.
Proof.
  induction a as [|c m IH]; intros [|c' m'] n n' Em Hm Hm'; cbn [app] in Em.
  - injection Em. auto.
  - injection Em as -> _. exfalso. apply Hm'. left. reflexivity.
  - injection Em as -> _. exfalso. apply Hm. left. reflexivity.
  - injection Em as -> Em. destruct (IH m' n n' Em) as [-> ->]; [intros K; apply Hm; right; exact K|intros K; apply Hm'; right; exact K|auto].
Qed.

Lemma prefix_cases (a : str) : forall b c d, a ++ b = c ++ d ->
  (exists e, a = c ++ e /\ d = e ++ b) \/ (exists x e, c = a ++ x :: e /\ b = x :: e ++ d).
Proof.
  induction a as [|x a IH]; intros b c d E.
  - destruct c as [|y c]; [left; exists []; auto|right; exists y, c; auto].
  - destruct c as [|y c]; [left; exists (x :: a); auto|]. injection E as -> E.
    destruct (IH b c d E) as [(e & -> & ->)|(z & e & -> & ->)]; [left; exists e; auto|right; exists z, e; auto].
Qed.

Definition joint_in_rest (o : char) (A rest : str) : Prop :=
  forall y z, A ++ rest = y ++ [c_rbr; o] ++ z -> exists y', y = A ++ y' /\ rest = y' ++ [c_rbr; o] ++ z.

Lemma no_start o cl A b ps rest : opener o -> chunk b ps rest -> parted rest -> joint_in_rest o A rest ->
  forall a c, A = a ++ c -> c <> [] -> no_match (rmatch (link_regex o cl)) (c ++ rest).
Proof.
  intros Ho Hc Hp Hj a c E Hn. unfold no_match. destruct (rmatch (link_regex o cl) (c ++ rest)) as [[|n]|] eqn:Em; [exact I| |exact I].
  apply link_regex_match in Em. destruct Em as (p & q & u & r & t & Es & _ & Hd & _).
  destruct (Hj (a ++ p ++ [c_lbr] ++ q) (u ++ [cl] ++ r ++ t)) as (y' & Ey & Er).
  { rewrite E, <- app_assoc, Es, <- !app_assoc. reflexivity. }
  destruct (chunk_joint _ _ _ Hc _ _ _ Ho Er) as (y1 & p' & q' & -> & H1 & H2 & H3).
  assert (Hy : exists y2, y1 = y2 ++ [c_sp]).
  { destruct H1 as [->|H1]; [|exact H1]. exfalso. destruct Hp as [->|(B' & ->)]; [destruct p'; discriminate|].
    destruct p' as [|d p']; [discriminate|]. injection Er as <- _. apply Forall_inv in H2. destruct H2 as [H2 _]. discriminate. }
  destruct Hy as (y2 & ->).
  assert (Ey' : (a ++ p) ++ [c_lbr] ++ q = (A ++ (y2 ++ [c_sp]) ++ p') ++ [c_lbr] ++ q') by (rewrite <- !app_assoc in *; exact Ey).
  apply last_occurrence in Ey'; [|apply (Forall_no _ _ _ (dp_q _ _ _ _ _ _ _ Hd)); cbn; intuition|exact H3].
  destruct Ey' as [Ep _]. rewrite E, <- !app_assoc in Ep. apply app_inv_head in Ep.
  assert (K := dp_p _ _ _ _ _ _ _ Hd). rewrite Ep in K. rewrite !Forall_app in K. destruct K as (_ & _ & K & _).
  apply Forall_inv in K. destruct K as [K _]. discriminate.
Qed.

Lemma scan_skips m A : forall pos s ms, scan m (pos + length A) s ms ->
  (forall a c, A = a ++ c -> c <> [] -> no_match m (c ++ s)) -> scan m pos (A ++ s) ms.
Proof.
  induction A as [|x A IH]; intros pos s ms H Hn.
  - cbn [length] in H. rewrite Nat.add_0_r in H. exact H.
  - cbn [app]. apply scan_skip.
    + apply IH; [replace (S pos + length A) with (pos + length (x :: A)) by (cbn; lia); exact H|].
      intros a c E Hc. apply (Hn (x :: a) c); [cbn; congruence|exact Hc].
    + apply (Hn [] (x :: A)); [reflexivity|discriminate].
Qed.

Lemma no_link_space o cl s : no_match (rmatch (link_regex o cl)) (c_sp :: s).
Proof.
  unfold no_match. destruct (rmatch (link_regex o cl) (c_sp :: s)) as [[|n]|] eqn:Em; [exact I| |exact I].
  apply link_regex_match in Em. destruct Em as (p & q & u & r & t & Es & _ & Hd & _).
  destruct p as [|c p]; [discriminate|]. injection Es as <- _. assert (K := dp_p _ _ _ _ _ _ _ Hd).
  apply Forall_inv in K. destruct K as [K _]. discriminate.
Qed.

Lemma link_in_rest x ws' y p q o u cl r o' ws rest : parts x y p q o u cl r -> opener o' -> o' <> o ->
  blanks ws -> blanks ws' -> parted rest -> joint_in_rest o' (ws ++ x ++ ws' ++ y) rest.
Proof.
  intros Hl Ho Hne Hw Hw' Hp y0 z E. rewrite <- !app_assoc in E.
  apply joint_after_blanks in E; [|assumption|assumption]. destruct E as (v & -> & E).
  apply infix2 in E. destruct E as [(v' & E & _)|[(E & _)|(v' & -> & E)]].
  - exfalso. destruct (first_half_joint _ _ _ _ _ _ _ _ _ _ _ Hl Ho E) as (_ & E' & _). congruence.
  - exfalso. rewrite (pt_a _ _ _ _ _ _ _ _ Hl) in E. change [c_rbr; o] with ([c_rbr] ++ [o]) in E.
    rewrite !app_assoc in E. apply app_inj_tail in E. destruct E as [_ E].
    destruct (parts_opener _ _ _ _ _ _ _ _ Hl) as [G|G]; rewrite G in E; discriminate.
  - apply joint_after_blanks in E; [|assumption|assumption]. destruct E as (v & -> & E).
    apply joint_after_parted in E; [|eapply second_half_unjoined; eassumption|assumption|assumption].
    destruct E as (w & -> & E). exists w. rewrite <- !app_assoc. auto.
Qed.

(** The link itself. *)
Lemma link_match x ws' y p q o u cl r rest b ps : parts x y p q o u cl r -> blanks ws' -> parted rest -> chunk b ps rest ->
  rmatch (link_regex o cl) ((x ++ ws' ++ y) ++ rest) = Some (length (x ++ ws' ++ y)).
Proof.
  intros Hl Hw' Hp Hc. destruct (parts_no _ _ _ _ _ _ _ _ Hl) as (N1 & N2 & N3 & N4 & N5 & N6).
  assert (Ho := parts_opener _ _ _ _ _ _ _ _ Hl).
  assert (Ncl : ~ In cl (ws' ++ u)).
  { intros G. apply in_app_iff in G. destruct G as [G|G]; [|contradiction]. apply (blanks_in ws') in G; [|exact Hw'].
    destruct (pt_kind _ _ _ _ _ _ _ _ Hl) as [[_ E]|[_ E]]; rewrite E in G; discriminate. }
  assert (Eg : x ++ ws' ++ y = p ++ [c_lbr] ++ q ++ [c_rbr; o] ++ (ws' ++ u) ++ [cl] ++ r).
  { rewrite (pt_a _ _ _ _ _ _ _ _ Hl), (pt_b _ _ _ _ _ _ _ _ Hl), <- !app_assoc. reflexivity. }
  assert (Hd : den (link_regex o cl) (x ++ ws' ++ y)).
  { apply link_regex_den. exists p, q, (ws' ++ u), r. constructor.
    - exact Eg.
    - eapply Forall_impl; [|apply (pt_p _ _ _ _ _ _ _ _ Hl)]. cbn. intuition.
    - eapply Forall_impl; [|apply (pt_q _ _ _ _ _ _ _ _ Hl)]. cbn. intuition.
    - destruct (pt_q' _ _ _ _ _ _ _ _ Hl) as (q' & c & -> & _). destruct q'; discriminate.
    - apply Forall_forall. intros c G [->|[]]. contradiction.
    - destruct (pt_u' _ _ _ _ _ _ _ _ Hl) as (c & u' & -> & _). destruct ws'; discriminate.
    - eapply Forall_impl; [|apply (pt_r _ _ _ _ _ _ _ _ Hl)]. cbn. intuition. }
  destruct (rmatch (link_regex o cl) ((x ++ ws' ++ y) ++ rest)) as [n|] eqn:Em;
    [|exfalso; revert Em; apply den_rmatch, Hd].
  apply link_regex_match in Em. destruct Em as (p2 & q2 & u2 & r2 & t & Es & -> & H2 & Ht).
  f_equal. f_equal. rewrite Eg in Es |- *. rewrite <- !app_assoc in Es. cbn [app] in Es.
  assert (Ep : p2 = p).
  { destruct (prefix_cases _ _ _ _ Es) as [(e & E1 & E2)|(d & e & E1 & E2)].
    - destruct e as [|d e]; [rewrite E1; symmetry; apply app_nil_r|]. injection E2 as <- _.
      exfalso. apply N2. rewrite E1. apply in_or_app. right. left. reflexivity.
    - exfalso. injection E2 as <- E2. destruct (prefix_cases _ _ _ _ E2) as [(e' & E3 & E4)|(d & e' & E3 & E4)].
      + destruct e' as [|d e']; [discriminate|]. injection E4 as <- _. apply N4. rewrite E3.
        apply in_or_app. right. left. reflexivity.
      + injection E4 as <- _. assert (K := dp_p _ _ _ _ _ _ _ H2). rewrite E1, E3 in K.
        apply Forall_app in K. destruct K as [_ K]. apply Forall_inv_tail in K. apply Forall_app in K.
        destruct K as [_ K]. apply Forall_inv in K. destruct K as [_ K]. apply K. left. reflexivity. }
  subst p2. apply app_inv_head in Es. injection Es as Es.
  assert (Eq : q2 = q).
  { destruct (prefix_cases _ _ _ _ Es) as [(e & E1 & E2)|(d & e & E1 & E2)].
    - destruct e as [|d e]; [rewrite E1; symmetry; apply app_nil_r|]. injection E2 as <- _.
      exfalso. apply N3. rewrite E1. apply in_or_app. right. left. reflexivity.
    - exfalso. injection E2 as <- E2. destruct e as [|d e].
      + cbn [app] in E2. injection E2 as -> _. destruct Ho; discriminate.
      + cbn [app] in E2. injection E2 as <- E2.
        assert (E2' : ws' ++ y ++ rest = e ++ [c_rbr; o] ++ u2 ++ cl :: r2 ++ t).
        { rewrite (pt_b _ _ _ _ _ _ _ _ Hl), <- !app_assoc. exact E2. }
        apply joint_after_blanks in E2'; [|assumption|assumption]. destruct E2' as (v & -> & E2').
        apply joint_after_parted in E2'; [|eapply second_half_unjoined; eassumption|assumption|assumption].
        destruct E2' as (w & -> & E3). destruct (chunk_joint _ _ _ Hc _ _ _ Ho E3) as (y1 & p' & q' & -> & _).
        assert (K := dp_q _ _ _ _ _ _ _ H2). rewrite Forall_forall in K. apply (K c_lbr); [|left; reflexivity].
        rewrite E1. apply in_or_app. right. right. right. apply in_or_app. right. apply in_or_app. right.
        apply in_or_app. right. apply in_or_app. right. left. reflexivity. }
  subst q2. apply app_inv_head in Es. injection Es as Es.
  rewrite app_assoc in Es. apply first_occurrence in Es; [|exact Ncl|
    apply (Forall_no _ _ _ (dp_u _ _ _ _ _ _ _ H2)); cbn; intuition].
  destruct Es as [<- Es].
  assert (Er : r2 = r).
  { destruct (prefix_cases _ _ _ _ Es) as [(e & E1 & E2)|(d & e & E1 & E2)].
    - destruct e as [|d e]; [rewrite E1; symmetry; apply app_nil_r|].
      exfalso. destruct (Ht d (e ++ rest)) as [K|K]; [exact E2| |];
        assert (R := pt_r _ _ _ _ _ _ _ _ Hl); rewrite E1 in R; apply Forall_app in R; destruct R as [_ R];
        apply Forall_inv in R; destruct R as [R1 R2]; [congruence|]. apply R2. cbn in K |- *. intuition.
    - exfalso. destruct Hp as [->|(B' & ->)]; [discriminate|]. injection E2 as <- _.
      assert (K := dp_r _ _ _ _ _ _ _ H2). rewrite E1 in K. apply Forall_app in K. destruct K as [_ K].
      apply Forall_inv in K. destruct K as [K _]. discriminate. }
  subst r2. rewrite <- !app_assoc. reflexivity.
Qed.

(** The places of the links. *)
Inductive spots : bool -> list piece -> str -> nat -> list (nat * nat) -> Prop :=
| spots_end b ws pos : blanks ws -> spots b [] ws pos []
| spots_word b ws x ps rest pos ms :
    blanks ws -> x <> [] -> Forall (fun c => is_space c = false) x -> ordinary x ->
    parted rest -> spots true ps rest (pos + length (ws ++ x)) ms ->
    spots b ((x, true) :: ps) (ws ++ x ++ rest) pos ms
| spots_link ws x ws' y ps rest pos ms :
    blanks ws -> blanks ws' -> link_halves x y -> parted rest ->
    spots false ps rest (pos + length (ws ++ x ++ ws' ++ y)) ms ->
    spots true (words_as_pieces (words x) ++ (y, false) :: ps) (ws ++ x ++ ws' ++ y ++ rest) pos
      ((pos + length ws, pos + length (ws ++ x ++ ws' ++ y)) :: ms).

Lemma chunk_spots b ps s : chunk b ps s -> forall pos, exists ms, spots b ps s pos ms.
Proof.
  intros H. induction H as [b ws Hw|b ws x ps rest Hw Hx Hxs Hxo Hp H IH|ws x ws' y' ps rest Hw Hw' Hl Hp H IH]; intros pos.
  - exists []. constructor; assumption.
  - destruct (IH (pos + length (ws ++ x))) as (ms & G). exists ms. constructor; assumption.
  - destruct (IH (pos + length (ws ++ x ++ ws' ++ y'))) as (ms & G). eexists. constructor; eassumption.
Qed.

Lemma spots_chunk b ps s pos ms : spots b ps s pos ms -> chunk b ps s.
Proof. intros H. induction H; constructor; assumption. Qed.

Lemma spots_scan b ps s pos ms : spots b ps s pos ms ->
  exists mu mf, scan (rmatch URL_REGEX) pos s mu /\ scan (rmatch FOOTNOTE_REGEX) pos s mf
    /\ Permutation (mf ++ mu) ms.
Proof.
  change URL_REGEX with (link_regex c_lpar c_rpar). change FOOTNOTE_REGEX with (link_regex c_lbr c_rbr).
  intros H. induction H as [b ws pos Hw|b ws x ps rest pos ms Hw Hx Hxs Hxo Hp H IH|ws x ws' y' ps rest pos ms Hw Hw' Hl Hp H IH].
  - exists [], []. split; [|split; [|constructor]];
      (constructor; intros a b' -> Hb; apply Forall_app in Hw; destruct Hw as [_ Hw]; destruct b'; [congruence|];
       apply Forall_inv in Hw; subst; apply no_link_space).
  - destruct IH as (mu & mf & H1 & H2 & H3). exists mu, mf. apply spots_chunk in H.
    assert (J : forall o, opener o -> joint_in_rest o (ws ++ x) rest).
    { intros o Ho y z E. rewrite <- app_assoc in E. apply joint_after_blanks in E; [|assumption|assumption].
      destruct E as (v & -> & E). apply joint_after_parted in E; [|apply ordinary_unjoined; assumption|assumption|assumption].
      destruct E as (w & -> & E). exists w. rewrite <- app_assoc. auto. }
    rewrite app_assoc. split; [|split; [|exact H3]]; (apply scan_skips; [assumption|]);
      (eapply no_start; [|exact H|exact Hp|apply J]); solve [left; reflexivity|right; reflexivity].
  - destruct IH as (mu & mf & H1 & H2 & H3). apply spots_chunk in H.
    destruct Hl as (Hl & _). apply link_parts_spec in Hl. destruct Hl as (p & q & o & u & cl & r & Hl).
    assert (M := link_match _ ws' _ _ _ _ _ _ _ rest _ _ Hl Hw' Hp H).
    assert (S1 : forall ms', scan (rmatch (link_regex o cl)) (pos + length (ws ++ x ++ ws' ++ y')) rest ms' ->
      scan (rmatch (link_regex o cl)) pos (ws ++ x ++ ws' ++ y' ++ rest)
        ((pos + length ws, pos + length (ws ++ x ++ ws' ++ y')) :: ms')).
    { intros ms' Hs. replace (ws ++ x ++ ws' ++ y' ++ rest) with (ws ++ (x ++ ws' ++ y') ++ rest) by (rewrite <- !app_assoc; reflexivity).
      replace (pos + length (ws ++ x ++ ws' ++ y')) with (pos + length ws + length (x ++ ws' ++ y')) in * by (rewrite (app_length ws); lia).
      apply scan_match; [|rewrite (pt_a _ _ _ _ _ _ _ _ Hl); destruct p; discriminate|exact M|exact Hs].
      intros a c -> Hc. apply Forall_app in Hw. destruct Hw as [_ Hw]. destruct c; [congruence|].
      apply Forall_inv in Hw. subst. apply no_link_space. }
    assert (S2 : forall o' cl' ms', opener o' -> o' <> o -> scan (rmatch (link_regex o' cl')) (pos + length (ws ++ x ++ ws' ++ y')) rest ms' ->
      scan (rmatch (link_regex o' cl')) pos (ws ++ x ++ ws' ++ y' ++ rest) ms').
    { intros o' cl' ms' Ho' Hne Hs. replace (ws ++ x ++ ws' ++ y' ++ rest) with ((ws ++ x ++ ws' ++ y') ++ rest) by (rewrite <- !app_assoc; reflexivity).
      apply scan_skips; [exact Hs|]. eapply no_start; [exact Ho'|exact H|exact Hp|].
      eapply link_in_rest; eassumption. }
    destruct (pt_kind _ _ _ _ _ _ _ _ Hl) as [[-> ->]|[-> ->]].
    + eexists. exists mf. split; [apply S1; exact H1|]. split; [apply S2; [right; reflexivity|discriminate|exact H2]|].
      rewrite <- H3. symmetry. apply Permutation_middle.
    + exists mu. eexists. split; [apply S2; [left; reflexivity|discriminate|exact H1]|]. split; [apply S1; exact H2|].
      cbn [app]. rewrite <- H3. reflexivity.
Qed.

Lemma spots_from b ps s pos ms : spots b ps s pos ms ->
  Forall (fun m => pos <= fst m /\ fst m < snd m) ms /\ StronglySorted (fun x y => fst x < fst y) ms.
Proof.
  intros H. induction H as [b ws pos Hw|b ws x ps rest pos ms Hw Hx Hxs Hxo Hp H IH|ws x ws' y' ps rest pos ms Hw Hw' Hl Hp H IH].
  - split; constructor.
  - destruct IH as [H1 H2]. split; [|exact H2]. eapply Forall_impl; [|exact H1]. cbn. intros m Hm. lia.
  - destruct IH as [H1 H2].
    assert (L : 0 < length x).
    { destruct Hl as (Hl & _). apply link_parts_spec in Hl. destruct Hl as (p & q & o & u & cl & r & Hl).
      rewrite (pt_a _ _ _ _ _ _ _ _ Hl), !app_length. cbn. lia. }
    rewrite !app_length in *. split.
    + constructor; [cbn; lia|]. eapply Forall_impl; [|exact H1]. cbn. intros m Hm. lia.
    + constructor; [exact H2|]. eapply Forall_impl; [|exact H1]. cbn. intros m Hm. lia.
Qed.

Lemma sorted_unique (l l' : list (nat * nat)) : Permutation l l' -> StronglySorted (fun x y => fst x <= fst y) l ->
  StronglySorted (fun x y => fst x < fst y) l' -> l = l'.
Proof.
  revert l'. induction l as [|m l IH]; intros l' P H H'.
  - apply Permutation_nil in P. auto.
  - destruct l' as [|m' l']; [symmetry in P; apply Permutation_nil in P; discriminate|].
    inversion H as [|? ? S1 F1]; subst. inversion H' as [|? ? S2 F2]; subst. rewrite Forall_forall in F1, F2.
    assert (E : m = m').
    { assert (I1 : In m (m' :: l')) by (eapply Permutation_in; [exact P|left; reflexivity]).
      assert (I2 : In m' (m :: l)) by (eapply Permutation_in; [symmetry; exact P|left; reflexivity]).
      destruct I1 as [I1|I1]; [auto|]. destruct I2 as [I2|I2]; [auto|].
      specialize (F1 _ I2). specialize (F2 _ I1). lia. }
    subst m'. f_equal. apply IH; [eapply Permutation_cons_inv; exact P|assumption|assumption].
Qed.

Lemma chunk_links b ps s ms : spots b ps s 0 ms -> link_matches s = ms.
Proof.
  intros H. destruct (spots_scan _ _ _ _ _ H) as (mu & mf & H1 & H2 & H3).
  apply finditer_unique in H1, H2. subst mu mf. unfold link_matches.
  apply sorted_unique; [rewrite sort_permutation; exact H3|apply sort_sorted|apply (spots_from _ _ _ _ _ H)].
Qed.

(** * Splitting at links *)

(** What the last two passes do with text without HTML line breaks. *)
Definition okw (w : str) : Prop := one_dot w = false /\ forall x y, w <> x ++ lit "<br" ++ y.
Record ftok (t : tok) : Prop := {
  ft_sp : t_eval t = true -> spacing (t_text t);
  ft_ink : t_eval t = true -> ink_first (t_text t) /\ ink_last (t_text t);
  ft_br : t_eval t = true -> forall x y, t_text t <> x ++ lit "<br" ++ y }.

Lemma no_breaks s : (forall x y, s <> x ++ lit "<br" ++ y) -> finditer HTML_NEWLINE_REGEX s = [].
Proof.
  intros H. apply finditer_nil. intros x g y -> Hd. apply html_den in Hd.
  assert (G : exists t, g = lit "<br" ++ t).
  { cbn in Hd. repeat destruct Hd as [<-|Hd]; try (eexists; reflexivity). destruct Hd. }
  destruct G as (t & ->). apply (H x (t ++ y)). rewrite <- !app_assoc. reflexivity.
Qed.

Lemma late_passes ts : Forall ftok ts ->
  (t3 <- split_pass newline_split ts ;; split_pass space_split t3) = Ok (expands ts).
Proof.
  intros H. assert (G : split_pass newline_split ts = Ok ts).
  { induction H as [|t ts Ht H IH]; [reflexivity|]. rewrite split_pass_cons. destruct (t_eval t) eqn:He.
    - destruct (ft_ink t Ht He) as [H1 H2]. destruct (ink_ends_strip _ H1 H2) as [Es Eb].
      assert (Hb := ft_br t Ht He). destruct t as [x l e]. cbn [t_text t_lead t_eval] in *. subst e.
      assert (En : newline_split x l = Ok [Tok x l true]).
      { unfold newline_split. rewrite no_breaks by exact Hb. cbn [fold_left skipn]. rewrite Eb, Es. reflexivity. }
      rewrite En. cbn [bind]. rewrite IH. reflexivity.
    - cbn [bind]. rewrite IH. reflexivity. }
  rewrite G. cbn [bind]. clear G.
  induction H as [|t ts Ht H IH]; [reflexivity|]. rewrite split_pass_cons, IH, expands_cons. unfold expand.
  destruct (t_eval t) eqn:He; [|reflexivity]. rewrite space_split_words by apply (ft_sp t Ht He). reflexivity.
Qed.

Lemma br_words s : (forall w, In w (words s) -> forall x y, w <> x ++ lit "<br" ++ y) ->
  forall x y, s <> x ++ lit "<br" ++ y.
Proof.
  intros H x y ->. destruct (words_infix (lit "<br") x y) as (w & x' & y' & Hw & E); [discriminate|repeat constructor|].
  apply (H w Hw x' y' E).
Qed.

Lemma words_blank s : blank s = true <-> words s = [].
Proof.
  split; intros H.
  - apply words_spaces. apply blank_iff in H. exact H.
  - destruct (blank s) eqn:E; [reflexivity|]. exfalso. destruct (strip_ends s E) as [G _].
    destruct (words_head _ G) as (w & v & _ & Ew & _). rewrite words_strip, H in Ew. discriminate.
Qed.

Lemma words_nonblank s : blank s = false <-> words s <> [].
Proof. rewrite <- words_blank. destruct (blank s); split; congruence. Qed.

Lemma gap_ftok s lead : spacing s -> Forall okw (words s) -> blank s = false -> ftok (Tok (strip s) lead true).
Proof.
  intros Hs Hw Hb. split; cbn [t_text t_eval]; intros _.
  - apply Forall_strip, Hs.
  - apply strip_ends, Hb.
  - apply br_words. intros w Hin. rewrite words_strip in Hin. rewrite Forall_forall in Hw. apply (Hw w Hin).
Qed.

Lemma one_dot_okw s : Forall okw (words s) -> one_dot s = false.
Proof.
  intros H. destruct (one_dot s) eqn:E; [|reflexivity]. apply one_dot_first in E. destruct E as (w & ws & Ew & Ed).
  rewrite Ew in H. apply Forall_inv in H. destruct H as [H _]. congruence.
Qed.

Lemma undotted_one_dot w : undotted w -> one_dot w = false.
Proof.
  intros [H1 H2]. destruct (one_dot w) eqn:E; [|reflexivity]. apply one_dot_spec in E. destruct E as (u & -> & Hu).
  destruct u as [|c u]; [exfalso; apply H1; reflexivity|]. exfalso. apply (Hu u). rewrite (H2 c u eq_refl). reflexivity.
Qed.

Lemma ordinary_okw x : ordinary x -> okw x.
Proof.
  intros (H1 & _ & H2). split; [apply undotted_one_dot, H2|]. intros a b. apply H1. apply in_or_app. left. cbn. auto 6.
Qed.

Lemma blanks_spaces ws : blanks ws -> spaces ws.
Proof. apply Forall_impl. intros c ->. reflexivity. Qed.

Lemma blanks_spacing ws : blanks ws -> spacing ws.
Proof. apply Forall_impl. intros c ->. reflexivity. Qed.

Lemma words_parted a b : parted b -> words (a ++ b) = words a ++ words b.
Proof.
  intros [->|(b' & ->)]; [cbn [words]; rewrite !app_nil_r; reflexivity|].
  rewrite words_app_space by reflexivity. rewrite words_cons_space by reflexivity. reflexivity.
Qed.

Lemma no_space_spacing x : Forall (fun c => is_space c = false) x -> spacing x.
Proof. apply Forall_impl. intros c Hc. congruence. Qed.

(** The pieces with another flag in front. *)
Definition relead (l : bool) (ps : list piece) : list piece :=
  match ps with [] => [] | (x, _) :: ps => (x, l) :: ps end.

Lemma relead_app l a b : a <> [] -> relead l (a ++ b) = relead l a ++ b.
Proof. destruct a as [|[x f] a]; [congruence|reflexivity]. Qed.

Lemma wp_pieces l ws : map piece_of (wp l ws) = relead l (words_as_pieces ws).
Proof. destruct ws as [|w ws]; [reflexivity|]. cbn [wp map relead words_as_pieces]. f_equal. rewrite map_map. reflexivity. Qed.

Lemma relead_words ws : relead true (words_as_pieces ws) = words_as_pieces ws.
Proof. destruct ws; reflexivity. Qed.

(** The halves of a link. *)
Lemma half_ink x y p q o u cl r : parts x y p q o u cl r ->
  ink_first x /\ ink_last x /\ ink_first y /\ ink_last y /\ 3 <= length x.
Proof.
  intros H. destruct (parts_opener _ _ _ _ _ _ _ _ H) as [Ho|Ho];
  (split; [|split; [|split; [|split]]]).
  1,6: rewrite (pt_a _ _ _ _ _ _ _ _ H); destruct p as [|c p]; [exists c_lbr; eexists; split; reflexivity|];
    exists c; eexists; (split; [reflexivity|]); apply (Forall_inv (pt_p _ _ _ _ _ _ _ _ H)).
  1,5: rewrite (pt_a _ _ _ _ _ _ _ _ H); exists (p ++ [c_lbr] ++ q ++ [c_rbr]), o; (split; [rewrite <- !app_assoc; reflexivity|]);
    rewrite Ho; reflexivity.
  1,4: rewrite (pt_b _ _ _ _ _ _ _ _ H); destruct (pt_u' _ _ _ _ _ _ _ _ H) as (c & u' & -> & Hc); exists c; eexists; (split; [reflexivity|exact Hc]).
  1,3: rewrite (pt_b _ _ _ _ _ _ _ _ H); destruct r as [|c r _] using rev_ind; [exists u, cl; split; [reflexivity|]; destruct (pt_kind _ _ _ _ _ _ _ _ H) as [[_ ->]|[_ ->]]; reflexivity|];
    exists (u ++ [cl] ++ r), c; (split; [rewrite <- !app_assoc; reflexivity|]);
    assert (R := pt_r _ _ _ _ _ _ _ _ H); apply Forall_app in R; destruct R as [_ R]; apply (Forall_inv R).
  all: rewrite (pt_a _ _ _ _ _ _ _ _ H), !app_length; cbn; lia.
Qed.

Lemma contains_false_no a b s : ~ In a s -> contains [a; b] s = false.
Proof.
  intros H. destruct (contains [a; b] s) eqn:E; [|reflexivity]. apply contains_spec in E. destruct E as (x & y & ->).
  exfalso. apply H. apply in_or_app. right. left. reflexivity.
Qed.

Lemma contains_snoc_no a b s : a <> b -> ~ In a s -> contains [a; b] (s ++ [a]) = false.
Proof.
  intros Hab H. destruct (contains [a; b] (s ++ [a])) eqn:E; [|reflexivity]. apply contains_spec in E. destruct E as (x & y & E).
  exfalso. destruct (infix2 _ _ _ _ _ _ E) as [(v & -> & _)|[(-> & E')|(v & _ & E')]].
  - apply H. apply in_or_app. right. left. reflexivity.
  - injection E' as -> _. congruence.
  - destruct v as [|c [|d v]]; discriminate.
Qed.

Lemma split_link_halves x y p q o u cl r ws' : parts x y p q o u cl r -> blanks ws' ->
  split_link (x ++ ws' ++ y) = Ok (x, y).
Proof.
  intros H Hw. destruct (half_ink _ _ _ _ _ _ _ _ H) as (F1 & _ & F2 & F3 & _).
  destruct (parts_no _ _ _ _ _ _ _ _ H) as (N1 & N2 & N3 & N4 & N5 & N6).
  assert (Nq : ~ In c_rbr (p ++ [c_lbr] ++ q)).
  { intros G. rewrite !in_app_iff in G. destruct G as [G|[[G|[]]|G]]; [contradiction|discriminate|contradiction]. }
  assert (Ea : x = (p ++ [c_lbr] ++ q) ++ [c_rbr; o]) by (rewrite (pt_a _ _ _ _ _ _ _ _ H), <- !app_assoc; reflexivity).
  assert (Es : strip (p ++ [c_lbr] ++ q) = p ++ [c_lbr] ++ q).
  { apply strip_id.
    - destruct F1 as (c & a & E & Hc). rewrite Ea in E. destruct p as [|d p]; [reflexivity|]. injection E as -> _. exact Hc.
    - destruct (pt_q' _ _ _ _ _ _ _ _ H) as (q' & c & -> & Hc). rewrite !app_assoc, rev_app_distr. exact Hc. }
  assert (Ey : strip (ws' ++ y) = y).
  { rewrite <- (app_nil_r y) at 1. rewrite strip_app_spaces; [|apply forallb_forall; intros c Hc; apply (blanks_in ws') in Hc; [subst; reflexivity|exact Hw]|reflexivity].
    apply ink_ends_strip; assumption. }
  assert (U : forall o', opener o' -> contains [c_rbr; o'] (ws' ++ y) = false).
  { intros o' Ho. destruct (contains [c_rbr; o'] (ws' ++ y)) eqn:E; [|reflexivity]. apply contains_spec in E. destruct E as (a & b & E).
    exfalso. apply joint_after_blanks in E; [|assumption|assumption]. destruct E as (v & _ & E).
    eapply second_half_unjoined; eassumption. }
  assert (S : forall o', opener o' -> o = o' -> split_on2 c_rbr o' (x ++ ws' ++ y) = [p ++ [c_lbr] ++ q; ws' ++ y]).
  { intros o' Ho <-. rewrite Ea, <- app_assoc. rewrite split_on2_at.
    - rewrite split_on2_none by (apply U, Ho). reflexivity.
    - destruct Ho as [->| ->]; discriminate.
    - apply contains_snoc_no; [destruct Ho as [->| ->]; discriminate|exact Nq]. }
  unfold split_link. destruct (pt_kind _ _ _ _ _ _ _ _ H) as [[Eo _]|[Eo _]].
  - assert (C : contains [c_rbr; c_lpar] (x ++ ws' ++ y) = true).
    { apply contains_spec. exists (p ++ [c_lbr] ++ q), (ws' ++ y). rewrite Ea, Eo, <- !app_assoc. reflexivity. }
    rewrite C, (S c_lpar) by solve [left; reflexivity|exact Eo]. rewrite Es, Ey, Ea, Eo. reflexivity.
  - assert (C : contains [c_rbr; c_lpar] (x ++ ws' ++ y) = false).
    { destruct (contains [c_rbr; c_lpar] (x ++ ws' ++ y)) eqn:E; [|reflexivity]. apply contains_spec in E. destruct E as (a & b & E).
      exfalso. rewrite Ea, Eo, <- app_assoc in E.
      destruct (infix2 _ _ _ _ _ _ E) as [(v & E1 & _)|[(E1 & _)|(v & -> & E1)]].
      - apply Nq. rewrite E1. apply in_or_app. right. left. reflexivity.
      - apply Nq. rewrite E1. apply in_or_app. right. left. reflexivity.
      - destruct v as [|c [|d v]]; cbn [app] in E1.
        + discriminate.
        + injection E1 as _ E1. discriminate.
        + injection E1 as _ _ E1.
          assert (C : contains [c_rbr; c_lpar] (ws' ++ y) = true) by (apply contains_spec; exists v, b; exact E1).
          rewrite U in C by (left; reflexivity). discriminate. }
    rewrite C, (S c_lbr) by solve [right; reflexivity|exact Eo]. rewrite Es, Ey, Ea, Eo. reflexivity.
Qed.

Lemma half_ftok x y lead : link_halves x y -> ftok (Tok x lead true).
Proof.
  intros (H & H1 & H2 & _). apply link_parts_spec in H. destruct H as (p & q & o & u & cl & r & H).
  destruct (half_ink _ _ _ _ _ _ _ _ H) as (F1 & F2 & _). split; cbn [t_text t_eval]; intros _.
  - apply Forall_app in H1. destruct H1 as [H1 _]. eapply Forall_impl; [|exact H1]. cbn. intuition.
  - auto.
  - apply br_words. intros w Hw. rewrite Forall_forall in H2. apply (H2 w Hw).
Qed.

Lemma last_blank mid ws text rest : blanks ws -> ws <> [] -> text = (mid ++ ws) ++ rest ->
  nth_error text (length (mid ++ ws) - 1) = Some c_sp.
Proof.
  intros Hb Hn ->. destruct (blanks_end ws Hb) as [->|(ws' & ->)]; [congruence|].
  rewrite app_assoc, app_length. cbn [length]. replace (length (mid ++ ws') + 1 - 1) with (length (mid ++ ws')) by lia.
  rewrite <- app_assoc, nth_error_app2, Nat.sub_diag by lia. reflexivity.
Qed.

Lemma spots_split b ps s pos ms : spots b ps s pos ms -> forall text pre mid ts lead,
  text = pre ++ mid ++ s -> pos = length (pre ++ mid) ->
  spacing mid -> Forall okw (words mid) -> (mid = [] \/ (parted s /\ words mid <> [])) ->
  (b = true -> mid <> [] \/ ts = []) -> (ts = [] /\ pre = [] \/ ts <> [] /\ pre <> [] /\ parted (mid ++ s)) ->
  exists lts, ('(ts1, le1) <- foldM (link_step text lead) ms (ts, length pre) ;;
      split_tail ts1 (skipn le1 text) le1 lead) = Ok (ts ++ lts)
    /\ Forall ftok lts
    /\ map piece_of (expands lts) = relead (if nilb ts then lead else true) (words_as_pieces (words mid) ++ ps).
Proof.
  intros H. induction H as [b ws pos Hw|b ws x ps rest pos ms Hw Hx Hxs Hxo Hp H IH|ws x ws' y ps rest pos ms Hw Hw' Hl Hp H IH];
    intros text pre mid ts lead Et Epos Hsm Hom Hmid Hb Hts.
  - cbn [foldM bind]. rewrite Et, skipn_pre. unfold split_tail.
    assert (Ew : words (mid ++ ws) = words mid) by (apply words_trail, blanks_spaces, Hw).
    assert (Ho : one_dot (mid ++ ws) = false) by (apply one_dot_okw; rewrite Ew; exact Hom).
    rewrite Ho. cbn [bind]. rewrite app_nil_r. destruct (blank (mid ++ ws)) eqn:Eb; cbn [negb].
    + exists []. rewrite app_nil_r. split; [reflexivity|]. split; [constructor|].
      apply words_blank in Eb. rewrite Ew in Eb. rewrite Eb. reflexivity.
    + eexists. split; [reflexivity|]. split.
      * constructor; [|constructor]. apply gap_ftok; [apply spacing_app; split; [exact Hsm|apply blanks_spacing, Hw]|rewrite Ew; exact Hom|exact Eb].
      * unfold expands, expand. cbn [map concat t_eval t_lead t_text app]. rewrite app_nil_r, words_strip, Ew, wp_pieces. f_equal.
        destruct Hts as [[-> ->]|(Hn & Hpre & Hpa)]; [reflexivity|]. destruct ts; [congruence|]. destruct pre; [congruence|].
        cbn [length Nat.eqb nilb]. destruct Hpa as [E|(r & E)]; [rewrite E in Eb; discriminate|]. rewrite E. reflexivity.
  - destruct (IH text pre (mid ++ ws ++ x) ts lead) as (lts & E & Hf & Hp').
    + rewrite Et, <- !app_assoc. reflexivity.
    + rewrite Epos. rewrite !app_length. lia.
    + rewrite !spacing_app. split; [exact Hsm|]. split; [apply blanks_spacing, Hw|apply no_space_spacing, Hxs].
    + destruct Hmid as [->|[Hps Hm]].
      * cbn [app]. rewrite words_lead by (apply blanks_spaces, Hw). rewrite (words_one x) by assumption.
        constructor; [apply ordinary_okw, Hxo|constructor].
      * rewrite words_parted.
        2:{ destruct Hps as [Ep|(r & Ep)]; [destruct ws; [destruct x; [congruence|discriminate]|discriminate]|].
            right. destruct ws as [|c ws]; [|injection Ep as -> _; eexists; reflexivity].
            destruct x as [|c x]; [congruence|]. injection Ep as -> _. apply Forall_inv in Hxs. discriminate. }
        apply Forall_app. split; [exact Hom|]. rewrite words_lead by (apply blanks_spaces, Hw). rewrite (words_one x) by assumption.
        constructor; [apply ordinary_okw, Hxo|constructor].
    + right. split; [exact Hp|]. rewrite <- words_blank. intros Eb. apply blank_iff in Eb.
      apply Forall_app in Eb. destruct Eb as [_ Eb]. apply Forall_app in Eb. destruct Eb as [_ Eb].
      destruct x as [|c x]; [congruence|]. apply Forall_inv in Eb. apply Forall_inv in Hxs. congruence.
    + intros _. left. destruct mid; [|discriminate]. destruct ws; [|discriminate]. exact Hx.
    + destruct Hts as [Hts|(Hn & Hpre & Hpa)]; [auto|]. right. split; [exact Hn|]. split; [exact Hpre|].
      rewrite <- !app_assoc. exact Hpa.
    + exists lts. split; [exact E|]. split; [exact Hf|]. rewrite Hp'.
      replace (words_as_pieces (words mid) ++ (x, true) :: ps) with ((words_as_pieces (words mid ++ [x])) ++ ps)
        by (unfold words_as_pieces; rewrite map_app, <- app_assoc; reflexivity).
      f_equal. f_equal. f_equal.
      destruct Hmid as [->|[Hps Hm]].
      * cbn [app]. rewrite words_lead by (apply blanks_spaces, Hw). rewrite (words_one x) by assumption. reflexivity.
      * rewrite words_parted.
        2:{ destruct Hps as [Ep|(r & Ep)]; [destruct ws; [destruct x; [congruence|discriminate]|discriminate]|].
            right. destruct ws as [|c ws]; [|injection Ep as -> _; eexists; reflexivity].
            destruct x as [|c x]; [congruence|]. injection Ep as -> _. apply Forall_inv in Hxs. discriminate. }
        rewrite words_lead by (apply blanks_spaces, Hw). rewrite (words_one x) by assumption. reflexivity.
  - assert (Hl' := Hl). destruct Hl' as (Hl' & _). apply link_parts_spec in Hl'. destruct Hl' as (p & q & o & u & cl & r & Hl').
    destruct (half_ink _ _ _ _ _ _ _ _ Hl') as (F1 & _ & _ & _ & _).
    assert (Ewx : words x <> []) by (destruct (words_head x F1) as (w & v & _ & -> & _); discriminate).
    assert (Ew : words (mid ++ ws) = words mid) by (apply words_trail, blanks_spaces, Hw).
    assert (Esl : slice text (length pre) (pos + length ws) = mid ++ ws).
    { rewrite Et, Epos. replace (length (pre ++ mid) + length ws) with (length pre + length (mid ++ ws)) by (rewrite !app_length; lia).
      replace (pre ++ mid ++ ws ++ x ++ ws' ++ y ++ rest) with (pre ++ (mid ++ ws) ++ (x ++ ws' ++ y ++ rest)) by (rewrite <- !app_assoc; reflexivity).
      apply slice_mid. }
    assert (Esl2 : slice text (pos + length ws) (pos + length (ws ++ x ++ ws' ++ y)) = x ++ ws' ++ y).
    { rewrite Et, Epos. replace (length (pre ++ mid) + length ws) with (length (pre ++ mid ++ ws)) by (rewrite !app_length; lia).
      replace (length (pre ++ mid) + length (ws ++ x ++ ws' ++ y)) with (length (pre ++ mid ++ ws) + length (x ++ ws' ++ y)) by (rewrite !app_length; lia).
      replace (pre ++ mid ++ ws ++ x ++ ws' ++ y ++ rest) with ((pre ++ mid ++ ws) ++ (x ++ ws' ++ y) ++ rest) by (rewrite <- !app_assoc; reflexivity).
      apply slice_mid. }
    cbn [foldM]. unfold link_step at 1. rewrite Esl, Esl2, (split_link_halves _ _ _ _ _ _ _ _ ws' Hl' Hw').
    assert (Ho : one_dot (mid ++ ws) = false) by (apply one_dot_okw; rewrite Ew; exact Hom).
    rewrite Ho, andb_false_r.
    assert (Next : forall ts2, ts2 <> [] -> exists lts, ('(ts1, le1) <- foldM (link_step text lead) ms (ts2, pos + length (ws ++ x ++ ws' ++ y)) ;;
      split_tail ts1 (skipn le1 text) le1 lead) = Ok (ts2 ++ lts)
      /\ Forall ftok lts /\ map piece_of (expands lts) = relead true ps).
    { intros ts2 Hts2. destruct (IH text (pre ++ mid ++ ws ++ x ++ ws' ++ y) [] ts2 lead) as (lts & E1 & E2 & E3).
      - rewrite Et, <- !app_assoc. reflexivity.
      - rewrite Epos, app_nil_r, !app_length. lia.
      - constructor.
      - constructor.
      - auto.
      - discriminate.
      - right. split; [exact Hts2|]. split; [|exact Hp]. destruct F1 as (c & a & -> & _). destruct pre; [destruct mid; [destruct ws; discriminate|discriminate]|discriminate].
      - exists lts. destruct ts2; [congruence|]. split; [|auto]. rewrite <- E1. replace (length (pre ++ mid ++ ws ++ x ++ ws' ++ y)) with (pos + length (ws ++ x ++ ws' ++ y)); [reflexivity|].
        rewrite Epos, !app_length. lia. }
    assert (Rps : relead true ps = ps).
    { clear -H. inversion H; subst; try reflexivity. }
    rewrite Rps in Next.
    destruct (blank (mid ++ ws)) eqn:Eb; cbn [negb].
    + apply words_blank in Eb. rewrite Ew in Eb. destruct Hmid as [->|[_ Hm]]; [|congruence].
      destruct (Hb eq_refl) as [G| ->]; [congruence|]. cbn [nilb bind].
      destruct (Next ([] ++ [Tok x lead true; Tok y false false]) ltac:(discriminate)) as (lts & E & Hf & Hpl).
      exists ([Tok x lead true; Tok y false false] ++ lts). split; [exact E|]. split.
      * constructor; [eapply half_ftok; exact Hl|]. constructor; [|exact Hf]. split; cbn; discriminate.
      * cbn [app nilb words words_as_pieces map]. rewrite !expands_cons, !map_app, Hpl. unfold expand. cbn [t_eval t_lead t_text map app].
        rewrite wp_pieces, relead_app by (destruct (words x); [congruence|discriminate]). reflexivity.
    + assert (Ewm : words mid <> []) by (rewrite <- Ew; apply words_nonblank, Eb).
      destruct Hmid as [->|[Hps _]]; [exfalso; apply Ewm; reflexivity|].
      assert (Hws : ws <> []).
      { intros ->. destruct F1 as (c & a & -> & Hc). destruct Hps as [E|(r' & E)]; [discriminate|]. injection E as -> _. discriminate. }
      assert (En : nth_error text (pos + length ws - 1) = Some c_sp).
      { replace (pos + length ws) with (length ((pre ++ mid) ++ ws)) by (rewrite Epos, !app_length; lia).
        eapply last_blank; [exact Hw|exact Hws|]. rewrite Et, <- !app_assoc. reflexivity. }
      rewrite En, N.eqb_refl. cbn [bind].
      assert (El : (if nilb ts then lead else startswith [c_sp] (mid ++ ws)) = (if nilb ts then lead else true)).
      { destruct Hts as [[-> ->]|(Hn & Hpre & Hpa)]; [reflexivity|]. destruct ts; [congruence|]. cbn [nilb].
        destruct mid as [|c mid]; [exfalso; apply Ewm; reflexivity|]. destruct Hpa as [E|(r' & E)]; [discriminate|].
        injection E as -> _. reflexivity. }
      rewrite El.
      match goal with |- context [foldM _ ms (?T, _)] => destruct (Next T) as (lts & E & Hf & Hpl) end.
      { destruct ts; discriminate. }
      rewrite E. rewrite <- !app_assoc. eexists. split; [reflexivity|]. split.
      * cbn [app]. constructor; [apply gap_ftok; [apply spacing_app; split; [exact Hsm|apply blanks_spacing, Hw]|rewrite Ew; exact Hom|exact Eb]|].
        constructor; [eapply half_ftok; exact Hl|]. constructor; [|exact Hf]. split; cbn; discriminate.
      * cbn [app]. rewrite !expands_cons, !map_app, Hpl. unfold expand. cbn [t_eval t_lead t_text map app].
        rewrite !wp_pieces, relead_words, words_strip, Ew. rewrite (relead_app _ (words_as_pieces (words mid))) by (destruct (words mid); [congruence|discriminate]).
        reflexivity.
Qed.

Lemma chunk_relead b ps s : chunk b ps s -> relead true ps = ps.
Proof.
  intros H. destruct H as [| |ws x ws' y ps rest Hw Hw' (Hl & _) Hp H]; try reflexivity.
  apply link_parts_spec in Hl. destruct Hl as (p & q & o & u & cl & r & Hl).
  destruct (half_ink _ _ _ _ _ _ _ _ Hl) as (F1 & _). destruct (words_head x F1) as (w & v & _ & -> & _). reflexivity.
Qed.

Lemma chunk_split b ps s lead : chunk b ps s ->
  exists lts, link_split s lead = Ok lts /\ Forall ftok lts /\ map piece_of (expands lts) = relead lead ps.
Proof.
  intros H. destruct (chunk_spots _ _ _ H 0) as (ms & G).
  destruct (spots_split _ _ _ _ _ G s [] [] [] lead) as (lts & E & H1 & H2); auto; [constructor|constructor|].
  exists lts. unfold link_split. rewrite (chunk_links _ _ _ _ G). auto.
Qed.

(** * Inline code *)

Lemma code_inner n : 0 < n -> forall code, code_body n code -> inner n code.
Proof.
  intros Hn code. remember (length code) as k eqn:Hk. assert (Hle : length code <= k) by lia. clear Hk.
  revert code Hle. induction k as [|k IH]; intros code Hle (H0 & H1 & H2 & H3).
  { destruct code; [congruence|cbn in Hle; lia]. }
  destruct (tick_split code) as [H|(gap & j & rest & E & Hg & Hj & Hr)]; [apply inner_gap; assumption|].
  assert (Hgn : gap <> []).
  { intros ->. destruct j; [lia|]. apply (H1 (rep c_bt j ++ rest)). exact E. }
  assert (Hrn : rest <> []).
  { intros ->. destruct j; [lia|]. apply (H2 (gap ++ rep c_bt j)). rewrite E, app_nil_r, rep_snoc, app_assoc. reflexivity. }
  assert (Hge : forall g', gap <> g' ++ [c_bt]).
  { intros g' ->. apply Forall_app in Hg. destruct Hg as [_ Hg]. apply Forall_inv in Hg. congruence. }
  rewrite E. apply inner_run; [exact Hgn|exact Hg|exact Hj| |].
  - intros ->. destruct (H3 gap rest E) as [(a & Ea)|(b & Eb)]; [apply (Hge a Ea)|apply (Hr b Eb)].
  - apply IH.
    + rewrite E, !app_length, rep_length in Hle. lia.
    + split; [exact Hrn|]. split; [exact Hr|]. split.
      * intros x ->. apply (H2 (gap ++ rep c_bt j ++ x)). rewrite E, <- !app_assoc. reflexivity.
      * intros a b ->. destruct (H3 (gap ++ rep c_bt j ++ a) b) as [(a' & Ea)|Hb]; [rewrite E, <- !app_assoc; reflexivity| |right; exact Hb].
        left. destruct a as [|c a _] using rev_ind.
        -- exfalso. destruct n; [lia|]. apply (Hr (rep c_bt n ++ b)). reflexivity.
        -- exists a. rewrite !app_assoc in Ea. apply app_inj_tail in Ea. destruct Ea as [_ ->]. reflexivity.
Qed.

Lemma code_piece_first x : code_piece x -> exists x', x = c_bt :: x'.
Proof.
  intros (n & code & dot & -> & Hn & _). destruct n; [lia|]. eexists. reflexivity.
Qed.

Lemma prose_cut b ps s : prose b ps s ->
  chunk b ps s \/ exists g ps1 x ps2 rest, s = g ++ x ++ rest /\ ps = ps1 ++ (x, true) :: ps2
    /\ chunk b ps1 g /\ (g = [] \/ exists g', g = g' ++ [c_sp]) /\ code_piece x /\ parted rest /\ prose true ps2 rest.
Proof.
  assert (Pg : forall g x (rest : str), code_piece x -> parted (g ++ x ++ rest) -> g <> [] /\ parted g).
  { intros g x rest Hx Hp. destruct (code_piece_first x Hx) as (x' & ->). destruct g as [|c g].
    - destruct Hp as [E|(r & E)]; discriminate.
    - split; [discriminate|]. destruct Hp as [E|(r & E)]; [discriminate|]. injection E as -> _. right. eexists. reflexivity. }
  intros H. induction H as [b ws Hw|b ws x ps rest Hw Hx Hxs Hxo Hp H IH|b ws x ps rest Hw Hx Hp H IH|ws x ws' y ps rest Hw Hw' Hl Hp H IH].
  - left. constructor; assumption.
  - destruct IH as [IH|(g & ps1 & x' & ps2 & rest' & -> & -> & IH & Hg & Hc & Hr & Hpr)]; [left; constructor; assumption|].
    right. destruct (Pg _ _ _ Hc Hp) as [Hgn Hgp].
    exists (ws ++ x ++ g), ((x, true) :: ps1), x', ps2, rest'.
    split; [rewrite <- !app_assoc; reflexivity|]. split; [reflexivity|].
    split; [constructor; assumption|]. split; [|auto]. right.
    destruct Hg as [Hg|(g' & ->)]; [congruence|]. exists (ws ++ x ++ g'). rewrite <- !app_assoc. reflexivity.
  - right. exists ws, [], x, ps, rest. split; [reflexivity|]. split; [reflexivity|]. split; [constructor; assumption|].
    split; [apply blanks_end, Hw|auto].
  - destruct IH as [IH|(g & ps1 & x' & ps2 & rest' & -> & -> & IH & Hg & Hc & Hr & Hpr)]; [left; constructor; assumption|].
    right. destruct (Pg _ _ _ Hc Hp) as [Hgn Hgp].
    exists (ws ++ x ++ ws' ++ y ++ g), (words_as_pieces (words x) ++ (y, false) :: ps1), x', ps2, rest'.
    split; [rewrite <- !app_assoc; reflexivity|]. split; [rewrite <- !app_assoc; reflexivity|].
    split; [constructor; assumption|]. split; [|auto]. right.
    destruct Hg as [Hg|(g' & ->)]; [congruence|]. exists (ws ++ x ++ ws' ++ y ++ g'). rewrite <- !app_assoc. reflexivity.
Qed.

Lemma blanks_no_tick ws : blanks ws -> no_tick ws.
Proof. apply Forall_impl. intros c ->. discriminate. Qed.

Lemma ordinary_no_tick x : ordinary x -> no_tick x.
Proof.
  intros (H & _). apply Forall_forall. intros c Hc ->. apply in_split in Hc. destruct Hc as (a & b & E).
  apply (H (lit "`") a b); [left; reflexivity|exact E].
Qed.

Lemma halves_no_tick x y : link_halves x y -> no_tick x /\ no_tick y.
Proof.
  intros (_ & H & _). apply Forall_app in H. destruct H as [H1 H2].
  split; (eapply Forall_impl; [|eassumption]); cbn; intuition.
Qed.

Lemma chunk_no_tick b ps s : chunk b ps s -> no_tick s.
Proof.
  intros H. induction H as [b ws Hw|b ws x ps rest Hw Hx Hxs Hxo Hp H IH|ws x ws' y ps rest Hw Hw' Hl Hp H IH];
    unfold no_tick; rewrite ?Forall_app.
  - apply blanks_no_tick, Hw.
  - split; [apply blanks_no_tick, Hw|]. split; [apply ordinary_no_tick, Hxo|exact IH].
  - destruct (halves_no_tick _ _ Hl). split; [apply blanks_no_tick, Hw|]. split; [assumption|].
    split; [apply blanks_no_tick, Hw'|]. split; [assumption|exact IH].
Qed.

Lemma halves_ink x y : link_halves x y -> ink_first x /\ ink_last x /\ ink_first y /\ ink_last y /\ 3 <= length x.
Proof.
  intros (Hl & _). apply link_parts_spec in Hl. destruct Hl as (p & q & o & u & cl & r & Hl). eapply half_ink. exact Hl.
Qed.

Lemma chunk_spacing b ps s : chunk b ps s -> spacing s.
Proof.
  intros H. induction H as [b ws Hw|b ws x ps rest Hw Hx Hxs Hxo Hp H IH|ws x ws' y ps rest Hw Hw' Hl Hp H IH];
    rewrite ?spacing_app.
  - apply blanks_spacing, Hw.
  - split; [apply blanks_spacing, Hw|]. split; [apply no_space_spacing, Hxs|exact IH].
  - destruct Hl as (_ & Hl & _). apply Forall_app in Hl. destruct Hl as [Hl1 Hl2].
    split; [apply blanks_spacing, Hw|]. split; [eapply Forall_impl; [|exact Hl1]; cbn; intuition|].
    split; [apply blanks_spacing, Hw'|]. split; [eapply Forall_impl; [|exact Hl2]; cbn; intuition|exact IH].
Qed.

Lemma ink_not_blanks s : ink_first s -> ~ blanks s.
Proof. intros (c & a & -> & Hc) H. apply Forall_inv in H. subst. discriminate. Qed.

Lemma chunk_blank b ps s : chunk b ps s -> blank s = true -> ps = [].
Proof.
  intros H Hb. apply blank_iff in Hb.
  assert (G : forall x, ink_first x -> spaces x -> False).
  { intros x (c & a & -> & Hc) Hx. apply Forall_inv in Hx. congruence. }
  destruct H as [b ws Hw|b ws x ps rest Hw Hx Hxs Hxo Hp H|ws x ws' y ps rest Hw Hw' Hl Hp H]; [reflexivity| |]; exfalso.
  - apply Forall_app in Hb. destruct Hb as [_ Hb]. apply Forall_app in Hb. destruct Hb as [Hb _].
    apply (G x); [|exact Hb]. destruct x as [|c x]; [congruence|]. exists c, x. split; [reflexivity|]. apply (Forall_inv Hxs).
  - apply Forall_app in Hb. destruct Hb as [_ Hb]. apply Forall_app in Hb. destruct Hb as [Hb _].
    apply (G x); [|exact Hb]. apply (halves_ink _ _ Hl).
Qed.

Lemma chunk_nonblank b s : chunk b [] s -> blank s = true.
Proof.
  intros H. remember [] as ps eqn:E. destruct H as [b ws Hw| |ws x ws' y ps rest Hw Hw' Hl Hp H].
  - apply blank_iff. apply blanks_spaces, Hw.
  - discriminate.
  - destruct (words x); discriminate.
Qed.

Lemma blanks_lstrip ws s : blanks ws -> ink_first s -> lstrip (ws ++ s) = s.
Proof.
  intros Hw (c & a & -> & Hc). induction Hw as [|d ws Hd Hw IH].
  - cbn. unfold lstrip. cbn [lstrip_by]. rewrite Hc. reflexivity.
  - subst d. unfold lstrip in *. cbn [app lstrip_by]. exact IH.
Qed.

Lemma blanks_strip_nil ws : blanks ws -> lstrip ws = [] /\ rstrip ws = [].
Proof.
  intros H. assert (G : forallb is_space ws = true).
  { apply forallb_forall. intros c Hc. apply (blanks_in ws) in Hc; [subst; reflexivity|exact H]. }
  split.
  - induction H as [|d ws -> H IH]; [reflexivity|]. unfold lstrip in *. cbn [lstrip_by]. apply IH. exact G.
  - apply rstrip_blank. apply blank_spec. exact G.
Qed.

Lemma ink_app_first x y : ink_first x -> ink_first (x ++ y).
Proof. intros (c & a & -> & Hc). exists c, (a ++ y). auto. Qed.

Lemma word_ink x : x <> [] -> Forall (fun c => is_space c = false) x -> ink_first x /\ ink_last x.
Proof.
  intros Hx H. split.
  - destruct x as [|c x]; [congruence|]. exists c, x. split; [reflexivity|apply (Forall_inv H)].
  - destruct x as [|c x _] using rev_ind; [congruence|]. exists x, c. split; [reflexivity|].
    apply Forall_app in H. apply (Forall_inv (proj2 H)).
Qed.

Lemma chunk_lstrip b ps s : chunk b ps s -> chunk b ps (lstrip s).
Proof.
  intros H. destruct H as [b ws Hw|b ws x ps rest Hw Hx Hxs Hxo Hp H|ws x ws' y ps rest Hw Hw' Hl Hp H].
  - destruct (blanks_strip_nil ws Hw) as [-> _]. constructor. constructor.
  - rewrite blanks_lstrip by (auto; apply ink_app_first, word_ink; assumption). apply (chunk_word b [] x); auto. constructor.
  - rewrite blanks_lstrip by (auto; apply ink_app_first, (halves_ink _ _ Hl)). apply (chunk_link [] x); auto. constructor.
Qed.

Lemma rstrip_ink_app a s : ink_last a -> rstrip (a ++ s) = a ++ rstrip s.
Proof.
  intros (b & c & -> & Hc). destruct (rstrip s) as [|d r] eqn:E.
  - apply rstrip_by_nil in E. unfold rstrip. rewrite rstrip_by_app by exact E. rewrite app_nil_r.
    apply rstrip_by_snoc, Hc.
  - unfold rstrip in *. rewrite rstrip_by_app_ne by congruence. congruence.
Qed.

Lemma parted_rstrip s : parted s -> parted (rstrip s).
Proof.
  intros H. destruct (rstrip_by_spec is_space s) as (v & E & _). fold (rstrip s) in E.
  destruct (rstrip s) as [|c r] eqn:Er; [left; reflexivity|]. destruct H as [->|(s' & ->)]; [discriminate|].
  injection E as <- _. right. eexists. reflexivity.
Qed.

Lemma chunk_rstrip b ps s : chunk b ps s -> chunk b ps (rstrip s).
Proof.
  intros H. induction H as [b ws Hw|b ws x ps rest Hw Hx Hxs Hxo Hp H IH|ws x ws' y ps rest Hw Hw' Hl Hp H IH].
  - destruct (blanks_strip_nil ws Hw) as [_ ->]. constructor. constructor.
  - rewrite app_assoc, rstrip_ink_app.
    + rewrite <- app_assoc. constructor; auto. apply parted_rstrip, Hp.
    + destruct (word_ink x Hx Hxs) as [_ (a & c & -> & Hc)]. exists (ws ++ a), c. rewrite app_assoc. auto.
  - replace (ws ++ x ++ ws' ++ y ++ rest) with ((ws ++ x ++ ws' ++ y) ++ rest) by (rewrite <- !app_assoc; reflexivity).
    rewrite rstrip_ink_app.
    + rewrite <- !app_assoc. constructor; auto. apply parted_rstrip, Hp.
    + destruct (halves_ink _ _ Hl) as (_ & _ & _ & (a & c & -> & Hc) & _). exists (ws ++ x ++ ws' ++ a), c. rewrite <- !app_assoc. auto.
Qed.

Lemma chunk_strip b ps s : chunk b ps s -> chunk b ps (strip s).
Proof. intros H. unfold strip. apply chunk_rstrip, chunk_lstrip, H. Qed.

Lemma parted_first s : parted s -> blank s = false -> startswith [c_sp] s = true.
Proof. intros [->|(r & ->)] H; [discriminate|reflexivity]. Qed.

(** The tokens of a gap between inline code. *)
Lemma chunk_gap b ps g st (post : str) : chunk b ps g -> (st = false -> parted (g ++ post)) ->
  exists lts, split_pass link_split (gap_toks st g) = Ok lts /\ Forall ftok lts
    /\ map piece_of (expands lts) = relead (negb st) ps.
Proof.
  intros H Hst. unfold gap_toks. destruct (blank g) eqn:Eb.
  - rewrite (chunk_blank _ _ _ H Eb). exists []. split; [reflexivity|]. split; [constructor|reflexivity].
  - rewrite split_pass_one. destruct (chunk_split _ _ _ (if st then false else startswith [c_sp] g) (chunk_strip _ _ _ H)) as (lts & E & H1 & H2).
    exists lts. split; [exact E|]. split; [exact H1|]. rewrite H2. f_equal. destruct st; [reflexivity|].
    destruct g as [|c g]; [discriminate|]. destruct (Hst eq_refl) as [G|(r & G)]; [discriminate|].
    injection G as -> _. reflexivity.
Qed.

Lemma split_pass_app f a b : split_pass f (a ++ b) = (x <- split_pass f a ;; y <- split_pass f b ;; Ok (x ++ y)).
Proof.
  induction a as [|t a IH].
  - cbn [app]. rewrite split_pass_nil. cbn [bind]. destruct (split_pass f b); reflexivity.
  - cbn [app]. rewrite !split_pass_cons, IH. destruct (if t_eval t then _ else _); [|reflexivity]. cbn [bind].
    destruct (split_pass f a); [|reflexivity]. cbn [bind]. destruct (split_pass f b); [|reflexivity]. cbn [bind].
    rewrite app_assoc. reflexivity.
Qed.

Lemma prose_relead b ps s : prose b ps s -> relead true ps = ps.
Proof.
  intros H. destruct H as [| | |ws x ws' y ps rest Hw Hw' Hl Hp H]; try reflexivity.
  destruct (words_head x) as (w & v & _ & -> & _); [apply (halves_ink _ _ Hl)|]. reflexivity.
Qed.

Lemma one_dot_parted s : parted s -> one_dot s = false.
Proof. intros [->|(r & ->)]; reflexivity. Qed.

Lemma prose_rc n : forall b ps s st, length s <= n -> prose b ps s -> (st = false -> parted s) ->
  exists cts lts, rc st s cts /\ split_pass link_split cts = Ok lts /\ Forall ftok lts
    /\ map piece_of (expands lts) = relead (negb st) ps.
Proof.
  induction n as [|n IH]; intros b ps s st Hle H Hst; destruct (prose_cut _ _ _ H) as [Hc|(g & ps1 & x & ps2 & rest & -> & -> & Hc & Hg & Hx & Hr & Hp)].
  1,3: destruct (chunk_gap _ _ _ st [] Hc ltac:(rewrite app_nil_r; exact Hst)) as (lts & E & H1 & H2);
    exists (gap_toks st s), lts; split; [apply rc_end, (chunk_no_tick _ _ _ Hc)|auto].
  { exfalso. destruct (code_piece_first x Hx) as (x' & ->). rewrite !app_length in Hle. cbn in Hle. lia. }
  destruct (IH true ps2 rest false) as (cts2 & lts2 & R2 & E2 & F2 & P2).
  { destruct (code_piece_first x Hx) as (x' & ->). rewrite !app_length in Hle. cbn in Hle. lia. }
  { exact Hp. }
  { intros _. exact Hr. }
  destruct (chunk_gap _ _ _ st (x ++ rest) Hc Hst) as (lts1 & E1 & F1 & P1).
  assert (Hxb := code_piece_first x Hx).
  destruct Hx as (k & code & dot & Ex & Hk & Hcode & Hdot & _).
  exists (gap_toks st g ++ Tok x (span_lead st g) false :: cts2), (lts1 ++ Tok x (span_lead st g) false :: lts2).
  split; [|split; [|split]].
  - rewrite Ex, <- (app_assoc _ dot rest). apply rc_span.
    + apply (chunk_no_tick _ _ _ Hc).
    + lia.
    + apply code_inner; [lia|exact Hcode].
    + lia.
    + auto.
    + intros s' E. destruct Hdot as [<-|[<-|[]]]; [|discriminate]. destruct Hr as [->|(r & ->)]; discriminate.
    + destruct Hdot as [<-|[<-|[]]].
      * right. split; [reflexivity|apply one_dot_parted, Hr].
      * left. split; [reflexivity|]. destruct Hr as [->|(r & ->)]; reflexivity.
    + exact R2.
  - rewrite split_pass_app, E1, split_pass_cons, E2. reflexivity.
  - apply Forall_app. split; [exact F1|]. constructor; [split; discriminate|exact F2].
  - rewrite expands_app, map_app, P1, expands_cons, map_app, P2. cbn [negb]. rewrite (prose_relead _ _ _ Hp).
    unfold expand. cbn [t_eval map piece_of t_text t_lead app].
    assert (Hnn : st = false -> g <> []).
    { intros Hf ->. destruct Hxb as (x' & ->). destruct (Hst Hf) as [G|(r & G)]; discriminate. }
    unfold span_lead. destruct (blank g) eqn:Eb.
    + rewrite (chunk_blank _ _ _ Hc Eb). cbn [relead app]. rewrite andb_true_r. destruct st; [reflexivity|].
      destruct Hg as [->|(g' & ->)]; [exfalso; apply Hnn; reflexivity|]. rewrite endswith_sp. reflexivity.
    + rewrite andb_false_r. rewrite relead_app.
      * destruct Hg as [->|(g' & ->)]; [discriminate|]. rewrite endswith_sp. reflexivity.
      * intros ->. rewrite (chunk_nonblank _ _ Hc) in Eb. discriminate.
Qed.

Lemma chunk_one_dot b ps s : chunk b ps s -> one_dot s = false.
Proof.
  assert (G : forall ws t, blanks ws -> one_dot t = false -> one_dot (ws ++ t) = false).
  { intros ws t Hw Ht. destruct Hw as [|c ws -> Hw]; [exact Ht|reflexivity]. }
  assert (D : forall x t, one_dot x = false -> 2 <= length x -> one_dot (x ++ t) = false).
  { intros [|c [|d x]] t; cbn [length]; [lia|lia|]. intros H _. exact H. }
  intros H. destruct H as [b ws Hw|b ws x ps rest Hw Hx Hxs Hxo Hp H|ws x ws' y ps rest Hw Hw' Hl Hp H].
  - rewrite <- (app_nil_r ws). apply G; [exact Hw|reflexivity].
  - apply G; [exact Hw|]. destruct (ordinary_okw x Hxo) as [Ho _]. destruct x as [|c [|d x]]; [congruence| |apply D; [exact Ho|cbn; lia]].
    destruct Hp as [->|(r & ->)]; [rewrite app_nil_r; exact Ho|].
    destruct (N.eq_dec c c_dot) as [->|Hc]; [discriminate|]. unfold one_dot. cbn [app startswith].
    destruct (N.eqb c_dot c) eqn:E; [apply N.eqb_eq in E; congruence|reflexivity].
  - apply G; [exact Hw|]. destruct (halves_ink _ _ Hl) as (F1 & _ & _ & _ & L). apply D; [|lia].
    destruct Hl as (_ & _ & Hl & _). destruct (one_dot x) eqn:E; [|reflexivity]. apply one_dot_first in E. destruct E as (w & ws1 & Ew & Ed).
    rewrite Ew in Hl. apply Forall_inv in Hl. destruct Hl as (_ & Hl & _). apply undotted_one_dot in Hl. congruence.
Qed.

Lemma prose_tokens b text ps : prose b ps (joined text) ->
  exists ts, wrap_tokens text = Ok ts /\ map piece_of ts = relead false ps.
Proof.
  intros H. destruct (prose_rc _ _ _ _ true (le_n _) H) as (cts & lts & R & E & F & P); [discriminate|].
  exists (expands lts). split; [|exact P]. unfold wrap_tokens. rewrite split_pass_one. rewrite (code_split_rc _ _ R).
  - cbn [bind]. rewrite E. cbn [bind]. apply late_passes, F.
  - destruct (prose_cut _ _ _ H) as [Hc|(g & ps1 & x & ps2 & rest & Es & _ & _ & _ & Hx & _)].
    + left. apply (chunk_one_dot _ _ _ Hc).
    + right. intros Hn. rewrite Es in Hn. apply Forall_app in Hn. destruct Hn as [_ Hn]. apply Forall_app in Hn. destruct Hn as [Hn _].
      destruct (code_piece_first x Hx) as (x' & ->). apply Forall_inv in Hn. congruence.
Qed.

Lemma relead_twice ps ps' : relead false ps = relead false ps' -> relead true ps = ps -> relead true ps' = ps' -> ps = ps'.
Proof.
  destruct ps as [|[x f] ps], ps' as [|[x' f'] ps']; cbn; try discriminate; auto. intros H H1 H2. congruence.
Qed.

(** Wrapping depends on the pieces only. *)
Lemma join_pieces w ts ts' : map piece_of ts = map piece_of ts' -> join ts w = join ts' w.
Proof.
  intros H. unfold join. enough (E : forall st, fold_left (join_step w) ts st = fold_left (join_step w) ts' st) by (rewrite E; reflexivity).
  revert ts' H. induction ts as [|t ts IH]; intros [|t' ts'] H st; try discriminate; [reflexivity|].
  cbn [map] in H. injection H as H1 H2 H. cbn [fold_left]. rewrite (IH ts' H). f_equal.
  unfold join_step. destruct st as [done cur]. rewrite H1, H2. reflexivity.
Qed.

(** * Reading pieces that have been put together *)

Inductive glue : list piece -> str -> Prop :=
| glue_nil : glue [] []
| glue_cons x f sep ps s : sep = [c_sp] \/ (f = false /\ sep = []) -> glue ps s ->
    glue ((x, f) :: ps) (sep ++ x ++ s).

Lemma glue_inv x f ps s : glue ((x, f) :: ps) s ->
  exists sep s', s = sep ++ x ++ s' /\ glue ps s' /\ blanks sep /\ (f = true -> sep = [c_sp]).
Proof.
  intros H. remember ((x, f) :: ps) as l eqn:E. destruct H as [|x' f' sep ps' s' Hs H]; [discriminate|].
  injection E as -> -> ->. exists sep, s'. split; [reflexivity|]. split; [exact H|].
  destruct Hs as [->|[-> ->]]; (split; [repeat constructor|]); [auto|discriminate].
Qed.

Lemma glue_parted ps s : glue ps s -> relead true ps = ps -> parted s.
Proof.
  intros H E. destruct H as [|x f sep ps s Hs H]; [left; reflexivity|]. injection E as <-.
  destruct Hs as [->|[Hf _]]; [|discriminate]. right. eexists. reflexivity.
Qed.

Lemma glue_words ws : forall f ps s, glue (relead f (words_as_pieces ws) ++ ps) s -> ws <> [] ->
  exists sep s', s = sep ++ str_join [c_sp] ws ++ s' /\ glue ps s' /\ blanks sep /\ (f = true -> sep = [c_sp]).
Proof.
  induction ws as [|w ws IH]; intros f ps s H Hn; [congruence|]. cbn [words_as_pieces map relead app] in H.
  apply glue_inv in H. destruct H as (sep & s' & -> & H & Hs & Hf). destruct ws as [|w' ws].
  - exists sep, s'. auto.
  - change (glue (relead true (words_as_pieces (w' :: ws)) ++ ps) s') in H.
    destruct (IH true ps s' H) as (sep' & s2 & -> & G & _ & Es); [discriminate|].
    rewrite (Es eq_refl). exists sep, s2. split; [|auto]. rewrite (str_join_cons _ w) by discriminate. rewrite <- !app_assoc. reflexivity.
Qed.

(** Runs of spaces become one space. *)
Fixpoint collapse (s : str) : str :=
  match s with
  | [] => []
  | c :: s' => if N.eqb c c_sp && startswith [c_sp] s' then collapse s' else c :: collapse s'
  end.

Lemma collapse_ink c s : is_space c = false -> collapse (c :: s) = c :: collapse s.
Proof.
  intros H. cbn [collapse]. destruct (N.eqb c c_sp) eqn:E; [apply N.eqb_eq in E; subst; discriminate|reflexivity].
Qed.

Lemma collapse_word w s : Forall (fun c => is_space c = false) w -> collapse (w ++ s) = w ++ collapse s.
Proof. intros H. induction H as [|c w Hc H IH]; [reflexivity|]. cbn [app]. rewrite collapse_ink, IH by exact Hc. reflexivity. Qed.

Lemma startswith_sp_ink s : ink_first s -> startswith [c_sp] s = false.
Proof.
  intros (c & a & -> & Hc). cbn [startswith]. destruct (N.eqb c_sp c) eqn:E; [apply N.eqb_eq in E; subst; discriminate|reflexivity].
Qed.

Lemma collapse_app s t : ink_first t -> collapse (s ++ t) = collapse s ++ collapse t.
Proof.
  intros Ht. induction s as [|c s IH]; [reflexivity|]. cbn [app collapse].
  assert (E : startswith [c_sp] (s ++ t) = startswith [c_sp] s).
  { destruct s as [|d s]; [cbn [app]; rewrite startswith_sp_ink by exact Ht; reflexivity|reflexivity]. }
  rewrite E. destruct (N.eqb c c_sp && startswith [c_sp] s); [exact IH|]. cbn [app]. rewrite IH. reflexivity.
Qed.

Lemma collapse_blanks ws s : blanks ws -> ws <> [] -> ink_first s -> collapse (ws ++ s) = c_sp :: collapse s.
Proof.
  intros H Hn Hs. induction H as [|c ws -> H IH]; [congruence|]. cbn [app collapse]. rewrite N.eqb_refl.
  destruct H as [|d ws -> H].
  - cbn [app]. rewrite startswith_sp_ink by exact Hs. reflexivity.
  - cbn [app startswith]. rewrite N.eqb_refl. cbn [andb]. apply IH. discriminate.
Qed.

Lemma collapse_Forall (P : char -> Prop) s : Forall P s -> Forall P (collapse s).
Proof.
  intros H. induction H as [|c s Hc H IH]; [constructor|]. cbn [collapse].
  destruct (N.eqb c c_sp && startswith [c_sp] s); [exact IH|]. constructor; assumption.
Qed.

Lemma space_run s : spacing s -> s = [] \/ ink_first s \/ blanks s \/ exists ws s', s = ws ++ s' /\ blanks ws /\ ws <> [] /\ ink_first s'.
Proof.
  intros H. induction H as [|c s Hc H IH]; [auto|]. right. destruct (is_space c) eqn:E; [|left; exists c, s; auto].
  right. rewrite (Hc eq_refl). destruct IH as [->|[IH|[IH|(ws & s' & -> & H1 & H2 & H3)]]].
  - left. repeat constructor.
  - right. exists [c_sp], s. repeat split; [repeat constructor|discriminate|exact IH].
  - left. constructor; auto.
  - right. exists (c_sp :: ws), s'. repeat split; [constructor; auto|discriminate|exact H3].
Qed.

Lemma collapse_words s : spacing s -> ink_first s -> ink_last s -> collapse s = str_join [c_sp] (words s).
Proof.
  remember (length s) as n eqn:Hn. assert (Hle : length s <= n) by lia. clear Hn. revert s Hle.
  induction n as [|n IH]; intros s Hle Hs Hf Hl.
  { destruct Hf as (c & a & -> & _). cbn in Hle. lia. }
  destruct (words_head s Hf) as (w & v & -> & Ew & [Hw1 Hw2] & Hv). rewrite Ew, collapse_word by exact Hw2.
  destruct Hv as [->|(c & v' & -> & Hc)]; [cbn [words collapse str_join]; apply app_nil_r|].
  apply spacing_app in Hs. destruct Hs as [_ Hs].
  apply ink_last_suffix in Hl; [|discriminate].
  destruct (space_run _ Hs) as [E|[(d & a & E & Hd)|[E|(ws & s' & E & H1 & H2 & H3)]]].
  - discriminate.
  - injection E as <- _. congruence.
  - exfalso. destruct Hl as (a & d & Ea & Hd). rewrite Ea in E. apply Forall_app in E. destruct E as [_ E].
    apply Forall_inv in E. subst. discriminate.
  - rewrite E in *. rewrite collapse_blanks by assumption. rewrite words_lead by (apply blanks_spaces, H1).
    destruct (words_head s' H3) as (w' & v2 & _ & Ew' & _).
    rewrite str_join_cons by (rewrite Ew'; discriminate). cbn [app]. do 2 f_equal. apply IH.
    + rewrite !app_length in Hle. destruct w; [congruence|]. cbn in Hle. lia.
    + apply spacing_app in Hs. apply Hs.
    + exact H3.
    + apply ink_last_suffix in Hl; [exact Hl|]. destruct H3 as (d & a & -> & _). discriminate.
Qed.

Lemma halves_collapse x y : link_halves x y ->
  link_halves (str_join [c_sp] (words x)) y /\ words (str_join [c_sp] (words x)) = words x.
Proof.
  intros H. assert (Ew : words (str_join [c_sp] (words x)) = words x) by (apply words_of_words, words_word).
  split; [|exact Ew]. destruct (halves_ink _ _ H) as (F1 & F2 & _). destruct H as (Hl & H1 & H2 & H3).
  assert (Hs : spacing x) by (apply Forall_app in H1; destruct H1 as [H1 _]; eapply Forall_impl; [|exact H1]; cbn; intuition).
  split; [|split; [|split; [rewrite Ew; exact H2|exact H3]]].
  - apply link_parts_spec in Hl. destruct Hl as (p & q & o & u & cl & r & Hl). apply link_parts_spec.
    exists p, (collapse q), o, u, cl, r. rewrite <- collapse_words by assumption.
    assert (Eo : is_space o = false) by (destruct (parts_opener _ _ _ _ _ _ _ _ Hl) as [-> | ->]; reflexivity).
    constructor; try apply Hl.
    + rewrite (pt_a _ _ _ _ _ _ _ _ Hl). rewrite collapse_word by (eapply Forall_impl; [|apply (pt_p _ _ _ _ _ _ _ _ Hl)]; cbn; intuition).
      f_equal. cbn [app]. rewrite collapse_ink by reflexivity. f_equal. rewrite collapse_app by (exists c_rbr, [o]; auto).
      f_equal. rewrite !collapse_ink by (reflexivity || exact Eo). reflexivity.
    + apply collapse_Forall, Hl.
    + destruct (pt_q' _ _ _ _ _ _ _ _ Hl) as (q' & c & -> & Hc). exists (collapse q'), c. split; [|exact Hc].
      rewrite collapse_app by (exists c, []; auto). rewrite collapse_ink by exact Hc. reflexivity.
  - apply Forall_app in H1. apply Forall_app. split; [|apply H1]. rewrite <- collapse_words by assumption.
    apply collapse_Forall, H1.
Qed.

Lemma prose_glue b ps s0 : prose b ps s0 -> forall f s, glue (relead f ps) s -> prose b ps s.
Proof.
  intros H. induction H as [b ws Hw|b ws x ps rest Hw Hx Hxs Hxo Hp H IH|b ws x ps rest Hw Hx Hp H IH|ws x ws' y ps rest Hw Hw' Hl Hp H IH]; intros f s G.
  - cbn in G. inversion G; subst. constructor. constructor.
  - cbn [relead] in G. apply glue_inv in G. destruct G as (sep & s' & -> & G & Hs & _).
    assert (R := prose_relead _ _ _ H). constructor; auto.
    + eapply glue_parted; eassumption.
    + apply (IH true). rewrite R. exact G.
  - cbn [relead] in G. apply glue_inv in G. destruct G as (sep & s' & -> & G & Hs & _).
    assert (R := prose_relead _ _ _ H). apply prose_code; auto.
    + eapply glue_parted; eassumption.
    + apply (IH true). rewrite R. exact G.
  - assert (R := prose_relead _ _ _ H). destruct (halves_collapse _ _ Hl) as [Hl' Ew].
    assert (Hn : words x <> []) by (destruct (words_head x) as (w & v & _ & -> & _); [apply (halves_ink _ _ Hl)|discriminate]).
    rewrite relead_app in G by (destruct (words x); [congruence|discriminate]).
    apply glue_words in G; [|exact Hn]. destruct G as (sep & s' & -> & G & Hs & _).
    apply glue_inv in G. destruct G as (sep' & s2 & -> & G & Hs' & _).
    rewrite <- Ew at 1. constructor; auto.
    + eapply glue_parted; eassumption.
    + apply (IH true). rewrite R. exact G.
Qed.

(** * The lines *)

Definition sep_of (f : bool) : str := if f then [c_sp] else [].
Definition tail_of (ps : list piece) : str := concat (map (fun p => sep_of (snd p) ++ fst p) ps).

Lemma fold_put ps : forall line, line <> [] -> fold_left put ps line = line ++ tail_of ps.
Proof.
  induction ps as [|[x f] ps IH]; intros line Hn; [symmetry; apply app_nil_r|]. cbn [fold_left].
  assert (E : put line (x, f) = line ++ sep_of f ++ x) by (destruct line; [congruence|]; destruct f; reflexivity).
  rewrite E, IH by (destruct line; [congruence|discriminate]).
  unfold tail_of. cbn [map concat fst snd]. rewrite <- !app_assoc. reflexivity.
Qed.

Lemma line_of_cons x f ps : x <> [] -> line_of ((x, f) :: ps) = x ++ tail_of ps.
Proof. intros H. unfold line_of. cbn [fold_left]. replace (put [] (x, f)) with x by (destruct f; reflexivity). apply fold_put, H. Qed.

Lemma glue_tail a : forall ps s, glue ps s -> glue (a ++ ps) (tail_of a ++ s).
Proof.
  induction a as [|[x f] a IH]; intros ps s H; [exact H|]. unfold tail_of. cbn [map concat app fst snd]. fold (tail_of a).
  rewrite <- !app_assoc. constructor; [destruct f; auto|]. apply IH, H.
Qed.

Lemma glue_lines groups : Forall (fun g => Forall (fun p => fst p <> []) g /\ g <> []) groups ->
  forall g, Forall (fun p => fst p <> []) g -> g <> [] ->
  forall sep, sep = [c_sp] \/ (sep = [] /\ exists x ps, g = (x, false) :: ps) ->
  glue (concat (g :: groups)) (sep ++ str_join [c_sp] (map line_of (g :: groups))).
Proof.
  induction 1 as [|g2 groups [Hg2 Hg2n] H IH]; intros g Hg Hgn sep Hs.
  - cbn [concat map str_join]. rewrite app_nil_r. destruct g as [|[x f] g]; [congruence|].
    rewrite line_of_cons by apply (Forall_inv Hg). constructor.
    + destruct Hs as [Hs|(Hs & x' & ps' & E)]; [auto|]. injection E as -> -> _. auto.
    + rewrite <- (app_nil_r g), <- (app_nil_r (tail_of _)). rewrite (app_nil_r g) at 2. apply glue_tail. constructor.
  - cbn [concat map]. rewrite str_join_cons by discriminate. destruct g as [|[x f] g]; [congruence|].
    rewrite line_of_cons by apply (Forall_inv Hg). rewrite <- !app_assoc. cbn [app]. constructor.
    + destruct Hs as [Hs|(Hs & x' & ps' & E)]; [auto|]. injection E as -> -> _. auto.
    + apply glue_tail. apply (IH g2 Hg2 Hg2n [c_sp]). auto.
Qed.

Lemma prose_ink b ps s : prose b ps s -> Forall (fun p => ink_first (fst p) /\ ink_last (fst p)) ps.
Proof.
  intros H. induction H as [b ws Hw|b ws x ps rest Hw Hx Hxs Hxo Hp H IH|b ws x ps rest Hw Hx Hp H IH|ws x ws' y ps rest Hw Hw' Hl Hp H IH].
  - constructor.
  - constructor; [apply word_ink; assumption|exact IH].
  - constructor; [|exact IH]. destruct Hx as (n & code & dot & -> & Hn & _ & Hd & _). destruct n as [|n]; [lia|]. split.
    + exists c_bt. eexists. split; reflexivity.
    + destruct Hd as [<-|[<-|[]]].
      * exists (rep c_bt (S n) ++ code ++ rep c_bt n), c_bt. split; [|reflexivity]. rewrite app_nil_r, <- !app_assoc.
        change (repeat c_bt (S n)) with (rep c_bt (S n)). rewrite (rep_snoc c_bt n) at 2. reflexivity.
      * eexists. exists c_dot. split; reflexivity.
  - apply Forall_app. destruct (halves_ink _ _ Hl) as (F1 & F2 & F3 & F4 & _). split; [|constructor; [auto|exact IH]].
    apply Forall_map. eapply Forall_impl; [|apply words_word]. intros w [Hw1 Hw2]. apply word_ink; assumption.
Qed.

Lemma prose_spacing b ps s : prose b ps s -> spacing s.
Proof.
  intros H. induction H as [b ws Hw|b ws x ps rest Hw Hx Hxs Hxo Hp H IH|b ws x ps rest Hw Hx Hp H IH|ws x ws' y ps rest Hw Hw' Hl Hp H IH];
    rewrite ?spacing_app.
  - apply blanks_spacing, Hw.
  - split; [apply blanks_spacing, Hw|]. split; [apply no_space_spacing, Hxs|exact IH].
  - split; [apply blanks_spacing, Hw|]. split; [|exact IH]. destruct Hx as (n & code & dot & -> & Hn & _ & Hd & Hc & _).
    rewrite !spacing_app. split; [split; [apply spacing_rep|split; [exact Hc|apply spacing_rep]]|].
    destruct Hd as [<-|[<-|[]]]; repeat constructor. discriminate.
  - destruct Hl as (_ & Hl & _). apply Forall_app in Hl. destruct Hl as [Hl1 Hl2].
    split; [apply blanks_spacing, Hw|]. split; [eapply Forall_impl; [|exact Hl1]; cbn; intuition|].
    split; [apply blanks_spacing, Hw'|]. split; [eapply Forall_impl; [|exact Hl2]; cbn; intuition|exact IH].
Qed.

(** No link definition begins in prose. *)
Definition unlabel (s : str) : Prop := forall a b, s <> a ++ [c_rbr; c_colon] ++ b.

Lemma unlabel_no s : ~ In c_rbr s -> unlabel s.
Proof. intros H a b ->. apply H. apply in_or_app. right. left. reflexivity. Qed.

Lemma unlabel_app a b : unlabel a -> unlabel b -> (forall a', a <> a' ++ [c_rbr]) \/ (forall b', b <> c_colon :: b') -> unlabel (a ++ b).
Proof.
  intros Ha Hb H u v E. destruct (infix2 _ _ _ _ _ _ E) as [(v' & E' & _)|[(E1 & E2)|(u' & _ & E')]].
  - apply (Ha u v' E').
  - destruct H as [H|H]; [apply (H u E1)|apply (H v E2)].
  - apply (Hb u' v E').
Qed.

Lemma parted_colon s : parted s -> forall s', s <> c_colon :: s'.
Proof. intros [->|(r & ->)] s'; discriminate. Qed.

Lemma blanks_unlabel ws : blanks ws -> unlabel ws.
Proof. intros H. apply unlabel_no. intros G. apply (blanks_in ws) in G; [discriminate|exact H]. Qed.

Lemma blanks_rbr ws : blanks ws -> forall a, ws <> a ++ [c_rbr].
Proof. intros H a ->. apply Forall_app in H. destruct H as [_ H]. apply Forall_inv in H. discriminate. Qed.

Lemma prose_unlabel b ps s : prose b ps s -> unlabel s.
Proof.
  intros H. induction H as [b ws Hw|b ws x ps rest Hw Hx Hxs Hxo Hp H IH|b ws x ps rest Hw Hx Hp H IH|ws x ws' y ps rest Hw Hw' Hl Hp H IH].
  - apply blanks_unlabel, Hw.
  - apply unlabel_app; [apply blanks_unlabel, Hw| |left; apply blanks_rbr, Hw].
    apply unlabel_app; [|exact IH|right; apply parted_colon, Hp].
    intros a c. destruct Hxo as (Ho & _). apply (Ho (lit "]:")). apply in_or_app. right. left. reflexivity.
  - apply unlabel_app; [apply blanks_unlabel, Hw| |left; apply blanks_rbr, Hw].
    apply unlabel_app; [|exact IH|right; apply parted_colon, Hp].
    destruct Hx as (n & code & dot & -> & Hn & _ & Hd & _ & Hc).
    assert (T : forall k, unlabel (repeat c_bt k)).
    { intros k. apply unlabel_no. intros G. apply repeat_spec in G. discriminate. }
    assert (T' : forall k a, repeat c_bt k <> a ++ [c_rbr]).
    { intros k a E. assert (G : In c_rbr (repeat c_bt k)) by (rewrite E; apply in_or_app; right; left; reflexivity).
      apply repeat_spec in G. discriminate. }
    apply unlabel_app; [apply unlabel_app; [apply T| |left; apply T']|destruct Hd as [<-|[<-|[]]]; apply unlabel_no; cbn; intuition discriminate|
      right; destruct Hd as [<-|[<-|[]]]; discriminate].
    apply unlabel_app; [exact Hc|apply T|right]. intros b' E. destruct n as [|n]; discriminate.
  - assert (Hl' := Hl). destruct Hl' as (Hl' & _ & _ & _ & _ & Hy). apply link_parts_spec in Hl'.
    destruct Hl' as (p & q & o & u & cl & r & Hl').
    destruct (parts_no _ _ _ _ _ _ _ _ Hl') as (N1 & _ & N2 & _).
    assert (Eo : o <> c_rbr /\ o <> c_colon) by (destruct (parts_opener _ _ _ _ _ _ _ _ Hl') as [-> | ->]; split; discriminate).
    apply unlabel_app; [apply blanks_unlabel, Hw| |left; apply blanks_rbr, Hw].
    apply unlabel_app.
    + rewrite (pt_a _ _ _ _ _ _ _ _ Hl'). intros a c E.
      assert (E' : (p ++ [c_lbr] ++ q) ++ [c_rbr; o] = a ++ [c_rbr; c_colon] ++ c) by (rewrite <- !app_assoc; exact E).
      assert (N : ~ In c_rbr (p ++ [c_lbr] ++ q)) by (rewrite !in_app_iff; cbn; intuition discriminate).
      destruct (infix2 _ _ _ _ _ _ E') as [(v' & E1 & _)|[(E1 & _)|(u' & _ & E1)]].
      * apply N. rewrite E1. apply in_or_app. right. left. reflexivity.
      * apply N. rewrite E1. apply in_or_app. right. left. reflexivity.
      * destruct u' as [|d [|e u']]; cbn [app] in E1; [|destruct Eo; congruence|destruct u'; discriminate].
        injection E1 as E1 _. destruct Eo. congruence.
    + apply unlabel_app; [apply blanks_unlabel, Hw'| |left; apply blanks_rbr, Hw'].
      apply unlabel_app; [exact Hy|exact IH|right; apply parted_colon, Hp].
    + left. intros a E. rewrite (pt_a _ _ _ _ _ _ _ _ Hl') in E. change [c_rbr; o] with ([c_rbr] ++ [o]) in E.
      rewrite !app_assoc in E. apply app_inj_tail in E. destruct E as [_ E]. destruct Eo. congruence.
Qed.

(** Lines of prose begin harmlessly. *)
Definition harmless_first (l : str) : Prop := exists w ws, words l = w :: ws /\ harmless w.
Definition starts_ok (ps : list piece) : Prop := forall g c, ps = g ++ c -> g <> [] -> harmless_first (line_of g).

Lemma tail_parted ps g c : relead true ps = ps -> ps = g ++ c -> parted (tail_of g).
Proof.
  intros R E. destruct g as [|[x f] g]; [left; reflexivity|]. rewrite E in R. cbn [app relead] in R. injection R as <-.
  right. unfold tail_of. cbn. eexists. reflexivity.
Qed.

Lemma starts_piece x f ps : ink_first x -> harmless_first x -> relead true ps = ps -> starts_ok ((x, f) :: ps).
Proof.
  intros Hx (w & ws & Ew & Hw) R g c E Hg. destruct g as [|p g]; [congruence|]. cbn [app] in E. injection E as <- E.
  rewrite line_of_cons by (destruct Hx as (d & a & -> & _); discriminate).
  unfold harmless_first. rewrite words_parted by (eapply tail_parted; eassumption). rewrite Ew. exists w. eexists. split; [reflexivity|exact Hw].
Qed.

(** Lines and words longer than such a word are as harmless. *)
Lemma harmless_more w t : harmless w -> In c_rbr w -> harmless (w ++ t).
Proof.
  intros (H1 & H2 & H3 & H4 & H5) Hr. split; [|split; [|split; [|split]]].
  - intros c t' Hc E. destruct w as [|d w]; [destruct Hr|]. injection E as -> _. apply (H1 c w Hc). reflexivity.
  - intros t' E. destruct (prefix_cases w t (lit "~~~") t' E) as [(e & E1 & _)|(d & e & E1 & _)]; [apply (H2 e E1)|].
    assert (G : In c_rbr (lit "~~~")) by (rewrite E1; apply in_or_app; left; exact Hr). cbn in G. intuition discriminate.
  - intros t' E. destruct (prefix_cases w t (lit "```") t' E) as [(e & E1 & _)|(d & e & E1 & _)]; [apply (H3 e E1)|].
    assert (G : In c_rbr (lit "```")) by (rewrite E1; apply in_or_app; left; exact Hr). cbn in G. intuition discriminate.
  - intros ds Hd E. assert (G : In c_rbr (ds ++ [c_dot])) by (rewrite <- E; apply in_or_app; left; exact Hr).
    apply in_app_iff in G. destruct G as [G|[G|[]]]; [|discriminate]. destruct Hd as [_ Hd]. rewrite Forall_forall in Hd.
    apply Hd in G. discriminate.
  - intros c n Hc E. assert (G : In c_rbr (repeat c n)) by (rewrite <- E; apply in_or_app; left; exact Hr).
    apply repeat_spec in G. subst c. cbn in Hc. intuition discriminate.
Qed.

Lemma harmless_first_more w t : word w -> harmless w -> In c_rbr w -> harmless_first (w ++ t).
Proof.
  intros [Hw1 Hw2] Hh Hr. destruct (words_head (w ++ t)) as (w0 & v & E & Ew & _ & Hv); [apply ink_app_first, word_ink; assumption|].
  exists w0, (words v). split; [exact Ew|]. destruct (prefix_cases _ _ _ _ (eq_sym E)) as [(e & -> & _)|(d & e & E1 & E2)].
  - apply harmless_more; assumption.
  - exfalso. destruct Hv as [->|(c & v' & -> & Hc)]; [discriminate|]. injection E2 as -> _. rewrite E1 in Hw2.
    apply Forall_app in Hw2. destruct Hw2 as [_ Hw2]. apply Forall_inv in Hw2. congruence.
Qed.

Lemma last_half_word x y ws w : link_halves x y -> words x = ws ++ [w] -> In c_rbr w.
Proof.
  intros Hl Ew. destruct (halves_collapse _ _ Hl) as [(Hl' & _) _]. apply link_parts_spec in Hl'.
  destruct Hl' as (p & q & o & u & cl & r & Hl'). assert (E := pt_a _ _ _ _ _ _ _ _ Hl'). rewrite Ew in E.
  assert (Ej : exists X, str_join [c_sp] (ws ++ [w]) = X ++ w /\ (X = [] \/ exists X', X = X' ++ [c_sp])).
  { destruct ws as [|w' ws]; [exists []; auto|]. rewrite str_join_app by discriminate. cbn [str_join].
    eexists. split; [rewrite app_assoc; reflexivity|]. right. eexists. reflexivity. }
  destruct Ej as (X & Ej & HX). rewrite Ej in E. change [c_rbr; o] with ([c_rbr] ++ [o]) in E. rewrite !app_assoc in E.
  assert (Hw : word w).
  { assert (G := words_word x). rewrite Ew in G. apply Forall_app in G. apply (Forall_inv (proj2 G)). }
  destruct Hw as [Hw1 _]. destruct w as [|d w _] using rev_ind; [congruence|]. rewrite app_assoc in E. apply app_inj_tail in E.
  destruct E as [E ->]. destruct w as [|e w _] using rev_ind.
  - exfalso. rewrite app_nil_r in E. destruct HX as [->|(X' & ->)]; [destruct p; discriminate|].
    apply app_inj_tail in E. destruct E as [_ E]. discriminate.
  - rewrite app_assoc in E. apply app_inj_tail in E. destruct E as [_ ->]. apply in_or_app. left. apply in_or_app. right. left. reflexivity.
Qed.

Lemma code_harmless x : code_piece x -> harmless_first x.
Proof.
  intros Hx. destruct (code_piece_first x Hx) as (x' & Ex).
  destruct (words_head x) as (w & v & E & Ew & [Hw _] & _); [rewrite Ex; exists c_bt, x'; auto|].
  exists w, (words v). split; [exact Ew|]. destruct w as [|c w]; [congruence|].
  assert (Ec : c = c_bt) by (rewrite Ex in E; injection E as <- _; reflexivity). subst c.
  split; [|split; [|split; [|split]]].
  - intros c t Hc H. injection H as <- _. cbn in Hc. intuition discriminate.
  - intros t H. discriminate.
  - intros t H. rewrite H in E. destruct Hx as (n & code & dot & Hx & Hn & (C0 & C1 & _) & _). rewrite Hx in E.
    destruct code as [|d code]; [congruence|]. destruct n as [|[|[|n]]]; [lia| | |lia]; cbn in E.
    + injection E as Ed _. subst d. apply (C1 code). reflexivity.
    + injection E as Ed _. subst d. apply (C1 code). reflexivity.
  - intros ds [Hd1 Hd2] H. destruct ds as [|d ds]; [congruence|]. injection H as <- _. apply Forall_inv in Hd2. discriminate.
  - intros c n Hc H. destruct n; [discriminate|]. injection H as <- _. cbn in Hc. intuition discriminate.
Qed.

Definition all_starts (ps : list piece) : Prop := forall a ps', ps = a ++ ps' -> starts_ok ps'.

Lemma all_starts_cons p ps : starts_ok (p :: ps) -> all_starts ps -> all_starts (p :: ps).
Proof. intros H1 H2 [|q a] ps' E; cbn [app] in E; [subst; exact H1|]. injection E as _ E. apply (H2 a ps' E). Qed.

Lemma prose_starts b ps s : prose b ps s -> all_starts ps.
Proof.
  intros H. induction H as [b ws Hw|b ws x ps rest Hw Hx Hxs Hxo Hp H IH|b ws x ps rest Hw Hx Hp H IH|ws x ws' y ps rest Hw Hw' Hl Hp H IH].
  - intros [|p a] ps' E; [cbn in E; subst|discriminate]. intros [|q g] c E Hg; [congruence|discriminate].
  - apply all_starts_cons; [|exact IH]. apply starts_piece; [apply word_ink; assumption| |apply (prose_relead _ _ _ H)].
    exists x, []. split; [apply words_one; assumption|apply Hxo].
  - apply all_starts_cons; [|exact IH]. apply starts_piece; [|apply code_harmless, Hx|apply (prose_relead _ _ _ H)].
    destruct (code_piece_first x Hx) as (x' & ->). exists c_bt, x'. auto.
  - destruct (halves_ink _ _ Hl) as (F1 & F2 & F3 & F4 & _).
    assert (Hy : starts_ok ((y, false) :: ps)).
    { apply starts_piece; [exact F3| |apply (prose_relead _ _ _ H)]. destruct (words_head y F3) as (w & v & _ & Ew & _).
      exists w, (words v). split; [exact Ew|]. destruct Hl as (_ & _ & _ & Hl & _). apply (Hl _ _ Ew). }
    assert (G : forall ws2 ws1, words x = ws1 ++ ws2 -> all_starts (words_as_pieces ws2 ++ (y, false) :: ps)).
    { induction ws2 as [|w ws2 IHw]; intros ws1 Ew; cbn [words_as_pieces map app]; [apply all_starts_cons; assumption|].
      assert (Hw0 : word w /\ harmless w).
      { split.
        - assert (G := words_word x). rewrite Ew in G. apply Forall_app in G. apply (Forall_inv (proj2 G)).
        - destruct Hl as (_ & _ & Hl & _). rewrite Ew in Hl. apply Forall_app in Hl. apply (Forall_inv (proj2 Hl)). }
      destruct Hw0 as [[Hw1 Hw2] Hw3].
      apply all_starts_cons; [|apply (IHw (ws1 ++ [w])); rewrite <- app_assoc; exact Ew].
      destruct ws2 as [|w2 ws2].
      - cbn [map app]. intros g c E Hg. destruct g as [|p g]; [congruence|]. cbn [app] in E. injection E as <- E.
        rewrite line_of_cons by exact Hw1. apply harmless_first_more; [split; assumption|exact Hw3|].
        eapply last_half_word; [exact Hl|exact Ew].
      - apply starts_piece; [apply word_ink; assumption| |reflexivity]. exists w, []. split; [apply words_one; assumption|exact Hw3]. }
    apply (G (words x) []). reflexivity.
Qed.

Lemma all_starts_relead f ps : all_starts ps -> all_starts (relead f ps).
Proof.
  intros H. destruct ps as [|[x f0] ps]; [exact H|]. cbn [relead]. apply all_starts_cons.
  - intros [|p g] c E Hg; [congruence|]. cbn [app] in E. injection E as <- E. subst ps.
    assert (G := H [] _ eq_refl ((x, f0) :: g) c eq_refl ltac:(discriminate)).
    replace (line_of ((x, f) :: g)) with (line_of ((x, f0) :: g)); [exact G|].
    unfold line_of. cbn [fold_left]. replace (put [] (x, f0)) with (put [] (x, f)) by (destruct f, f0; reflexivity). reflexivity.
  - intros a ps' E. apply (H ((x, f0) :: a)). cbn. congruence.
Qed.

Lemma prose_wrap b ps text w : prose b ps (joined text) ->
  exists lines, wrap text w = Ok (str_join [c_nl] lines) /\ filled w ps lines /\ Forall one_line lines
    /\ Forall ink_first lines /\ Forall ink_last lines /\ Forall harmless_first lines /\ Forall spacing lines
    /\ prose b ps (str_join [c_sp] lines) /\ (ps <> [] -> lines <> [])
    /\ wrap (str_join [c_nl] lines) w = Ok (str_join [c_nl] lines).
Proof.
  intros H. destruct (prose_tokens _ _ _ H) as (ts & Et & Ep).
  destruct (wrap text w) as [out|e] eqn:Ew; [|rewrite wrap_by_tokens, Et in Ew; discriminate].
  destruct (wrap_ok _ _ _ Ew) as (ts' & lines & Et' & -> & Hf & Ho). rewrite Et in Et'. apply ok_inj in Et'. subst ts'.
  exists lines. split; [reflexivity|]. rewrite Ep in Hf.
  assert (Hi : Forall (fun p : piece => ink_first (fst p) /\ ink_last (fst p)) (relead false ps)).
  { assert (G := prose_ink _ _ _ H). destruct ps as [|[x f] ps]; [exact G|]. inversion G; subst. constructor; assumption. }
  assert (Hst := all_starts_relead false ps (prose_starts _ _ _ H)).
  assert (Hf' : filled w ps lines).
  { destruct ps as [|[x f] ps]; [exact Hf|]. cbn [relead] in Hf. eapply filled_lead. exact Hf. }
  split; [exact Hf'|]. split; [exact Ho|].
  destruct Hf as (groups & rest & Eg & Er & El & Hne & _).
  assert (Er' : rest = []).
  { rewrite Eg in Hi. apply Forall_app in Hi. destruct Hi as [_ Hi]. destruct rest as [|[x f] rest]; [reflexivity|].
    exfalso. apply Forall_inv in Hi. destruct Hi as [(c & a & E & _) _]. cbn [fst] in E.
    rewrite line_of_cons in Er by (rewrite E; discriminate). rewrite E in Er. discriminate. }
  subst rest. rewrite app_nil_r in Eg. clear Er.
  assert (Hg : Forall (fun g : list piece => g <> []) groups).
  { apply Forall_forall. intros g Hin ->. rewrite Forall_forall in Hne. apply (Hne (line_of [])); [|reflexivity]. rewrite El. apply in_map, Hin. }
  assert (Hgi : Forall (Forall (fun p : piece => ink_first (fst p) /\ ink_last (fst p))) groups).
  { rewrite Eg in Hi. clear -Hi. induction groups as [|g groups IH]; [constructor|]. cbn [concat] in Hi. apply Forall_app in Hi.
    constructor; [apply Hi|apply IH, Hi]. }
  assert (Hif : Forall ink_first lines).
  { rewrite El. apply Forall_map. rewrite Forall_forall in Hg, Hgi |- *. intros g Hin. specialize (Hg g Hin). specialize (Hgi g Hin).
    destruct g as [|[x f] g]; [congruence|]. apply Forall_inv in Hgi. destruct Hgi as [Hx _]. cbn [fst] in Hx.
    rewrite line_of_cons by (destruct Hx as (c & a & -> & _); discriminate). apply ink_app_first, Hx. }
  assert (Hil : Forall ink_last lines).
  { rewrite El. apply Forall_map. rewrite Forall_forall in Hg, Hgi |- *. intros g Hin. specialize (Hg g Hin). specialize (Hgi g Hin).
    destruct g as [|[x f] g _] using rev_ind; [congruence|]. rewrite line_of_snoc. apply Forall_app in Hgi. destruct Hgi as [_ Hgi].
    apply Forall_inv in Hgi. destruct Hgi as [_ (a & c & E & Hc)]. cbn [fst] in E. rewrite E.
    destruct (line_of g) as [|d l]; [exists a, c; destruct f; auto|]. destruct f; cbn [put].
    - exists ((d :: l) ++ [c_sp] ++ a), c. rewrite <- !app_assoc. auto.
    - exists ((d :: l) ++ a), c. rewrite <- !app_assoc. auto. }
  split; [exact Hif|]. split; [exact Hil|]. split.
  { rewrite El. apply Forall_map, Forall_forall. intros g Hin. apply in_split in Hin. destruct Hin as (g1 & g2 & E).
    rewrite E, concat_app in Eg. cbn [concat] in Eg. apply (Hst _ _ Eg _ _ eq_refl). rewrite E in Hg. apply Forall_app in Hg.
    apply (Forall_inv (proj2 Hg)). }
  assert (Hgl : glue (relead false ps) (str_join [c_sp] lines)).
  { rewrite Eg, El. destruct groups as [|g groups]; [constructor|]. apply (glue_lines groups) with (sep := []).
    - rewrite Forall_forall in *. intros g' Hin. split; [|apply Hg; right; exact Hin]. specialize (Hgi g' (or_intror Hin)).
      eapply Forall_impl; [|exact Hgi]. intros p [(c & a & E & _) _]. cbn in *. rewrite E. discriminate.
    - apply Forall_inv in Hgi. eapply Forall_impl; [|exact Hgi]. intros p [(c & a & E & _) _]. cbn in *. rewrite E. discriminate.
    - apply (Forall_inv Hg).
    - right. split; [reflexivity|]. apply Forall_inv in Hg. destruct g as [|[x f] g]; [congruence|]. cbn [concat app] in Eg.
      destruct ps as [|[x' f'] ps]; [discriminate|]. injection Eg as -> <- _. eauto. }
  assert (Hpr := prose_glue _ _ _ H false _ Hgl).
  split; [apply (Forall_join_inv _ _ _ (prose_spacing _ _ _ Hpr))|]. split; [exact Hpr|]. split.
  { intros Hn E. subst lines. destruct groups; [|discriminate]. destruct ps as [|[x f] ps]; [congruence|discriminate]. }
  assert (Ej : joined (str_join [c_nl] lines) = str_join [c_sp] lines).
  { unfold joined. rewrite splitlines_join_ne; [|eapply Forall_impl; [|exact Hif]; intros l (c & a & -> & _); discriminate|exact Ho].
    f_equal. clear -Hif Hil. induction Hif as [|l ls H Hif IH]; [reflexivity|]. inversion Hil; subst. cbn [map].
    rewrite IH by assumption. f_equal. apply ink_ends_strip; assumption. }
  rewrite <- Ej in Hpr. destruct (prose_tokens _ _ _ Hpr) as (ts' & Et' & Ep').
  rewrite wrap_by_tokens, Et'. cbn [bind]. rewrite wrap_by_tokens, Et in Ew. cbn [bind] in Ew. rewrite <- Ew. f_equal.
  apply join_pieces. congruence.
Qed.

Lemma join_one s : one_line s -> joined s = strip s.
Proof.
  intros H. unfold joined. destruct s as [|c s]; [reflexivity|].
  change (splitlines (c :: s)) with (splitlines (str_join [c_nl] [c :: s])). rewrite splitlines_join_ne; [reflexivity|..].
  - constructor; [discriminate|constructor].
  - constructor; [exact H|constructor].
Qed.

Lemma space_linebreak c : is_linebreak c = true -> is_space c = true.
Proof.
  unfold is_linebreak, is_space. rewrite !orb_true_iff, !andb_true_iff, !N.leb_le, !N.eqb_eq. lia.
Qed.

Lemma spacing_one_line s : spacing s -> one_line s.
Proof.
  apply Forall_impl. intros c Hc. destruct (is_linebreak c) eqn:E; [|reflexivity]. rewrite (Hc (space_linebreak c E)) in E. discriminate.
Qed.

(** Prose can be stripped. *)
Lemma prose_lstrip b ps s : prose b ps s -> prose b ps (lstrip s).
Proof.
  intros H. destruct H as [b ws Hw|b ws x ps rest Hw Hx Hxs Hxo Hp H|b ws x ps rest Hw Hx Hp H|ws x ws' y ps rest Hw Hw' Hl Hp H].
  - destruct (blanks_strip_nil ws Hw) as [-> _]. constructor. constructor.
  - rewrite blanks_lstrip by (auto; apply ink_app_first, word_ink; assumption). apply (prose_word b [] x); auto. constructor.
  - destruct (code_piece_first x Hx) as (x' & Ex). rewrite blanks_lstrip by (auto; rewrite Ex; exists c_bt; eexists; split; reflexivity).
    apply (prose_code b [] x); auto. constructor.
  - rewrite blanks_lstrip by (auto; apply ink_app_first, (halves_ink _ _ Hl)). apply (prose_link [] x); auto. constructor.
Qed.

Lemma prose_rstrip b ps s : prose b ps s -> prose b ps (rstrip s).
Proof.
  intros H. assert (Hi := prose_ink _ _ _ H). revert Hi.
  induction H as [b ws Hw|b ws x ps rest Hw Hx Hxs Hxo Hp H IH|b ws x ps rest Hw Hx Hp H IH|ws x ws' y ps rest Hw Hw' Hl Hp H IH]; intros Hi.
  - destruct (blanks_strip_nil ws Hw) as [_ ->]. constructor. constructor.
  - rewrite app_assoc, rstrip_ink_app.
    + rewrite <- app_assoc. constructor; auto; [apply parted_rstrip, Hp|apply IH, (Forall_inv_tail Hi)].
    + destruct (word_ink x Hx Hxs) as [_ (a & c & -> & Hc)]. exists (ws ++ a), c. rewrite app_assoc. auto.
  - rewrite app_assoc, rstrip_ink_app.
    + rewrite <- app_assoc. apply prose_code; auto; [apply parted_rstrip, Hp|apply IH, (Forall_inv_tail Hi)].
    + apply Forall_inv in Hi. destruct Hi as [_ (a & c & E & Hc)]. cbn [fst] in E. rewrite E. exists (ws ++ a), c. rewrite app_assoc. auto.
  - replace (ws ++ x ++ ws' ++ y ++ rest) with ((ws ++ x ++ ws' ++ y) ++ rest) by (rewrite <- !app_assoc; reflexivity).
    rewrite rstrip_ink_app.
    + rewrite <- !app_assoc. constructor; auto; [apply parted_rstrip, Hp|]. apply IH. apply Forall_app in Hi.
      apply (Forall_inv_tail (proj2 Hi)).
    + destruct (halves_ink _ _ Hl) as (_ & _ & _ & (a & c & -> & Hc) & _). exists (ws ++ x ++ ws' ++ a), c. rewrite <- !app_assoc. auto.
Qed.

Lemma prose_strip b ps s : prose b ps s -> prose b ps (strip s).
Proof. intros H. unfold strip. apply prose_rstrip, prose_lstrip, H. Qed.

(** The pieces are determined. *)
Lemma prose_unique b b' ps ps' s : prose b ps s -> prose b' ps' s -> ps = ps'.
Proof.
  intros H H'. assert (E : joined s = strip s) by (apply join_one, spacing_one_line, (prose_spacing _ _ _ H)).
  assert (G := prose_strip _ _ _ H). assert (G' := prose_strip _ _ _ H'). rewrite <- E in G, G'.
  destruct (prose_tokens _ _ _ G) as (ts & Et & Ep). destruct (prose_tokens _ _ _ G') as (ts' & Et' & Ep').
  rewrite Et in Et'. apply ok_inj in Et'. subst ts'. rewrite Ep in Ep'.
  apply relead_twice; [exact Ep'|apply (prose_relead _ _ _ H)|apply (prose_relead _ _ _ H')].
Qed.

(** Text of ordinary words. *)
Lemma words_prose s : spacing s -> Forall ordinary (words s) -> forall b, prose b (words_as_pieces (words s)) s.
Proof.
  remember (length s) as n eqn:Hn. assert (Hle : length s <= n) by lia. clear Hn. revert s Hle.
  assert (Core : forall s, spacing s -> Forall ordinary (words s) -> ink_first s ->
    (forall s', length s' < length s -> spacing s' -> Forall ordinary (words s') -> forall b, prose b (words_as_pieces (words s')) s') ->
    forall ws b, blanks ws -> prose b (words_as_pieces (words s)) (ws ++ s)).
  { intros s Hs Ho Hf IH ws b Hw. destruct (words_head s Hf) as (w & v & -> & Ew & [Hw1 Hw2] & Hv). rewrite Ew in *.
    apply Forall_inv in Ho as Ho1. apply Forall_inv_tail in Ho. apply spacing_app in Hs. destruct Hs as [_ Hs].
    apply (prose_word b ws w (words_as_pieces (words v)) v); auto.
    - destruct Hv as [->|(c & v' & -> & Hc)]; [left; reflexivity|]. right. exists v'. apply Forall_inv in Hs. rewrite (Hs Hc). reflexivity.
    - apply IH; auto. rewrite app_length. destruct w; [congruence|]. cbn. lia. }
  induction n as [|n IH]; intros s Hle Hs Ho b.
  - destruct s; [|cbn in Hle; lia]. constructor. constructor.
  - destruct (space_run s Hs) as [->|[Hf|[Hb|(ws & s' & -> & Hb & _ & Hf)]]].
    + constructor. constructor.
    + apply (Core s Hs Ho Hf) with (ws := []); [|constructor]. intros s' Hl. apply IH. lia.
    + rewrite <- (app_nil_r s), words_lead by (apply blanks_spaces, Hb). rewrite app_nil_r. constructor. exact Hb.
    + rewrite words_lead in * by (apply blanks_spaces, Hb). apply spacing_app in Hs. apply (Core s' (proj2 Hs) Ho Hf); [|exact Hb].
      intros s2 Hl. apply IH. rewrite app_length in Hle. lia.
Qed.

Lemma prose_head b ps s c t : prose b ps s -> s = c :: t -> is_space c = false ->
  exists x f ps', ps = (c :: x, f) :: ps'.
Proof.
  assert (B : forall ws x, blanks ws -> is_space c = false -> ws ++ x = c :: t -> x = c :: t).
  { intros [|d ws] x Hw Hc E; [exact E|]. exfalso. apply Forall_inv in Hw. cbn [app] in E. injection E as -> _. rewrite Hw in Hc. discriminate. }
  intros H E Hc. destruct H as [b ws Hw|b ws x ps rest Hw Hx Hxs Hxo Hp H|b ws x ps rest Hw Hx Hp H|ws x ws' y ps rest Hw Hw' Hl Hp H].
  - exfalso. rewrite E in Hw. apply Forall_inv in Hw. rewrite Hw in Hc. discriminate.
  - apply B in E; [|exact Hw|exact Hc]. destruct x as [|d x]; [congruence|]. injection E as -> _. eauto.
  - apply B in E; [|exact Hw|exact Hc]. destruct (code_piece_first x Hx) as (x' & ->). cbn [app] in E. injection E as <- _. eauto.
  - apply B in E; [|exact Hw|exact Hc]. destruct (halves_ink _ _ Hl) as (F1 & _). assert (F1' := F1). destruct F1' as (d & x' & Ex & Hd).
    rewrite Ex in E. cbn [app] in E. injection E as -> _. destruct (words_head x F1) as (w & v & Ev & Ew & [Hw1 _] & _). rewrite Ew.
    destruct w as [|e w]; [congruence|]. rewrite Ex in Ev. injection Ev as -> _. cbn. eauto.
Qed.

Lemma prose_none b s : prose b [] s -> spaces s.
Proof.
  intros H. remember [] as ps eqn:E. destruct H as [b ws Hw| | |]; try discriminate; [apply blanks_spaces, Hw|].
  destruct (words x); discriminate.
Qed.

(** Lines of prose. *)
Lemma prose_lines ls ps w : prose true ps (str_join [c_sp] (map strip ls)) ->
  exists lines, wrap (str_join [c_sp] (map strip ls)) w = Ok (str_join [c_nl] lines)
    /\ wrap (str_join [c_sp] (map strip lines)) w = Ok (str_join [c_nl] lines)
    /\ (ps <> [] -> lines <> []) /\ Forall one_line lines /\ Forall spacing lines
    /\ Forall ink_first lines /\ Forall ink_last lines /\ Forall harmless_first lines
    /\ prose true ps (str_join [c_sp] (map strip lines)) /\ filled w ps lines.
Proof.
  assert (J : forall s, prose true ps s -> prose true ps (joined s)).
  { intros s H. rewrite join_one; [apply prose_strip, H|]. apply spacing_one_line, (prose_spacing _ _ _ H). }
  intros H. destruct (prose_wrap _ _ _ w (J _ H)) as (lines & E & Hf & Ho & H1 & H2 & H3 & H4 & H5 & Hn & E').
  assert (Es : map strip lines = lines).
  { clear -H1 H2. induction H1 as [|l ls H H1 IH]; [reflexivity|]. inversion H2; subst. cbn [map].
    rewrite IH by assumption. f_equal. apply ink_ends_strip; assumption. }
  exists lines. rewrite Es. repeat (split; [assumption|]). split; [|repeat (split; [assumption|]); assumption].
  destruct (prose_tokens _ _ _ (J _ H)) as (ts & Et & Ep). destruct (prose_tokens _ _ _ (J _ H5)) as (ts' & Et' & Ep').
  rewrite wrap_by_tokens, Et'. cbn [bind]. rewrite wrap_by_tokens, Et in E. cbn [bind] in E. rewrite <- E. f_equal.
  apply join_pieces. congruence.
Qed.
