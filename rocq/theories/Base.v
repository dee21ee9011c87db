(** Lemmas about the Python primitives of Py.v. *)
From Coq Require Export Lia.
From Coq Require Export ZifyBool ZifyNat ZifyN.
From Verif Require Import Py.

(** * Equality tests *)

Lemma str_eqb_eq a b : str_eqb a b = true <-> a = b.
Proof.
  revert b. induction a as [|x a IH]; intros [|y b]; cbn; try (split; congruence).
  rewrite andb_true_iff, N.eqb_eq, IH. split; [intros [-> ->]; reflexivity|].
  intros H; inversion H; auto.
Qed.

Lemma str_eqb_refl a : str_eqb a a = true.
Proof. apply str_eqb_eq. reflexivity. Qed.

Lemma str_eqb_neq a b : str_eqb a b = false <-> a <> b.
Proof.
  rewrite <- str_eqb_eq. destruct (str_eqb a b); split; congruence.
Qed.

Lemma nilb_true {A} (l : list A) : nilb l = true <-> l = [].
Proof. destruct l; cbn; split; congruence. Qed.

Lemma nilb_false {A} (l : list A) : nilb l = false <-> l <> [].
Proof. destruct l; cbn; split; congruence. Qed.

(** * Monad *)

Lemma bind_ok {A B} (x : res A) (f : A -> res B) b :
  bind x f = Ok b <-> exists a, x = Ok a /\ f a = Ok b.
Proof.
  destruct x as [a|e]; cbn; split.
  - intros H; exists a; auto.
  - intros (a' & E & H). inversion E; subst; auto.
  - discriminate.
  - intros (a' & E & H). discriminate.
Qed.

Lemma bind_err {A B} (x : res A) (f : A -> res B) e :
  bind x f = Err e <-> x = Err e \/ exists a, x = Ok a /\ f a = Err e.
Proof.
  destruct x as [a|e']; cbn; split.
  - intros H; right; exists a; auto.
  - intros [E|(a' & E & H)]; [discriminate|]. inversion E; subst; auto.
  - intros H; left; congruence.
  - intros [E|(a' & E & H)]; [congruence|discriminate].
Qed.

Lemma mapM_ok {A B} (f : A -> res B) l bs :
  mapM f l = Ok bs <-> Forall2 (fun a b => f a = Ok b) l bs.
Proof.
  revert bs. induction l as [|a l IH]; intros bs; cbn.
  - split; [intros E; inversion E; constructor | intros H; inversion H; auto].
  - rewrite bind_ok. split.
    + intros (b & Eb & H). apply bind_ok in H. destruct H as (bs' & Ebs & E).
      inversion E; subst. constructor; [auto|]. apply IH; auto.
    + intros H. inversion H as [|? b ? bs' Hb Hbs]; subst.
      exists b. split; [auto|]. apply bind_ok. exists bs'. split; [apply IH; auto|auto].
Qed.

Lemma mapM_length {A B} (f : A -> res B) l bs :
  mapM f l = Ok bs -> length bs = length l.
Proof.
  rewrite mapM_ok. intros H. induction H; cbn; auto.
Qed.

Lemma mapM_app {A B} (f : A -> res B) l1 l2 bs1 bs2 :
  mapM f l1 = Ok bs1 -> mapM f l2 = Ok bs2 -> mapM f (l1 ++ l2) = Ok (bs1 ++ bs2).
Proof. rewrite !mapM_ok. apply Forall2_app. Qed.

Lemma mapM_ext {A B} (f g : A -> res B) l :
  (forall a, In a l -> f a = g a) -> mapM f l = mapM g l.
Proof.
  induction l as [|a l IH]; intros H; cbn; [reflexivity|].
  rewrite (H a) by (left; auto). rewrite IH; [reflexivity|].
  intros b Hb. apply H. right; auto.
Qed.

Lemma mapM_map_ok {A B} (f : A -> res B) (g : A -> B) l :
  (forall a, In a l -> f a = Ok (g a)) -> mapM f l = Ok (map g l).
Proof.
  induction l as [|a l IH]; intros H; cbn; [reflexivity|].
  rewrite (H a) by (left; auto). cbn. rewrite IH; [reflexivity|].
  intros b Hb. apply H. right; auto.
Qed.

Lemma with_redirect_ok {A} (x : res A) a : with_redirect x = Ok a <-> x = Ok a.
Proof. destruct x; cbn; split; congruence. Qed.

(** Inversion of [bind ... = Ok _] in hypotheses. *)
Ltac inv H := inversion H; subst; clear H.
Ltac bind_inv H :=
  let a := fresh "a" in let E := fresh "E" in
  apply bind_ok in H; destruct H as (a & E & H).

(** * Stripping *)

Lemma lstrip_by_spec p s :
  exists pre, s = pre ++ lstrip_by p s /\ forallb p pre = true.
Proof.
  induction s as [|c s (pre & E & H)]; cbn.
  - exists []. auto.
  - destruct (p c) eqn:Hc.
    + exists (c :: pre). cbn. rewrite Hc, H. split; [congruence|auto].
    + exists []. auto.
Qed.

Lemma lstrip_by_head p s c s' : lstrip_by p s = c :: s' -> p c = false.
Proof.
  induction s as [|d s IH]; cbn; [discriminate|].
  destruct (p d) eqn:Hd; [exact IH|]. intros E; inv E. exact Hd.
Qed.

Lemma lstrip_by_nil p s : lstrip_by p s = [] <-> forallb p s = true.
Proof.
  induction s as [|c s IH]; cbn; [split; auto|].
  destruct (p c); cbn; [exact IH|]. split; discriminate.
Qed.

Lemma lstrip_by_id p s :
  match s with [] => True | c :: _ => p c = false end -> lstrip_by p s = s.
Proof. destruct s as [|c s]; cbn; [auto|]. intros ->. reflexivity. Qed.

Lemma lstrip_by_app p pre s :
  forallb p pre = true -> lstrip_by p (pre ++ s) = lstrip_by p s.
Proof.
  induction pre as [|c pre IH]; cbn; [auto|].
  rewrite andb_true_iff. intros [-> H]. auto.
Qed.

Lemma lstrip_by_idem p s : lstrip_by p (lstrip_by p s) = lstrip_by p s.
Proof.
  apply lstrip_by_id. destruct (lstrip_by p s) as [|c s'] eqn:E; [auto|].
  eapply lstrip_by_head; eauto.
Qed.

Lemma rstrip_by_rev p s : rstrip_by p s = rev (lstrip_by p (rev s)).
Proof.
  induction s as [|c s IH] using rev_ind; [reflexivity|].
  rewrite rev_app_distr. cbn [rev app lstrip_by].
  assert (G : forall s c, rstrip_by p (s ++ [c])
                          = if p c then rstrip_by p s else s ++ [c]).
  { clear. intros s c. induction s as [|d s IH]; cbn.
    - destruct (p c); reflexivity.
    - rewrite IH. destruct (p c); [reflexivity|]. destruct s; reflexivity. }
  rewrite G, IH. destruct (p c); [reflexivity|].
  cbn. rewrite rev_involutive. reflexivity.
Qed.

Lemma forallb_rev {A} (p : A -> bool) l : forallb p (rev l) = forallb p l.
Proof.
  induction l as [|a l IH]; cbn; [auto|].
  rewrite forallb_app, IH. cbn. rewrite andb_true_r. apply andb_comm.
Qed.

Lemma rstrip_by_spec p s :
  exists post, s = rstrip_by p s ++ post /\ forallb p post = true.
Proof.
  destruct (lstrip_by_spec p (rev s)) as (pre & E & H).
  exists (rev pre). rewrite rstrip_by_rev. split.
  - rewrite <- rev_app_distr, <- E, rev_involutive. reflexivity.
  - rewrite forallb_rev. exact H.
Qed.

Lemma rstrip_by_last p s c s' : rstrip_by p s = s' ++ [c] -> p c = false.
Proof.
  rewrite rstrip_by_rev. intros E.
  apply (f_equal (@rev N)) in E. rewrite rev_involutive, rev_app_distr in E.
  cbn in E. eapply lstrip_by_head; eauto.
Qed.

Lemma rstrip_by_nil p s : rstrip_by p s = [] <-> forallb p s = true.
Proof.
  rewrite rstrip_by_rev. rewrite <- (forallb_rev p s), <- lstrip_by_nil.
  split; intros E.
  - apply (f_equal (@rev N)) in E. rewrite rev_involutive in E. exact E.
  - rewrite E. reflexivity.
Qed.

Lemma rstrip_by_app p s post :
  forallb p post = true -> rstrip_by p (s ++ post) = rstrip_by p s.
Proof.
  intros H. rewrite !rstrip_by_rev, rev_app_distr, lstrip_by_app; [reflexivity|].
  rewrite forallb_rev. exact H.
Qed.

Lemma rstrip_by_snoc p s c : p c = false -> rstrip_by p (s ++ [c]) = s ++ [c].
Proof.
  intros H. rewrite rstrip_by_rev, rev_app_distr. cbn. rewrite H. cbn.
  rewrite rev_involutive. reflexivity.
Qed.

Lemma rstrip_by_idem p s : rstrip_by p (rstrip_by p s) = rstrip_by p s.
Proof. rewrite !rstrip_by_rev, rev_involutive, lstrip_by_idem. reflexivity. Qed.

Lemma rstrip_by_app_ne p s t :
  rstrip_by p t <> [] -> rstrip_by p (s ++ t) = s ++ rstrip_by p t.
Proof.
  intros H. destruct (rstrip_by_spec p t) as (post & E & Hp).
  rewrite E at 1. rewrite app_assoc, rstrip_by_app by exact Hp.
  destruct (rstrip_by p t) as [|x u] eqn:Ru using rev_ind; [congruence|].
  rewrite app_assoc. apply rstrip_by_snoc. eapply rstrip_by_last; eauto.
Qed.

(** [blank] is "all whitespace". *)
Lemma blank_spec s : blank s = true <-> forallb is_space s = true.
Proof.
  unfold blank, strip, rstrip, lstrip. rewrite nilb_true, rstrip_by_nil.
  split.
  - intros H. destruct (lstrip_by_spec is_space s) as (pre & E & Hp).
    rewrite E, forallb_app, Hp, H. reflexivity.
  - intros H. apply lstrip_by_nil in H. rewrite H. reflexivity.
Qed.

Lemma blank_strip s : blank s = false <-> strip s <> [].
Proof. unfold blank. apply nilb_false. Qed.

Lemma strip_spec s :
  exists pre post, s = pre ++ strip s ++ post
    /\ forallb is_space pre = true /\ forallb is_space post = true.
Proof.
  destruct (lstrip_by_spec is_space s) as (pre & E1 & H1).
  destruct (rstrip_by_spec is_space (lstrip_by is_space s)) as (post & E2 & H2).
  exists pre, post. unfold strip, rstrip, lstrip. rewrite <- E2, <- E1. auto.
Qed.

Lemma strip_head s c s' : strip s = c :: s' -> is_space c = false.
Proof.
  unfold strip, rstrip, lstrip. intros E.
  destruct (rstrip_by_spec is_space (lstrip_by is_space s)) as (post & E2 & H2).
  rewrite E in E2. cbn in E2. eapply lstrip_by_head; eauto.
Qed.

Lemma strip_last s c s' : strip s = s' ++ [c] -> is_space c = false.
Proof. unfold strip, rstrip. apply rstrip_by_last. Qed.

Lemma strip_id s :
  match s with [] => True | c :: _ => is_space c = false end ->
  match rev s with [] => True | c :: _ => is_space c = false end -> strip s = s.
Proof.
  intros H1 H2. unfold strip, lstrip, rstrip.
  rewrite (lstrip_by_id _ _ H1). rewrite rstrip_by_rev.
  rewrite lstrip_by_id by exact H2. apply rev_involutive.
Qed.

Lemma strip_idem s : strip (strip s) = strip s.
Proof.
  apply strip_id.
  - destruct (strip s) eqn:E; [auto|]. eapply strip_head; eauto.
  - destruct (rev (strip s)) as [|c r] eqn:E; [auto|].
    apply (f_equal (@rev N)) in E. rewrite rev_involutive in E. cbn in E.
    eapply strip_last; eauto.
Qed.

Lemma strip_app_spaces pre s post :
  forallb is_space pre = true -> forallb is_space post = true ->
  strip (pre ++ s ++ post) = strip s.
Proof.
  intros H1 H2. unfold strip, lstrip, rstrip. rewrite lstrip_by_app by exact H1.
  destruct (forallb is_space s) eqn:Hs.
  - assert (forallb is_space (s ++ post) = true) as H
      by (rewrite forallb_app, Hs, H2; auto).
    apply lstrip_by_nil in H. apply lstrip_by_nil in Hs. rewrite H, Hs. reflexivity.
  - assert (E : lstrip_by is_space (s ++ post) = lstrip_by is_space s ++ post).
    { clear - Hs. induction s as [|c s IH]; cbn in *; [discriminate|].
      destruct (is_space c); cbn in *; [auto|reflexivity]. }
    rewrite E. apply rstrip_by_app; exact H2.
Qed.

(** * Prefixes and suffixes *)

Lemma startswith_spec p s : startswith p s = true <-> exists t, s = p ++ t.
Proof.
  revert s. induction p as [|x p IH]; intros s; cbn.
  - split; [intros _; exists s; auto | destruct s; auto].
  - destruct s as [|y s]; [split; [discriminate|intros (t & E); discriminate]|].
    rewrite andb_true_iff, N.eqb_eq, IH. split.
    + intros [-> (t & ->)]. exists t. auto.
    + intros (t & E). inv E. split; [auto|]. exists t; auto.
Qed.

Lemma endswith_spec p s : endswith p s = true <-> exists t, s = t ++ p.
Proof.
  unfold endswith. rewrite startswith_spec. split; intros (t & E).
  - exists (rev t). apply (f_equal (@rev N)) in E.
    rewrite rev_involutive, rev_app_distr, rev_involutive in E. exact E.
  - exists (rev t). rewrite E, rev_app_distr. reflexivity.
Qed.

Lemma contains_spec p s : contains p s = true <-> exists a b, s = a ++ p ++ b.
Proof.
  induction s as [|c s IH].
  - cbn [contains]. rewrite orb_false_r, startswith_spec. split.
    + intros (t & E). exists [], t. exact E.
    + intros (a & b & E). symmetry in E. apply app_eq_nil in E. destruct E as [-> E].
      exists b. auto.
  - cbn [contains]. rewrite orb_true_iff, startswith_spec, IH. split.
    + intros [(t & E)|(a & b & E)].
      * exists [], t. exact E.
      * exists (c :: a), b. rewrite E. reflexivity.
    + intros ([|d a] & b & E).
      * left. exists b. exact E.
      * right. exists a, b. inv E. reflexivity.
Qed.

(** * Characters preserved by an operation *)

Lemma Forall_rstrip_by (P : char -> Prop) p s : Forall P s -> Forall P (rstrip_by p s).
Proof.
  intros H. destruct (rstrip_by_spec p s) as (post & E & _). rewrite E in H.
  apply Forall_app in H. tauto.
Qed.

Lemma Forall_lstrip_by (P : char -> Prop) p s : Forall P s -> Forall P (lstrip_by p s).
Proof.
  intros H. destruct (lstrip_by_spec p s) as (pre & E & _). rewrite E in H.
  apply Forall_app in H. tauto.
Qed.

Lemma Forall_strip (P : char -> Prop) s : Forall P s -> Forall P (strip s).
Proof. intros H. apply Forall_rstrip_by, Forall_lstrip_by, H. Qed.

Lemma Forall_firstn {A} (P : A -> Prop) n l : Forall P l -> Forall P (firstn n l).
Proof.
  intros H. revert n. induction H as [|a l Ha H IH]; intros [|n]; cbn;
    constructor; auto.
Qed.

Lemma Forall_skipn {A} (P : A -> Prop) n l : Forall P l -> Forall P (skipn n l).
Proof.
  intros H. revert n. induction H as [|a l Ha H IH]; intros [|n]; cbn; auto.
Qed.

Lemma Forall_slice (P : char -> Prop) s a b : Forall P s -> Forall P (slice s a b).
Proof. intros H. apply Forall_firstn, Forall_skipn, H. Qed.

Lemma Forall_rep (P : char -> Prop) c n : P c -> Forall P (rep c n).
Proof. intros H. unfold rep. induction n; cbn; constructor; auto. Qed.

Lemma Forall_str_join (P : char -> Prop) sep l :
  Forall P sep -> Forall (Forall P) l -> Forall P (str_join sep l).
Proof.
  intros Hs H. induction H as [|p l Hp H IH]; [constructor|].
  destruct l as [|q l]; [exact Hp|].
  cbn [str_join]. apply Forall_app; split; [exact Hp|].
  apply Forall_app; split; [exact Hs|exact IH].
Qed.

Lemma Forall_removelast {A} (P : A -> Prop) l : Forall P l -> Forall P (removelast l).
Proof.
  intros H. induction H as [|a l Ha H IH]; [constructor|].
  destruct l; [constructor|]. cbn in *. constructor; auto.
Qed.

Lemma Forall_tl {A} (P : A -> Prop) l : Forall P l -> Forall P (tl l).
Proof. intros H. destruct H; cbn; auto. Qed.

Lemma Forall_inner {A} (P : A -> Prop) l : Forall P l -> Forall P (inner l).
Proof. intros H. apply Forall_removelast, Forall_tl, H. Qed.

Lemma Forall_split_on (P : char -> Prop) c s :
  Forall P s -> Forall (Forall P) (split_on c s).
Proof.
  intros H. induction H as [|x s Hx H IH]; cbn; [repeat constructor|].
  destruct (N.eqb x c); [constructor; auto|].
  destruct (split_on c s) as [|w ws]; [repeat constructor; auto|].
  inv IH. constructor; [constructor|]; auto.
Qed.

Lemma Forall_words (P : char -> Prop) s : Forall P s -> Forall (Forall P) (words s).
Proof.
  intros H. induction H as [|x s Hx H IH]; cbn [words]; [constructor|].
  destruct (is_space x); [exact IH|].
  destruct s as [|d s]; [repeat constructor; auto|].
  destruct (is_space d); [constructor; [repeat constructor; auto|exact IH]|].
  destruct (words (d :: s)) as [|w ws]; [repeat constructor; auto|].
  inv IH. constructor; [constructor|]; auto.
Qed.

Lemma Forall_take_while (P : char -> Prop) p s :
  Forall P s -> Forall P (take_while p s).
Proof.
  intros H. induction H as [|x s Hx H IH]; cbn; [constructor|].
  destruct (p x); [constructor; auto|constructor].
Qed.

Lemma splitlines_ind_aux (P : str -> Prop) :
  P [] ->
  (forall c s, P s -> (forall d s', s = d :: s' -> P s') -> P (c :: s)) ->
  forall s, P s.
Proof.
  intros H0 H1 s.
  cut (P s /\ forall d s', s = d :: s' -> P s'); [tauto|].
  induction s as [|c s [IH1 IH2]].
  - split; [auto|discriminate].
  - split; [auto|]. intros d s' E. inv E. exact IH1.
Qed.

Lemma Forall_splitlines (P : char -> Prop) s :
  Forall P s -> Forall (Forall P) (splitlines s).
Proof.
  induction s as [|c s IH IH2] using splitlines_ind_aux; intros H; [constructor|].
  inv H. cbn [splitlines]. destruct (is_linebreak c).
  - destruct s as [|d s].
    + repeat constructor.
    + destruct (N.eqb c c_cr && N.eqb d c_nl).
      * constructor; [constructor|]. apply (IH2 d s eq_refl). inv H3. auto.
      * constructor; [constructor|]. apply IH. auto.
  - specialize (IH H3). destruct (splitlines s) as [|l ls]; [repeat constructor; auto|].
    inv IH. constructor; [constructor|]; auto.
Qed.

(** Lines never contain a line separator. *)
Lemma splitlines_no_linebreak s :
  Forall (Forall (fun c => is_linebreak c = false)) (splitlines s).
Proof.
  induction s as [|c s IH IH2] using splitlines_ind_aux; [constructor|].
  cbn [splitlines]. destruct (is_linebreak c) eqn:Hc.
  - destruct s as [|d s]; [repeat constructor|].
    destruct (N.eqb c c_cr && N.eqb d c_nl); constructor;
      [constructor|apply (IH2 d s eq_refl)|constructor|exact IH].
  - destruct (splitlines s) as [|l ls]; [repeat constructor; auto|].
    inv IH. constructor; [constructor|]; auto.
Qed.

(** * Joining and splitting back *)

Lemma splitlines_app_nl l s :
  Forall (fun c => is_linebreak c = false) l ->
  splitlines (l ++ c_nl :: s) = l :: splitlines s.
Proof.
  intros H. induction H as [|c l Hc H IH]; cbn [app].
  - cbn [splitlines]. change (is_linebreak 10) with true. cbn.
    destruct s as [|d s]; reflexivity.
  - cbn [splitlines]. rewrite Hc, IH. reflexivity.
Qed.

Lemma splitlines_single l :
  Forall (fun c => is_linebreak c = false) l -> l <> [] -> splitlines l = [l].
Proof.
  intros H. induction H as [|c l Hc H IH]; intros Hn; [congruence|].
  cbn [splitlines]. rewrite Hc. destruct l as [|d l]; [reflexivity|].
  rewrite IH by discriminate. reflexivity.
Qed.

(** Joining lines with newlines (and a final newline) and splitting gives them back. *)
Lemma splitlines_join ls :
  ls <> [] -> Forall (Forall (fun c => is_linebreak c = false)) ls ->
  splitlines (str_join [c_nl] ls ++ [c_nl]) = ls.
Proof.
  intros Hn H. induction H as [|l ls Hl H IH]; [congruence|].
  destruct ls as [|l' ls].
  - cbn [str_join]. rewrite splitlines_app_nl by exact Hl. reflexivity.
  - cbn [str_join]. rewrite <- !app_assoc. cbn [app].
    rewrite splitlines_app_nl by exact Hl. f_equal. apply IH. discriminate.
Qed.

Lemma str_join_cons sep p l :
  l <> [] -> str_join sep (p :: l) = p ++ sep ++ str_join sep l.
Proof. destruct l; [congruence|reflexivity]. Qed.

Lemma str_join_app sep l1 l2 :
  l1 <> [] -> l2 <> [] ->
  str_join sep (l1 ++ l2) = str_join sep l1 ++ sep ++ str_join sep l2.
Proof.
  intros H1 H2. induction l1 as [|p l1 IH]; [congruence|].
  destruct l1 as [|q l1].
  - cbn. destruct l2; [congruence|reflexivity].
  - change ((p :: q :: l1) ++ l2) with (p :: (q :: l1) ++ l2).
    rewrite !str_join_cons by discriminate. rewrite IH by discriminate.
    rewrite <- !app_assoc. reflexivity.
Qed.


Lemma split_on_app c l s :
  Forall (fun x => x <> c) l -> split_on c (l ++ c :: s) = l :: split_on c s.
Proof.
  intros H. induction H as [|x l Hx H IH]; cbn.
  - rewrite N.eqb_refl. reflexivity.
  - apply N.eqb_neq in Hx. rewrite Hx, IH. reflexivity.
Qed.

Lemma split_on_none c l : Forall (fun x => x <> c) l -> split_on c l = [l].
Proof.
  intros H. induction H as [|x l Hx H IH]; cbn; [reflexivity|].
  apply N.eqb_neq in Hx. rewrite Hx, IH. reflexivity.
Qed.

Lemma split_on_join c ls :
  ls <> [] -> Forall (Forall (fun x => x <> c)) ls ->
  split_on c (str_join [c] ls) = ls.
Proof.
  intros Hn H. induction H as [|l ls Hl H IH]; [congruence|].
  destruct ls as [|l' ls].
  - cbn [str_join]. apply split_on_none. exact Hl.
  - rewrite str_join_cons by discriminate. cbn [app].
    rewrite split_on_app by exact Hl. f_equal. apply IH. discriminate.
Qed.

Lemma split_on_ne c s : split_on c s <> [].
Proof.
  destruct s as [|x s]; cbn; [discriminate|].
  destruct (N.eqb x c); [discriminate|]. destruct (split_on c s); discriminate.
Qed.

Lemma join_split_on c s : str_join [c] (split_on c s) = s.
Proof.
  induction s as [|x s IH]; [reflexivity|]. cbn [split_on].
  destruct (N.eqb_spec x c) as [->|Hx].
  - rewrite str_join_cons by apply split_on_ne. rewrite IH. reflexivity.
  - destruct (split_on c s) as [|w ws] eqn:E; [now apply split_on_ne in E|].
    destruct ws; cbn in *; rewrite <- IH; reflexivity.
Qed.

Lemma split_on_no_sep c s : Forall (Forall (fun x => x <> c)) (split_on c s).
Proof.
  induction s as [|x s IH]; cbn; [repeat constructor|].
  destruct (N.eqb_spec x c) as [->|Hx]; [constructor; auto|].
  destruct (split_on c s) as [|w ws]; [repeat constructor; auto|].
  inv IH. constructor; [constructor|]; auto.
Qed.

Lemma rep_length c n : length (rep c n) = n.
Proof. apply repeat_length. Qed.

Lemma forallb_ext {A} (f g : A -> bool) l :
  (forall a, f a = g a) -> forallb f l = forallb g l.
Proof. intros H. induction l as [|a l IH]; cbn; [auto|]. rewrite H, IH. auto. Qed.

Lemma NoDup_app_l {A} (l1 l2 : list A) : NoDup (l1 ++ l2) -> NoDup l1.
Proof.
  induction l1 as [|a l1 IH]; intros H; [constructor|].
  cbn in H. inv H. constructor; [rewrite in_app_iff in H2; tauto|auto].
Qed.
