(** Where wrapping keeps, adds and drops whitespace. *)
From Coq Require Import String.
From Verif Require Import Py Regex Utils TextWrap Lines Base SpecLines SpecParser SpecWrap ProofsLines
  ProofsRegex ProofsScan ProofsWrap ProofsTokens ProofsParser ProofsLinks ProofsPieces ProofsApart ProofsFilled.

(** * What stands before each character *)

(** Before a character that is not whitespace: the start of the text, another such
    character, whitespace, or whitespace with a newline. *)
Inductive flag := Fs | Fa | Fg | Fn.

Definition after_space (p : flag) (c : char) : flag :=
  match p with
  | Fs => Fs
  | Fn => Fn
  | Fa | Fg => if N.eqb c c_nl then Fn else Fg
  end.

Fixpoint marks (p : flag) (s : str) : list (flag * char) :=
  match s with
  | [] => []
  | c :: s' => if is_space c then marks (after_space p c) s' else (p, c) :: marks Fa s'
  end.

Fixpoint endf (p : flag) (s : str) : flag :=
  match s with
  | [] => p
  | c :: s' => endf (if is_space c then after_space p c else Fa) s'
  end.

Definition gapf (f : flag) : bool := match f with Fg | Fn => true | _ => false end.

Lemma marks_app p a b : marks p (a ++ b) = marks p a ++ marks (endf p a) b.
Proof.
  revert p. induction a as [|c a IH]; intros p; [reflexivity|]. cbn [app marks endf].
  destruct (is_space c); rewrite IH; reflexivity.
Qed.

Lemma endf_app p a b : endf p (a ++ b) = endf (endf p a) b.
Proof. revert p. induction a as [|c a IH]; intros p; [reflexivity|]. cbn [app endf]. apply IH. Qed.

Lemma marks_spaces p ws : spaces ws -> marks p ws = [].
Proof. intros H. revert p. induction H as [|c ws Hc H IH]; intros p; [reflexivity|]. cbn [marks]. rewrite Hc. apply IH. Qed.

Lemma marks_ink p s : map snd (marks p s) = ink s.
Proof.
  revert p. induction s as [|c s IH]; intros p; [reflexivity|]. cbn [marks ink filter]. unfold not_space at 1.
  destruct (is_space c); cbn [negb]; [apply IH|]. cbn [map snd]. f_equal. apply IH.
Qed.

Definition ink_last (s : str) : Prop := exists a c, s = a ++ [c] /\ is_space c = false.
Definition ink_first (s : str) : Prop := exists c a, s = c :: a /\ is_space c = false.

Lemma endf_ink p s : ink_last s -> endf p s = Fa.
Proof. intros (a & c & -> & Hc). rewrite endf_app. cbn [endf]. rewrite Hc. reflexivity. Qed.

Lemma ink_last_app a b : ink_last b -> ink_last (a ++ b).
Proof. intros (x & c & -> & Hc). exists (a ++ x), c. rewrite app_assoc. auto. Qed.

Lemma ink_last_ne s : ink_last s -> s <> [].
Proof. intros (a & c & -> & _). destruct a; discriminate. Qed.

Lemma ink_last_suffix a b : b <> [] -> ink_last (a ++ b) -> ink_last b.
Proof.
  intros Hb (x & c & E & Hc). destruct b as [|d b] using rev_ind; [congruence|]. clear IHb.
  rewrite app_assoc in E. apply app_inj_tail in E. destruct E as [_ ->]. exists b, c. auto.
Qed.

Lemma strip_ends s : blank s = false -> ink_first (strip s) /\ ink_last (strip s).
Proof.
  intros H. apply blank_strip in H. split.
  - destruct (strip s) as [|c a] eqn:E; [congruence|]. exists c, a. split; [reflexivity|].
    eapply strip_head. exact E.
  - destruct (exists_last H) as (a & c & E). exists a, c. split; [exact E|]. eapply strip_last. exact E.
Qed.

Lemma endf_start p s : endf p s = Fs <-> p = Fs /\ marks p s = [].
Proof.
  revert p. induction s as [|c s IH]; intros p; cbn [endf marks]; [tauto|].
  destruct (is_space c).
  - rewrite IH. destruct p; cbn [after_space]; try tauto; destruct (N.eqb c c_nl); split; intros [? ?]; discriminate.
  - rewrite IH. split; intros [? ?]; discriminate.
Qed.

(** The flag of the first character. *)
Fixpoint hdf (p : flag) (s : str) : flag :=
  match s with
  | c :: s' => if is_space c then hdf (after_space p c) s' else p
  | [] => p
  end.

Lemma hdf_spaces p ws s : spaces ws -> hdf p (ws ++ s) = hdf (endf p ws) s.
Proof.
  intros H. revert p. induction H as [|c ws Hc H IH]; intros p; [reflexivity|]. cbn [app hdf endf].
  rewrite Hc. apply IH.
Qed.

Lemma hdf_nonblank p a b : blank a = false -> hdf p (a ++ b) = hdf p a.
Proof.
  intros H. assert (G : forallb is_space a = false).
  { destruct (forallb is_space a) eqn:E; [|reflexivity]. apply blank_spec in E. congruence. }
  clear H. revert p. induction a as [|c a IH]; intros p; [discriminate|]. cbn [app hdf forallb] in *.
  destruct (is_space c); [apply IH; exact G|reflexivity].
Qed.

Lemma hdf_ink p s : ink_first s -> hdf p s = p.
Proof. intros (c & a & -> & H). cbn [hdf]. rewrite H. reflexivity. Qed.

Lemma marks_nonblank p s : blank s = false ->
  exists pre c rest post, s = pre ++ (c :: rest) ++ post /\ strip s = c :: rest /\ is_space c = false
    /\ spaces pre /\ marks p s = (hdf p s, c) :: marks Fa rest.
Proof.
  intros H. destruct (strip_ends s H) as [(c & rest & Es & Hc) _].
  destruct (strip_spec s) as (pre & post & E & Hp & Hq). apply spaces_forallb in Hp, Hq.
  exists pre, c, rest, post. rewrite Es in E. split; [exact E|]. split; [exact Es|]. split; [exact Hc|].
  split; [exact Hp|]. rewrite E at 1 2. rewrite hdf_spaces, marks_app, marks_spaces by exact Hp.
  cbn [app hdf marks]. rewrite Hc, marks_app, (marks_spaces _ post) by exact Hq. rewrite app_nil_r. reflexivity.
Qed.

(** * The relation *)

Section Gaps.

(** When [exact] holds no whitespace is dropped either. *)
Variable exact : Prop.

Definition relf (x y : flag) : Prop :=
  (x = Fs <-> y = Fs) /\ (gapf x = true -> gapf y = true) /\ (exact -> gapf y = true -> gapf x = true).
Definition relm (x y : flag * char) : Prop := snd x = snd y /\ relf (fst x) (fst y).

Lemma relf_refl x : relf x x.
Proof. unfold relf. tauto. Qed.

Lemma relf_trans x y z : relf x y -> relf y z -> relf x z.
Proof. unfold relf. tauto. Qed.

Lemma relm_trans a b c : Forall2 relm a b -> Forall2 relm b c -> Forall2 relm a c.
Proof.
  intros H. revert c. induction H as [|x y a b Hx H IH]; intros c Hc; inversion Hc; subst; constructor.
  - unfold relm in *. destruct Hx, H2. split; [congruence|]. eapply relf_trans; eassumption.
  - apply IH. assumption.
Qed.

Lemma relf_space x y c d : relf x y -> relf (after_space x c) (after_space y d).
Proof.
  unfold relf. intros (H1 & H2 & H3). destruct x, y; cbn in *;
    try destruct (N.eqb c c_nl); try destruct (N.eqb d c_nl); cbn; intuition congruence.
Qed.

Lemma relm_same s : forall p q, relf p q ->
  Forall2 relm (marks p s) (marks q s) /\ relf (endf p s) (endf q s).
Proof.
  induction s as [|c s IH]; intros p q H; [split; [constructor|exact H]|]. cbn [marks endf].
  destruct (is_space c); [apply IH, relf_space, H|]. destruct (IH Fa Fa (relf_refl Fa)) as [H1 H2].
  split; [constructor; [split; [reflexivity|exact H]|exact H1]|exact H2].
Qed.

Lemma relm_marks_nil p q a b : Forall2 relm (marks p a) (marks q b) -> (p = Fs <-> q = Fs) ->
  (endf p a = Fs <-> endf q b = Fs).
Proof.
  intros H Hp. rewrite !endf_start. inversion H as [E1 E2|? ? ? ? _ _ E1 E2]; [tauto|]. split; intros [? ?]; discriminate.
Qed.

Definition lead_str (b : bool) : str := if b then [c_sp] else [].

Lemma relm_strip p q b s : blank s = false -> relf (endf p (lead_str b)) (hdf q s) ->
  Forall2 relm (marks p (lead_str b ++ strip s)) (marks q s).
Proof.
  intros Hs H. destruct (marks_nonblank q s Hs) as (pre & c & rest & post & E & Es & Hc & Hp & ->).
  rewrite marks_app, marks_spaces by (destruct b; repeat constructor). rewrite Es. cbn [app marks].
  rewrite Hc. constructor; [split; [reflexivity|exact H]|]. apply relm_same, relf_refl.
Qed.

Definition spacing (s : str) : Prop := Forall (fun c => is_space c = true -> c = c_sp) s.

(** A segment in the middle of the text. *)
Lemma relf_first q s : q <> Fs -> (exact -> q = Fa /\ spacing s) ->
  relf (endf Fa (lead_str (startswith [c_sp] s))) (hdf q s).
Proof.
  intros Hq He. destruct (startswith [c_sp] s) eqn:E.
  - apply startswith_spec in E. destruct E as (t & ->). cbn [lead_str endf app hdf].
    change (is_space c_sp) with true. cbn match.
    assert (G : forall t q, q = Fg \/ q = Fn -> hdf q t = Fg \/ hdf q t = Fn).
    { clear. induction t as [|c t IH]; intros q Hq; [exact Hq|]. cbn [hdf]. destruct (is_space c); [|exact Hq].
      apply IH. destruct Hq as [->| ->]; cbn [after_space]; [destruct (N.eqb c c_nl)|]; auto. }
    destruct (G t (after_space q c_sp)) as [->| ->].
    + destruct q; [congruence|left|left|right]; reflexivity.
    + unfold relf. cbn. intuition congruence.
    + unfold relf. cbn. intuition congruence.
  - cbn [lead_str endf]. assert (G : hdf q s <> Fs).
    { clear -Hq. revert q Hq. induction s as [|c s IH]; intros q Hq; [exact Hq|]. cbn [hdf].
      destruct (is_space c); [|exact Hq]. apply IH. destruct q; cbn; try congruence; destruct (N.eqb c c_nl); discriminate. }
    unfold relf. cbn. split; [split; congruence|]. split; [discriminate|]. intros Hx Hg. exfalso.
    destruct (He Hx) as [-> Hs]. destruct s as [|c s]; [discriminate|]. cbn [hdf] in Hg.
    destruct (is_space c) eqn:Ec; [|discriminate]. apply Forall_inv in Hs. apply Hs in Ec. subst c. discriminate.
Qed.

Lemma relf_last q s : endf q s <> Fs -> (exact -> (blank s = false \/ q = Fa) /\ spacing s) ->
  relf (endf Fa (lead_str (endswith [c_sp] s))) (endf q s).
Proof.
  intros Hq He. destruct s as [|c s] using rev_ind.
  - change (endswith [c_sp] []) with false. cbn [lead_str endf] in *.
    unfold relf. cbn. split; [split; congruence|]. split; [discriminate|]. intros Hx Hg.
    destruct (He Hx) as [[Hb| ->] _]; discriminate.
  - clear IHs. rewrite endf_app in *. cbn [endf] in *.
    assert (E : endswith [c_sp] (s ++ [c]) = N.eqb c c_sp).
    { destruct (N.eqb_spec c c_sp) as [->|Hc]; [apply endswith_spec; eauto|].
      destruct (endswith [c_sp] (s ++ [c])) eqn:E; [|reflexivity]. apply endswith_spec in E.
      destruct E as (t & E). apply app_inj_tail in E. destruct E. congruence. }
    rewrite E. destruct (is_space c) eqn:Ec.
    + assert (G : gapf (after_space (endf q s) c) = true).
      { destruct (endf q s); cbn in *; try congruence; destruct (N.eqb c c_nl); reflexivity. }
      unfold relf. rewrite G. destruct (N.eqb_spec c c_sp) as [->|Hc]; cbn.
      * split; [split; congruence|]. tauto.
      * split; [split; congruence|]. split; [discriminate|]. intros Hx. exfalso. destruct (He Hx) as [_ Hs].
        apply Forall_app in Hs. destruct Hs as [_ Hs]. apply Forall_inv in Hs. auto.
    + destruct (N.eqb_spec c c_sp) as [->|Hc]; [discriminate|]. apply relf_refl.
Qed.

(** * Tokens on one line *)

Definition render1 (t : tok) : str := lead_str (t_lead t) ++ t_text t.
Definition render (ts : list tok) : str := concat (map render1 ts).

Lemma render_app a b : render (a ++ b) = render a ++ render b.
Proof. unfold render. rewrite map_app, concat_app. reflexivity. Qed.

Lemma render_one t : render [t] = render1 t.
Proof. unfold render. cbn. apply app_nil_r. Qed.

Lemma render_cons t ts : render (t :: ts) = render1 t ++ render ts.
Proof. reflexivity. Qed.

(** Tokens that are still to be split begin and end with a character. (Between two links
    there can be empty tokens.) *)
Definition trim (s : str) : Prop := (s = [] /\ ~ exact) \/ (ink_first s /\ ink_last s).
Definition trim_tok (t : tok) : Prop := t_eval t = true -> trim (t_text t).

Lemma trim_strip s : blank s = false -> trim (strip s).
Proof. intros H. right. apply strip_ends. exact H. Qed.

(** What the first pass must do, and all others. *)
Definition keeps (text : str) (lead : bool) (ts : list tok) : Prop :=
  forall p q, (p = Fs <-> q = Fs) -> relf (endf p (lead_str lead)) (hdf q text) ->
  Forall2 relm (marks p (render ts)) (marks q text)
  /\ (ink_last text -> endf p (render ts) = Fa).

Lemma split_pass_keeps f ts r :
  (forall t, In t ts -> t_eval t = true -> forall r, f (t_text t) (t_lead t) = Ok r -> keeps (t_text t) (t_lead t) r) ->
  (forall lead r, f [] lead = Ok r -> r = []) ->
  Forall trim_tok ts -> split_pass f ts = Ok r ->
  forall p q, relf p q -> Forall2 relm (marks p (render r)) (marks q (render ts)).
Proof.
  intros Hf Hnil H. revert r. induction H as [|t ts Ht H IH]; intros r E p q Hpq.
  - apply ok_inj in E. subst r. constructor.
  - rewrite split_pass_cons in E. apply bind_ok in E. destruct E as (a & Ea & E).
    apply bind_ok in E. destruct E as (b & Eb & E). apply ok_inj in E. subst r.
    rewrite render_app, render_cons, !marks_app.
    assert (A : Forall2 relm (marks p (render a)) (marks q (render1 t))
                /\ relf (endf p (render a)) (endf q (render1 t))).
    { destruct (t_eval t) eqn:Et.
      - destruct (Ht Et) as [[H1 H2]|[H1 H2]].
        { rewrite H1 in Ea. apply Hnil in Ea. subst a. unfold render1. rewrite H1, app_nil_r.
          rewrite (marks_spaces q) by (destruct (t_lead t); repeat constructor).
          split; [constructor|]. cbn [render map concat endf]. destruct (t_lead t); cbn [lead_str endf]; [|exact Hpq].
          change (is_space c_sp) with true. cbn match. destruct Hpq as (K1 & K2 & K3). unfold relf.
          destruct p, q; cbn in *; intuition congruence. }
        destruct (Hf t (or_introl eq_refl) Et a Ea p (endf q (lead_str (t_lead t)))) as [K1 K2].
        + destruct Hpq as (K & _). rewrite K. unfold lead_str. destruct (t_lead t); cbn; [|tauto].
          destruct q; cbn; split; congruence.
        + rewrite hdf_ink by exact H1. apply relm_same. exact Hpq.
        + unfold render1. rewrite marks_app, endf_app.
          rewrite (marks_spaces q (lead_str _)) by (destruct (t_lead t); repeat constructor).
          split; [exact K1|]. rewrite (K2 H2), (endf_ink _ _ H2). apply relf_refl.
      - apply ok_inj in Ea. subst a. rewrite render_one. apply relm_same. exact Hpq. }
    destruct A as [A1 A2]. apply Forall2_app; [exact A1|]. apply IH; [|exact Eb|exact A2].
    intros t' Hin. apply Hf. right. exact Hin.
Qed.

(** * Splitting a text from left to right *)

Definition mid (p q : flag) (ts : list tok) (pre : str) : Prop :=
  Forall2 relm (marks p (render ts)) (marks q pre)
  /\ ((ts = [] /\ pre = [])
      \/ (ts <> [] /\ ink_last (render ts) /\ pre <> [] /\ endf q pre <> Fs /\ (exact -> endf q pre = Fa))).

Lemma render_app_last ts x : ts <> [] -> render (app_last ts x) = render ts ++ x.
Proof.
  intros H. destruct (exists_last H) as (ts0 & t & ->). rewrite app_last_snoc, !render_app, !render_one.
  unfold render1. cbn [t_lead t_text]. rewrite <- !app_assoc. reflexivity.
Qed.

Lemma app_last_ne ts x : ts <> [] -> app_last ts x <> [].
Proof.
  intros H. destruct (exists_last H) as (ts0 & t & ->). rewrite app_last_snoc. destruct ts0; discriminate.
Qed.

Lemma relf_adj y : y <> Fs -> (exact -> y = Fa) -> relf Fa y.
Proof. intros H1 H2. unfold relf. cbn. split; [split; congruence|]. split; [discriminate|]. intros Hx. rewrite (H2 Hx). auto. Qed.

Lemma mid_dot p q ts pre : mid p q ts pre -> ts <> [] -> mid p q (app_last ts [c_dot]) (pre ++ [c_dot]).
Proof.
  intros [H [[-> _]|(Hn & Hl & Hp & Hs & He)]] Hts; [congruence|]. split.
  - rewrite render_app_last, !marks_app by exact Hn. apply Forall2_app; [exact H|].
    rewrite (endf_ink _ _ Hl). apply relm_same. apply relf_adj; assumption.
  - right. split; [apply app_last_ne; exact Hn|]. rewrite render_app_last by exact Hn.
    split; [exists (render ts), c_dot; auto|]. split; [destruct pre; discriminate|].
    rewrite endf_app. cbn. split; [discriminate|auto].
Qed.

Lemma mid_text p q ts pre s lead ev :
  mid p q ts pre -> blank s = false -> (ts = [] -> relf (endf p (lead_str lead)) (hdf q s)) ->
  (exact -> spacing s) ->
  Forall2 relm (marks p (render (ts ++ [Tok (strip s) (if nilb ts then lead else startswith [c_sp] s) ev])))
    (marks q (pre ++ s)).
Proof.
  intros [H Hm] Hs H0 Hx. rewrite render_app, render_one, !marks_app. apply Forall2_app; [exact H|].
  unfold render1. cbn [t_lead t_text]. apply relm_strip; [exact Hs|].
  destruct Hm as [[-> ->]|(Hn & Hl & Hp & Hq & He)].
  - cbn [nilb render map concat endf]. apply H0. reflexivity.
  - apply nilb_false in Hn. rewrite Hn, (endf_ink _ _ Hl). apply relf_first; [exact Hq|].
    intros X. split; auto.
Qed.

Lemma render_text_last ts s lead ev : blank s = false -> ink_last (render (ts ++ [Tok (strip s) lead ev])).
Proof.
  intros H. rewrite render_app, render_one. apply ink_last_app. unfold render1. cbn [t_lead t_text].
  apply ink_last_app. apply strip_ends. exact H.
Qed.

Lemma spacing_app a b : spacing (a ++ b) <-> spacing a /\ spacing b.
Proof. unfold spacing. apply Forall_app. Qed.

Lemma mid_ne p q ts pre : mid p q ts pre -> (ts = [] <-> pre = []).
Proof. intros [_ [[-> ->]|(H1 & _ & H2 & _)]]; split; congruence. Qed.

Lemma ink_last_nonblank s : ink_last s -> blank s = false.
Proof.
  intros (a & c & -> & Hc). apply ink_ne_blank. rewrite ink_app. cbn. unfold not_space. rewrite Hc.
  destruct (ink a); discriminate.
Qed.

Lemma split_tail_keeps text pre s ts lead ts' p q :
  text = pre ++ s -> mid p q ts pre -> (exact -> spacing text) -> relf (endf p (lead_str lead)) (hdf q text) ->
  Forall trim_tok ts ->
  (forall t ts0, ts = ts0 ++ [t] -> t_eval t = false) ->
  split_tail ts s (length pre) lead = Ok ts' ->
  Forall2 relm (marks p (render ts')) (marks q text)
  /\ (ink_last text -> endf p (render ts') = Fa) /\ Forall trim_tok ts'.
Proof.
  intros Et Hm Hx H0 Ht He. unfold split_tail.
  assert (A : forall ts pre s, text = pre ++ s -> mid p q ts pre -> Forall trim_tok ts ->
            (if negb (blank s)
             then Ok (ts ++ [Tok (strip s) (if length pre =? 0 then lead else startswith [c_sp] s) true])
             else Ok ts) = Ok ts' ->
            Forall2 relm (marks p (render ts')) (marks q text)
            /\ (ink_last text -> endf p (render ts') = Fa) /\ Forall trim_tok ts').
  { clear ts pre s Et Hm Ht He. intros ts pre s Et Hm Ht E.
    assert (En : (length pre =? 0) = nilb ts).
    { assert (G := mid_ne _ _ _ _ Hm). destruct pre, ts; cbn; try reflexivity; exfalso; intuition congruence. }
    rewrite En in E. destruct (blank s) eqn:Eb; cbn [negb] in E; apply ok_inj in E; subst ts'.
    - split; [|split; [|exact Ht]].
      + rewrite Et, marks_app, (marks_spaces _ s); [rewrite app_nil_r; apply Hm|].
        apply spaces_forallb, blank_spec, Eb.
      + intros Hl. destruct Hm as [_ [[-> ->]|(_ & Hl' & _)]]; [|apply endf_ink; exact Hl'].
        cbn [app] in Et. subst text. apply ink_last_nonblank in Hl. congruence.
    - split; [|split].
      + rewrite Et. apply mid_text; [exact Hm|exact Eb| |].
        * intros ->. assert (G := proj1 (mid_ne _ _ _ _ Hm) eq_refl). rewrite G in Et. cbn [app] in Et. subst text. exact H0.
        * intros X. specialize (Hx X). rewrite Et in Hx. apply spacing_app in Hx. apply Hx.
      + intros _. apply endf_ink, render_text_last, Eb.
      + apply Forall_app. split; [exact Ht|]. constructor; [|constructor]. intros _. apply trim_strip. exact Eb. }
  destruct (one_dot s) eqn:Ed.
  - destruct ts as [|t0 ts0] eqn:Ets; [discriminate|]. rewrite <- Ets in *. cbn [bind].
    assert (Hn : ts <> []) by (rewrite Ets; discriminate). clear Ets t0 ts0.
    apply one_dot_spec in Ed. destruct Ed as (u & -> & _). cbn [tl]. intros E.
    assert (Lz : (length pre =? 0) = (length (pre ++ [c_dot]) =? 0)).
    { rewrite app_length. cbn. assert (G := mid_ne _ _ _ _ Hm). destruct pre; [exfalso; intuition congruence|]. reflexivity. }
    rewrite Lz in E. apply (A (app_last ts [c_dot]) (pre ++ [c_dot]) u).
    + rewrite Et, <- app_assoc. reflexivity.
    + apply mid_dot; assumption.
    + destruct (exists_last Hn) as (ts0 & t & ->). rewrite app_last_snoc.
      apply Forall_app in Ht. apply Forall_app. split; [apply Ht|]. constructor; [|constructor].
      unfold trim_tok. cbn [t_eval]. rewrite (He t ts0 eq_refl). discriminate.
    + exact E.
  - cbn [bind]. apply A; assumption.
Qed.

(** * Inline code *)

Definition code_gaps (p q : flag) (pre : str) (ts : list tok) (open : nat) : Prop :=
  Forall2 relm (marks p (render ts)) (marks q pre)
  /\ Forall trim_tok ts
  /\ (open = 0 -> mid p q ts pre).

Lemma rep_last k : 0 < k -> ink_last (rep c_bt k).
Proof. intros H. destruct k as [|k]; [lia|]. rewrite rep_snoc. exists (rep c_bt k), c_bt. auto. Qed.

Lemma code_step_gaps text lead pre gap k rest ts open ts' open' le p q :
  code_inv text pre (gap ++ rep c_bt k ++ rest) ts open ->
  (exact -> spacing text) -> relf (endf p (lead_str lead)) (hdf q text) -> (p = Fs <-> q = Fs) ->
  0 < k ->
  code_gaps p q pre ts open ->
  code_step text lead (ts, open, length pre)
    (length pre + length gap, length pre + length gap + k) = (ts', open', le) ->
  code_gaps p q (pre ++ gap ++ rep c_bt k) ts' open'.
Proof.
  intros (Et & Hi & Hc0 & Hc1) Hx H0 Hpq Hk (Hm & Ht & Hmid).
  assert (Sg : slice text (length pre) (length pre + length gap) = gap).
  { rewrite Et. apply slice_mid. }
  assert (Sgk : slice text (length pre) (length pre + length gap + k) = gap ++ rep c_bt k).
  { replace (length pre + length gap + k) with (length pre + length (gap ++ rep c_bt k))
      by (rewrite app_length, rep_length; lia).
    rewrite Et, (app_assoc gap). apply slice_mid. }
  assert (Km : length pre + length gap + k - (length pre + length gap) = k) by lia.
  unfold code_step. rewrite Sg, Sgk, Km.
  destruct (open =? 0) eqn:Eo.
  - apply Nat.eqb_eq in Eo. subst open. specialize (Hmid eq_refl). destruct (Hc0 eq_refl) as [_ Hlast]. clear Hc0 Hc1.
    set (dot := one_dot gap && negb (nilb ts)).
    set (ts1 := if dot then app_last ts [c_dot] else ts).
    set (gap1 := if dot then tl gap else gap).
    assert (A : exists pre1, pre ++ gap = pre1 ++ gap1 /\ mid p q ts1 pre1 /\ Forall trim_tok ts1).
    { unfold ts1, gap1. destruct dot eqn:Ed.
      - unfold dot in Ed. apply andb_true_iff in Ed. destruct Ed as [Ed En]. apply negb_true_iff, nilb_false in En.
        apply one_dot_spec in Ed. destruct Ed as (u & -> & _). exists (pre ++ [c_dot]).
        split; [rewrite <- app_assoc; reflexivity|]. split; [apply mid_dot; assumption|].
        destruct Hlast as [[-> _]|(ts0 & k0 & c & code & ld & -> & _)]; [congruence|].
        rewrite app_last_snoc. apply Forall_app in Ht. apply Forall_app. split; [apply Ht|].
        constructor; [|constructor]. intros E. discriminate.
      - exists pre. auto. }
    destruct A as (pre1 & Ep & Hm1 & Ht1).
    assert (Et1 : text = pre1 ++ gap1 ++ rep c_bt k ++ rest).
    { rewrite Et, app_assoc, Ep, <- app_assoc. reflexivity. }
    assert (Hs1 : exact -> spacing gap1).
    { intros X. specialize (Hx X). rewrite Et1 in Hx. apply spacing_app in Hx. destruct Hx as [_ Hx].
      apply spacing_app in Hx. apply Hx. }
    set (ts2 := if negb (blank gap1) then _ else ts1).
    intros E. injection E as <- <- _.
    assert (B : Forall2 relm (marks p (render ts2)) (marks q (pre1 ++ gap1)) /\ Forall trim_tok ts2
       /\ relf (endf p (render ts2 ++ lead_str (if nilb ts2 then lead else endswith [c_sp] gap1)))
               (endf q (pre1 ++ gap1))).
    { unfold ts2. destruct (blank gap1) eqn:Eb; cbn [negb].
      - assert (Hsp : spaces gap1) by (apply spaces_forallb, blank_spec, Eb).
        split; [rewrite marks_app, (marks_spaces _ gap1 Hsp), app_nil_r; apply Hm1|]. split; [exact Ht1|].
        destruct Hm1 as [_ [[E1 E2]|(Hn & Hl & Hp & Hq & He)]].
        + rewrite E1, E2. cbn [nilb render map concat app]. rewrite Et1, E2 in H0. cbn [app] in H0.
          rewrite hdf_spaces in H0 by exact Hsp. rewrite hdf_ink in H0; [exact H0|].
          destruct (rep_tick k Hk) as (y & ->). exists c_bt, (y ++ rest). auto.
        + apply nilb_false in Hn. rewrite Hn, !endf_app, (endf_ink _ _ Hl). apply relf_last.
          * rewrite endf_start. tauto.
          * intros X. split; [right; auto|auto].
      - split; [|split].
        + apply mid_text; [exact Hm1|exact Eb| |exact Hs1]. intros E1.
          rewrite (proj1 (mid_ne _ _ _ _ Hm1) E1) in Et1. cbn [app] in Et1. rewrite Et1 in H0.
          rewrite hdf_nonblank in H0 by exact Eb. exact H0.
        + apply Forall_app. split; [exact Ht1|]. constructor; [|constructor]. intros _. apply trim_strip. exact Eb.
        + match goal with |- context [nilb (ts1 ++ ?l)] => assert (En : nilb (ts1 ++ l) = false) by (destruct ts1; reflexivity) end.
          rewrite En, endf_app, (endf_ink _ _ (render_text_last _ _ _ _ Eb)), endf_app. apply relf_last.
          * rewrite endf_start. intros [_ E]. apply (f_equal (map snd)) in E. rewrite marks_ink in E. cbn [map] in E.
            apply ink_ne_blank in Eb. congruence.
          * auto. }
    destruct B as (B1 & B2 & B3).
    split; [|split].
    + rewrite render_app, render_one, (app_assoc pre), Ep, (marks_app q (pre1 ++ gap1)), (marks_app p (render ts2)).
      apply Forall2_app; [exact B1|]. unfold render1. cbn [t_lead t_text]. rewrite marks_app.
      rewrite (marks_spaces _ (lead_str _)) by (destruct (if nilb ts2 then _ else _); repeat constructor).
      cbn [app]. apply relm_same. rewrite <- !endf_app. exact B3.
    + apply Forall_app. split; [exact B2|]. constructor; [|constructor]. intros E. discriminate.
    + intros E. lia.
  - apply Nat.eqb_neq in Eo. assert (Ho : 0 < open) by lia. specialize (Hc1 Ho). clear Hc0 Hmid.
    destruct Hc1 as (ts0 & pre0 & body & ld & -> & _ & Epre & Hb).
    assert (Hn : ts0 ++ [Tok (rep c_bt open ++ body) ld false] <> []) by (destruct ts0; discriminate).
    assert (Hends : relf (endf p (render (ts0 ++ [Tok (rep c_bt open ++ body) ld false]))) (endf q pre)).
    { rewrite Epre, render_app, render_one. unfold render1. cbn [t_lead t_text].
      destruct open as [|n]; [lia|]. rewrite rep_S. cbn [app]. rewrite !endf_app. cbn [endf].
      change (is_space c_bt) with false. cbn match. apply relf_refl. }
    assert (Htr : forall x, Forall trim_tok (app_last (ts0 ++ [Tok (rep c_bt open ++ body) ld false]) x)).
    { intros x. rewrite app_last_snoc. apply Forall_app in Ht. apply Forall_app. split; [apply Ht|].
      constructor; [|constructor]. intros E. discriminate. }
    assert (Hadd : Forall2 relm
        (marks p (render (app_last (ts0 ++ [Tok (rep c_bt open ++ body) ld false]) (gap ++ rep c_bt k))))
        (marks q (pre ++ gap ++ rep c_bt k))).
    { rewrite render_app_last, !(marks_app _ _ (gap ++ rep c_bt k)) by exact Hn.
      apply Forall2_app; [exact Hm|]. apply relm_same. exact Hends. }
    destruct (k =? open) eqn:Ek; intros E; injection E as <- <- _.
    + apply Nat.eqb_eq in Ek. subst k. split; [exact Hadd|]. split; [apply Htr|]. intros _. split; [exact Hadd|].
      right. split; [apply app_last_ne; exact Hn|]. rewrite render_app_last by exact Hn.
      split; [apply ink_last_app, ink_last_app, rep_last, Ho|]. split.
      * destruct open; [lia|]. destruct pre, gap; discriminate.
      * rewrite (endf_ink q); [split; [discriminate|auto]|]. apply ink_last_app, ink_last_app, rep_last, Ho.
    + split; [exact Hadd|]. split; [apply Htr|]. lia.
Qed.

Lemma code_fold_gaps text lead p q pos s ms :
  (exact -> spacing text) -> relf (endf p (lead_str lead)) (hdf q text) -> (p = Fs <-> q = Fs) ->
  ticks pos s ms -> forall pre ts open, pos = length pre -> code_inv text pre s ts open ->
  code_gaps p q pre ts open ->
  exists pre' s' ts' open',
    fold_left (code_step text lead) ms (ts, open, pos) = (ts', open', length pre')
    /\ code_inv text pre' s' ts' open' /\ code_gaps p q pre' ts' open'.
Proof.
  intros Hx H0 Hpq H. induction H as [pos s Hs|pos gap k rest ms Hg Hk Hr Ht IH]; intros pre ts open -> Hi Hc.
  - exists pre, s, ts, open. cbn. auto.
  - destruct (code_step_inv text lead pre gap k rest ts open Hi Hg Hk Hr) as (ts' & open' & E & Hi').
    assert (Hc' := code_step_gaps _ _ _ _ _ _ _ _ _ _ _ p q Hi Hx H0 Hpq Hk Hc E).
    cbn [fold_left]. rewrite E.
    assert (L : length pre + length gap + k = length (pre ++ gap ++ rep c_bt k)).
    { rewrite !app_length, rep_length. lia. }
    rewrite <- L. apply (IH (pre ++ gap ++ rep c_bt k) ts' open' L Hi' Hc').
Qed.

Lemma code_split_keeps text lead ts p q :
  (exact -> spacing text) -> relf (endf p (lead_str lead)) (hdf q text) -> (p = Fs <-> q = Fs) ->
  code_split text lead = Ok ts ->
  Forall2 relm (marks p (render ts)) (marks q text)
  /\ (ink_last text -> endf p (render ts) = Fa) /\ Forall trim_tok ts.
Proof.
  intros Hx H0 Hpq. unfold code_split, INLINE_CODE_MARKER_REGEX.
  destruct (code_fold_gaps text lead p q 0 text _ Hx H0 Hpq (finditer_ticks text) [] [] 0 eq_refl)
    as (pre & s & ts1 & open & E & Hinv & Hgap).
  { split; [reflexivity|]. split; [reflexivity|]. split; [auto|lia]. }
  { split; [constructor|]. split; [constructor|]. intros _. split; [constructor|auto]. }
  rewrite E. clear E. destruct Hinv as (Et & Hi & Hc0 & Hc1). destruct Hgap as (Hm & Ht & Hmid).
  assert (Sk : skipn (length pre) text = s) by (rewrite Et; apply skipn_pre).
  rewrite Sk.
  assert (Hopen : 0 < open -> exists ts0 pre0 body ld,
            ts1 = ts0 ++ [Tok (rep c_bt open ++ body) ld false] /\ pre = pre0 ++ rep c_bt open ++ body
            /\ ink_last (rep c_bt open ++ body)).
  { intros Ho. destruct (Hc1 Ho) as (ts0 & pre0 & body & ld & E1 & _ & E2 & Hb). exists ts0, pre0, body, ld.
    split; [exact E1|]. split; [exact E2|]. destruct Hb as [[-> _]|(c & x & -> & _)].
    - rewrite app_nil_r. apply rep_last, Ho.
    - apply ink_last_app. exists (c :: x), c_bt. auto. }
  assert (Hmid' : mid p q ts1 pre /\ (forall t ts0, ts1 = ts0 ++ [t] -> t_eval t = false)).
  { destruct open as [|n].
    - split; [apply Hmid; reflexivity|]. intros t ts0 E0. destruct (Hc0 eq_refl) as [_ [[-> _]|(ts2 & k & c & code & ld & -> & _)]].
      + destruct ts0; discriminate.
      + apply app_inj_tail in E0. destruct E0 as [_ <-]. reflexivity.
    - destruct (Hopen ltac:(lia)) as (ts0 & pre0 & body & ld & -> & Epre & Hl). split.
      + split; [exact Hm|]. right. split; [destruct ts0; discriminate|].
        split; [rewrite render_app, render_one; apply ink_last_app; unfold render1; cbn [t_lead t_text]; apply ink_last_app, Hl|].
        rewrite Epre. split; [destruct pre0; discriminate|].
        rewrite endf_ink by (apply ink_last_app, Hl). split; [discriminate|auto].
      + intros t ts2 E0. apply app_inj_tail in E0. destruct E0 as [_ <-]. reflexivity. }
  destruct Hmid' as [Hmid' Hev].
  destruct (negb (nilb ts1) && _) eqn:Ec.
  - apply andb_true_iff in Ec. destruct Ec as [En E1]. apply Nat.eqb_eq in E1. apply negb_true_iff, nilb_false in En.
    destruct open as [|n].
    { exfalso. destruct (Hc0 eq_refl) as [_ [[-> _]|(ts0 & k & c & code & ld & -> & Hk & Hc)]];
        [congruence|].
      rewrite last_text_snoc in E1. cbn [t_text] in E1.
      assert (G := two_runs k c (code ++ rep c_bt k) Hk Hc). rewrite E1 in G.
      assert (2 <= 1); [|lia]. apply G. apply in_app_iff. right.
      destruct (rep_tick k Hk) as (y & ->). left. reflexivity. }
    destruct (Hopen ltac:(lia)) as (ts0 & pre0 & body & ld & -> & Epre & Hl).
    rewrite eval_last_snoc. cbn [t_text t_lead].
    assert (Er : forall b, render (ts0 ++ [Tok (rep c_bt (S n) ++ body) ld b])
                 = render (ts0 ++ [Tok (rep c_bt (S n) ++ body) ld false])).
    { intros b. rewrite !render_app, !render_one. reflexivity. }
    apply Forall_app in Ht. destruct Ht as [Ht _].
    destruct Hmid' as [_ [[E0 _]|(_ & Hr & _ & Hq1 & Hq2)]]; [congruence|].
    destruct (blank s) eqn:Eb; cbn [negb]; intros E; apply ok_inj in E; subst ts.
    + rewrite Er. split; [|split].
      * rewrite Et, marks_app, (marks_spaces _ s); [rewrite app_nil_r; exact Hm|].
        apply spaces_forallb, blank_spec, Eb.
      * intros _. apply endf_ink, Hr.
      * apply Forall_app. split; [exact Ht|]. constructor; [|constructor]. intros _. cbn [t_text].
        right. split; [|exact Hl]. rewrite rep_S. eexists. eexists. split; [reflexivity|reflexivity].
    + assert (Hrs : ink_last (rstrip s) /\ exists post, s = rstrip s ++ post /\ spaces post).
      { destruct (rstrip_by_spec is_space s) as (post & Es & Hp). fold (rstrip s) in Es. apply spaces_forallb in Hp.
        split; [|eauto]. assert (Hne : rstrip s <> []).
        { intros E0. apply ink_ne_blank in Eb. rewrite Es, E0 in Eb. cbn [app] in Eb. apply Eb, ink_spaces, Hp. }
        destruct (exists_last Hne) as (a & c & Ea). exists a, c. split; [exact Ea|]. eapply rstrip_by_last. exact Ea. }
      destruct Hrs as [Hrl (post & Es & Hp)].
      split; [|split].
      * rewrite render_app_last by (destruct ts0; discriminate). rewrite Er, Et, Es, !marks_app.
        rewrite (marks_spaces _ post Hp), app_nil_r, <- Es. apply Forall2_app; [exact Hm|].
        rewrite (endf_ink _ _ Hr). apply relm_same. apply relf_adj; assumption.
      * intros _. rewrite render_app_last by (destruct ts0; discriminate). apply endf_ink, ink_last_app, Hrl.
      * rewrite app_last_snoc. apply Forall_app. split; [exact Ht|]. constructor; [|constructor]. intros _. cbn [t_text].
        right. split; [rewrite rep_S; eexists; eexists; split; [reflexivity|reflexivity]|]. apply ink_last_app, Hrl.
  - intros E. eapply split_tail_keeps; eassumption.
Qed.

(** * Links *)

Lemma relm_strip_first p q s : relf p q -> s = [] \/ ink_first s -> Forall2 relm (marks p (strip s)) (marks q s).
Proof.
  intros H [->|Hs]; [constructor|].
  assert (Hb : blank s = false).
  { destruct Hs as (c & a & -> & Hc). apply ink_ne_blank. cbn. unfold not_space. rewrite Hc. discriminate. }
  apply (relm_strip p q false s Hb). rewrite hdf_ink by exact Hs. exact H.
Qed.

Lemma endf_space q s : endf q s <> Fs -> (exists c, is_space c = true /\ exists t, s = t ++ [c]) -> gapf (endf q s) = true.
Proof.
  intros H (c & Hc & t & ->). rewrite endf_app in *. cbn [endf] in *. rewrite Hc in *.
  destruct (endf q t); cbn in *; try congruence; destruct (N.eqb c c_nl); reflexivity.
Qed.

Lemma endf_lead2 b1 b2 : endf Fa (lead_str b1 ++ lead_str b2) = if b1 || b2 then Fg else Fa.
Proof. destruct b1, b2; reflexivity. Qed.

Lemma nth_last (s : str) n c : length s = n -> nth_error s (n - 1) = Some c -> exists t, s = t ++ [c].
Proof.
  intros <- H. destruct s as [|d s] using rev_ind; [discriminate|]. clear IHs. exists s.
  rewrite app_length in H. cbn in H. rewrite nth_error_app2 in H by lia.
  replace (length s + 1 - 1 - length s) with 0 in H by lia. cbn in H. injection H as <-. reflexivity.
Qed.

Lemma link_step_gaps text lead ts le m ts' le' p q :
  ~ exact -> links_apart text -> link_at text m -> le <= fst m -> fst m < snd m -> le <= length text ->
  relf (endf p (lead_str lead)) (hdf q text) -> (p = Fs <-> q = Fs) ->
  mid p q ts (firstn le text) -> Forall trim_tok ts ->
  (forall t ts0, ts = ts0 ++ [t] -> t_eval t = false) ->
  link_step text lead (ts, le) m = Ok (ts', le') ->
  le' = snd m /\ mid p q ts' (firstn (snd m) text) /\ Forall trim_tok ts'
  /\ (forall t ts0, ts' = ts0 ++ [t] -> t_eval t = false).
Proof.
  intros Hno HA Hm Hle Hlt Hlen H0 Hpq Hmid Ht He.
  destruct Hm as (x & g & y & lp & lq & lu & lr & o & cl & Et & Hl & Ha & Hb).
  destruct m as [a b]. cbn [fst snd] in *. unfold link_step.
  assert (Sg : slice text a b = g) by (rewrite Et, Ha, Hb; apply slice_mid). rewrite Sg.
  rewrite (split_link_at g lp lq lu lr o cl Hl) by (rewrite Et in HA; eapply links_apart_infix; exact HA).
  destruct Hl as [Eg K Hp _ _ _].
  set (P := lp ++ [c_lbr] ++ lq). set (Y := lu ++ [cl] ++ lr).
  assert (EP : g = P ++ [c_rbr; o] ++ Y) by (rewrite Eg; unfold P, Y; rewrite <- !app_assoc; reflexivity).
  assert (Hgf : ink_first P).
  { unfold P. destruct lp as [|c lp]; [exists c_lbr, lq; auto|]. exists c, (lp ++ [c_lbr] ++ lq). split; [reflexivity|].
    apply Forall_inv in Hp. apply Hp. }
  set (gap := slice text le a).
  assert (Fa' : firstn a text = firstn le text ++ gap) by (apply firstn_slice; lia).
  assert (Ex : firstn a text = x) by (rewrite Et, Ha, firstn_app, Nat.sub_diag, firstn_all, app_nil_r; reflexivity).
  assert (Hlast : forall c, nth_error text (a - 1) = Some c -> gap <> [] -> exists t, firstn a text = t ++ [c]).
  { intros c Hc Hg. apply (nth_last _ a); [rewrite Ex; auto|].
    assert (La : 0 < a).
    { destruct a; [|lia]. exfalso. apply Hg. unfold gap, slice. replace (0 - le) with 0 by lia. reflexivity. }
    rewrite Ex. rewrite Et in Hc. rewrite nth_error_app1 in Hc by lia. exact Hc. }
  match goal with |- context [let '(ts, lead_link) := ?X in _] =>
    assert (A : exists ts1 ll, X = (ts1, ll) /\ Forall2 relm (marks p (render ts1)) (marks q (firstn a text))
      /\ Forall trim_tok ts1 /\ relf (endf p (render ts1 ++ lead_str ll)) (endf q (firstn a text))) end.
  { destruct (blank gap) eqn:Eb; cbn [negb].
    - eexists. eexists. split; [reflexivity|].
      assert (Hsp : spaces gap) by (apply spaces_forallb, blank_spec, Eb).
      split; [rewrite Fa', marks_app, (marks_spaces _ gap Hsp), app_nil_r; apply Hmid|]. split; [exact Ht|].
      rewrite endf_app. destruct Hmid as [_ [[-> E0]|(Hn & Hr & _ & Hq & _)]].
      + cbn [nilb render map concat endf]. rewrite Fa', E0. cbn [app].
        rewrite Fa', E0 in Ex. cbn [app] in Ex. rewrite Et, <- Ex, hdf_spaces, hdf_ink in H0; [exact H0| |exact Hsp].
        rewrite EP. destruct Hgf as (c & w & -> & Hc). exists c. eexists. split; [reflexivity|exact Hc].
      + apply nilb_false in Hn. rewrite Hn. cbn [lead_str endf]. rewrite (endf_ink _ _ Hr), Fa', endf_app.
        apply relf_adj; [|contradiction]. rewrite endf_start. tauto.
    - eexists. eexists. split; [reflexivity|].
      set (dot := negb (nilb ts) && one_dot gap).
      set (ts1 := if dot then app_last ts [c_dot] else ts).
      set (gap1 := if dot then tl gap else gap).
      assert (A : exists pre1, firstn a text = pre1 ++ gap1 /\ mid p q ts1 pre1 /\ Forall trim_tok ts1
                    /\ (ts1 = [] -> gap1 = gap /\ pre1 = [])).
      { unfold ts1, gap1. destruct dot eqn:Ed.
        - unfold dot in Ed. apply andb_true_iff in Ed. destruct Ed as [En Ed]. apply negb_true_iff, nilb_false in En.
          apply one_dot_spec in Ed. destruct Ed as (u & Eu & _). exists (firstn le text ++ [c_dot]).
          rewrite Fa', Eu. split; [rewrite <- app_assoc; reflexivity|]. split; [apply mid_dot; assumption|].
          destruct (exists_last En) as (ts0 & t & ->). rewrite app_last_snoc. apply Forall_app in Ht. split.
          + apply Forall_app. split; [apply Ht|].
            constructor; [|constructor]. intros E. cbn [t_eval] in E. rewrite (He t ts0 eq_refl) in E. discriminate.
          + destruct ts0; discriminate.
        - exists (firstn le text). split; [exact Fa'|]. split; [exact Hmid|]. split; [exact Ht|]. intros E0.
          split; [reflexivity|]. apply (mid_ne _ _ _ _ Hmid). exact E0. }
      destruct A as (pre1 & Ep & Hm1 & Ht1 & Hg1).
      assert (Hll : match nth_error text (a - 1) with Some c => N.eqb c c_sp | None => false end = true ->
                    exists t, firstn a text = t ++ [c_sp]).
      { destruct (nth_error text (a - 1)) as [c|] eqn:En; [|discriminate]. intros E. apply N.eqb_eq in E. subst c.
        apply Hlast; [reflexivity|]. intros E. rewrite E in Eb. discriminate. }
      set (ll := match nth_error text (a - 1) with Some c => N.eqb c c_sp | None => false end) in *.
      destruct (blank gap1) eqn:Eb1.
      + (* after the dot there is nothing but whitespace *)
        assert (Es : strip gap1 = []) by (apply nilb_true; exact Eb1). rewrite Es.
        assert (Hsp : spaces gap1) by (apply spaces_forallb, blank_spec, Eb1).
        destruct Hm1 as [Hm1 [[E1 _]|(Hn1 & Hr1 & _ & Hq1 & _)]].
        { exfalso. rewrite (proj1 (Hg1 E1)) in Eb1. congruence. }
        apply nilb_false in Hn1. rewrite Hn1.
        rewrite Ep in *. split; [|split].
        * rewrite render_app, render_one. unfold render1. cbn [t_lead t_text]. rewrite app_nil_r.
          rewrite !marks_app, (marks_spaces _ gap1 Hsp), (marks_spaces _ (lead_str _)), !app_nil_r by
            (destruct (startswith [c_sp] gap1); repeat constructor). exact Hm1.
        * apply Forall_app. split; [exact Ht1|]. constructor; [|constructor]. intros _. left. auto.
        * rewrite render_app, render_one. unfold render1. cbn [t_lead t_text].
          rewrite app_nil_r, <- app_assoc, !endf_app, (endf_ink _ _ Hr1), <- !endf_app, endf_lead2.
          assert (Hne : endf q (pre1 ++ gap1) <> Fs) by (rewrite endf_app, endf_start; tauto).
          destruct (startswith [c_sp] gap1 || ll) eqn:Eor.
          -- assert (G : gapf (endf q (pre1 ++ gap1)) = true).
             { apply endf_space; [exact Hne|]. apply orb_true_iff in Eor. destruct Eor as [Eo|Eo].
               - apply startswith_spec in Eo. destruct Eo as (t & Eo).
                 assert (Hg : gap1 <> []) by (rewrite Eo; discriminate).
                 destruct (exists_last Hg) as (t' & c & Ec). exists c. split.
                 + rewrite Ec in Hsp. apply Forall_app in Hsp. destruct Hsp as [_ Hsp]. apply Forall_inv in Hsp. exact Hsp.
                 + exists (pre1 ++ t'). rewrite Ec, app_assoc. reflexivity.
               - exists c_sp. split; [reflexivity|]. apply Hll. exact Eo. }
             unfold relf. rewrite G. cbn. split; [split; congruence|]. tauto.
          -- apply relf_adj; [exact Hne|contradiction].
      + rewrite Ep in *. split; [|split].
        * apply mid_text; [exact Hm1|exact Eb1| |contradiction]. intros E1. destruct (Hg1 E1) as [E2 E3].
          rewrite E3 in Ex. cbn [app] in Ex. rewrite Et, <- Ex, hdf_nonblank in H0 by exact Eb1. exact H0.
        * apply Forall_app. split; [exact Ht1|]. constructor; [|constructor]. intros _. apply trim_strip. exact Eb1.
        * rewrite endf_app, (endf_ink _ _ (render_text_last _ _ _ _ Eb1)).
          assert (Hne : endf q (pre1 ++ gap1) <> Fs).
          { rewrite endf_start. intros [_ E]. apply (f_equal (map snd)) in E. rewrite marks_ink in E. cbn [map] in E.
            apply ink_ne_blank in Eb1. rewrite ink_app in E. apply app_eq_nil in E. tauto. }
          destruct ll eqn:Ell.
          -- assert (G : gapf (endf q (pre1 ++ gap1)) = true).
             { apply endf_space; [exact Hne|]. exists c_sp. split; [reflexivity|]. apply Hll. reflexivity. }
             unfold relf. rewrite G. cbn. split; [split; congruence|]. tauto.
          -- apply relf_adj; [exact Hne|contradiction]. }
  destruct A as (ts1 & ll & -> & A1 & A2 & A3). cbn [bind]. intros E. injection E as <- <-.
  split; [reflexivity|].
  assert (Fb : firstn b text = firstn a text ++ P ++ [c_rbr; o] ++ Y).
  { rewrite (firstn_slice text a b) by lia. rewrite Sg, EP. reflexivity. }
  assert (Ho : is_space o = false) by (destruct K as [[-> _]|[-> _]]; reflexivity).
  assert (Er : render (ts1 ++ [Tok (strip P ++ [c_rbr; o]) ll true; Tok (strip Y) false false])
               = render ts1 ++ lead_str ll ++ strip P ++ [c_rbr; o] ++ strip Y).
  { rewrite render_app. f_equal. unfold render, render1. cbn [map concat t_lead t_text lead_str app].
    rewrite app_nil_r, <- !app_assoc. reflexivity. }
  assert (HsP : ink_first (strip P) /\ ink_last (strip P)).
  { apply strip_ends. destruct Hgf as (c & w & Ew & Hc). rewrite Ew. apply ink_ne_blank. cbn. unfold not_space.
    rewrite Hc. discriminate. }
  split; [|split].
  - split.
    + rewrite Er, Fb. rewrite (app_assoc (render ts1)), !(marks_app _ _ (_ ++ [_; _] ++ _)).
      apply Forall2_app.
      * rewrite marks_app, (marks_spaces _ (lead_str ll)), app_nil_r by (destruct ll; repeat constructor). exact A1.
      * rewrite !(marks_app _ _ ([_; _] ++ _)). apply Forall2_app; [apply relm_strip_first; auto|].
        rewrite !(marks_app _ _ (strip Y)), !(marks_app _ _ Y). apply Forall2_app.
        -- apply relm_same. rewrite (endf_ink _ _ (proj2 HsP)). apply relf_adj; [|contradiction].
           destruct Hgf as (c & w & -> & Hc). cbn [endf]. rewrite Hc. rewrite endf_start. intros [? _]. discriminate.
        -- cbn [endf]. change (is_space c_rbr) with false. rewrite Ho. destruct (blank Y) eqn:EbY.
           ++ assert (Es : strip Y = []) by (apply nilb_true; exact EbY). rewrite Es, (marks_spaces _ Y); [constructor|].
              apply spaces_forallb, blank_spec, EbY.
           ++ apply (relm_strip Fa Fa false Y EbY). cbn [lead_str endf].
              assert (G := relf_first Fa Y ltac:(discriminate) ltac:(contradiction)).
              apply relf_adj; [|contradiction]. destruct G as (G & _). intros E. apply G in E.
              destruct (startswith _ _); discriminate.
    + right. split; [destruct ts1; discriminate|]. rewrite Er, Fb.
      split; [|split; [destruct (firstn a text); [|discriminate]; destruct Hgf as (c & w & -> & _); discriminate|
               split; [|contradiction]]].
      * do 2 apply ink_last_app. destruct (blank Y) eqn:EbY.
        -- assert (Es : strip Y = []) by (apply nilb_true; exact EbY). rewrite Es, app_nil_r. apply ink_last_app.
           exists [c_rbr], o. auto.
        -- apply ink_last_app, ink_last_app. apply strip_ends. exact EbY.
      * rewrite endf_start. intros [_ E]. apply (f_equal (map snd)) in E. rewrite marks_ink in E. cbn [map] in E.
        rewrite !ink_app in E. destruct (ink (firstn a text)); [|discriminate]. destruct (ink P); discriminate.
  - apply Forall_app. split; [exact A2|]. constructor; [|constructor; [|constructor]].
    + intros _. right. cbn [t_text]. destruct HsP as [(c & w & -> & Hc) _]. split.
      * exists c. eexists. split; [reflexivity|exact Hc].
      * apply ink_last_app. exists [c_rbr], o. auto.
    + intros E. discriminate.
  - intros t ts0 E. change [?u; ?v] with ([u] ++ [v]) in E. rewrite app_assoc in E. apply app_inj_tail in E.
    destruct E as [_ <-]. reflexivity.
Qed.

Lemma link_fold_gaps text lead ms p q : ~ exact -> links_apart text -> Forall (link_at text) ms ->
  relf (endf p (lead_str lead)) (hdf q text) -> (p = Fs <-> q = Fs) ->
  forall ts le ts' le',
  chain (length text) le ms -> le <= length text ->
  mid p q ts (firstn le text) -> Forall trim_tok ts ->
  (forall t ts0, ts = ts0 ++ [t] -> t_eval t = false) ->
  foldM (link_step text lead) ms (ts, le) = Ok (ts', le') ->
  le' <= length text /\ mid p q ts' (firstn le' text) /\ Forall trim_tok ts'
  /\ (forall t ts0, ts' = ts0 ++ [t] -> t_eval t = false).
Proof.
  intros Hno HA H H0 Hpq. induction H as [|m ms Hm H IH]; intros ts le ts' le' HC Hle Hmid Ht He E.
  - apply ok_inj in E. injection E as <- <-. auto.
  - cbn [chain] in HC. destruct HC as (H1 & H2 & H3 & HC). cbn [foldM] in E.
    apply bind_ok in E. destruct E as ([ts1 le1] & E1 & E).
    destruct (link_step_gaps _ _ _ _ _ _ _ p q Hno HA Hm H1 H2 Hle H0 Hpq Hmid Ht He E1) as (-> & G1 & G2 & G3).
    eapply IH; [exact HC|exact H3|exact G1|exact G2|exact G3|exact E].
Qed.

Lemma link_split_keeps text lead ts p q :
  (exact -> spacing text) -> (exact -> link_matches text = []) -> links_apart text ->
  relf (endf p (lead_str lead)) (hdf q text) -> (p = Fs <-> q = Fs) ->
  link_split text lead = Ok ts ->
  Forall2 relm (marks p (render ts)) (marks q text)
  /\ (ink_last text -> endf p (render ts) = Fa) /\ Forall trim_tok ts.
Proof.
  intros Hx Hl HA H0 Hpq E. unfold link_split in E. apply bind_ok in E. destruct E as ([ts1 le] & E1 & E).
  assert (G : le <= length text /\ mid p q ts1 (firstn le text) /\ Forall trim_tok ts1
    /\ (forall t ts0, ts1 = ts0 ++ [t] -> t_eval t = false)).
  { destruct (link_matches text) as [|m ms] eqn:Em.
    - apply ok_inj in E1. injection E1 as <- <-. split; [lia|]. cbn [firstn]. split; [split; [constructor|auto]|].
      split; [constructor|]. intros t [|? ?]; discriminate.
    - assert (Hno : ~ exact) by (intros X; specialize (Hl X); discriminate). rewrite <- Em in *.
      eapply (link_fold_gaps text lead (link_matches text) p q Hno HA (link_matches_at text) H0 Hpq [] 0 ts1 le);
        [apply link_matches_chain; exact HA|lia|split; [constructor|auto]|constructor|intros t [|? ?]; discriminate|exact E1]. }
  destruct G as (G1 & G2 & G3 & G4).
  assert (Ll : length (firstn le text) = le) by (apply firstn_length_le; exact G1). rewrite <- Ll in E at 2.
  eapply split_tail_keeps; [|exact G2|exact Hx|exact H0|exact G3|exact G4|exact E].
  symmetry. apply firstn_skipn.
Qed.

(** * HTML line breaks *)

Lemma html_ends g : den HTML_NEWLINE_REGEX g -> (exists x, g = c_lt :: x) /\ ink_last g.
Proof.
  intros H. apply html_den in H. cbn in H.
  repeat destruct H as [<-|H]; try destruct H; (split; [eexists; reflexivity|]).
  - exists (lit "<br"), c_gt. split; reflexivity.
  - exists (lit "<br/"), c_gt. split; reflexivity.
  - exists (lit "<br "), c_gt. split; reflexivity.
  - exists (lit "<br /"), c_gt. split; reflexivity.
Qed.

Lemma newline_step_gaps text lead pre gap g rest ts ts' le p q :
  text = pre ++ gap ++ g ++ rest -> den HTML_NEWLINE_REGEX g ->
  (exact -> spacing text) -> relf (endf p (lead_str lead)) (hdf q text) -> (p = Fs <-> q = Fs) ->
  mid p q ts pre -> Forall trim_tok ts ->
  newline_step text lead (ts, length pre)
    (length pre + length gap, length pre + length gap + length g) = (ts', le) ->
  mid p q ts' (pre ++ gap ++ g) /\ Forall trim_tok ts'.
Proof.
  intros Et Hg Hx H0 Hpq Hmid Ht. destruct (html_ends g Hg) as [(x & Egx) Hgl].
  assert (Hgf : ink_first g) by (exists c_lt, x; auto).
  assert (Sg : slice text (length pre) (length pre + length gap) = gap).
  { rewrite Et. apply slice_mid. }
  assert (Sm : slice text (length pre + length gap) (length pre + length gap + length g) = g).
  { rewrite Et, app_assoc, <- app_length. apply slice_mid. }
  unfold newline_step. rewrite Sg, Sm.
  assert (Hld : match nth_error text (length pre) with Some c => N.eqb c c_sp | None => false end
                = startswith [c_sp] gap).
  { rewrite Et, nth_error_app2, Nat.sub_diag by lia. destruct gap as [|c gap]; cbn [app nth_error].
    - rewrite Egx. reflexivity.
    - cbn [startswith]. rewrite (N.eqb_sym c_sp c). destruct (N.eqb c c_sp), gap; reflexivity. }
  rewrite Hld.
  assert (Hs : exact -> spacing gap).
  { intros X. specialize (Hx X). rewrite Et in Hx. apply spacing_app in Hx. destruct Hx as [_ Hx].
    apply spacing_app in Hx. apply Hx. }
  assert (Hend : forall ts1, Forall2 relm (marks p (render ts1)) (marks q (pre ++ gap)) ->
    forall ld, relf (endf p (render ts1 ++ lead_str ld)) (endf q (pre ++ gap)) ->
    mid p q (ts1 ++ [Tok g ld false]) (pre ++ gap ++ g)).
  { intros ts1 H1 ld H2. split.
    - rewrite render_app, render_one, (app_assoc pre), (marks_app q (pre ++ gap)), (marks_app p (render ts1)).
      apply Forall2_app; [exact H1|]. unfold render1. cbn [t_lead t_text]. rewrite marks_app.
      rewrite (marks_spaces _ (lead_str ld)) by (destruct ld; repeat constructor). cbn [app].
      apply relm_same. rewrite <- endf_app. exact H2.
    - right. split; [destruct ts1; discriminate|].
      split; [rewrite render_app, render_one; apply ink_last_app; unfold render1; cbn [t_lead t_text]; apply ink_last_app, Hgl|].
      split; [rewrite Egx; destruct pre, gap; discriminate|].
      rewrite (endf_ink q) by (apply ink_last_app, ink_last_app, Hgl). split; [discriminate|auto]. }
  destruct (blank gap) eqn:Eb; cbn [negb]; intros E; apply (f_equal fst) in E; cbn [fst] in E; subst ts'.
  - assert (Hsp : spaces gap) by (apply spaces_forallb, blank_spec, Eb).
    split; [|apply Forall_app; split; [exact Ht|]; constructor; [intros E; discriminate|constructor]].
    apply Hend; [rewrite marks_app, (marks_spaces _ gap Hsp), app_nil_r; apply Hmid|].
    rewrite !endf_app. destruct Hmid as [_ [[-> E0]|(Hn & Hr & _ & Hq & Hqe)]].
    + cbn [nilb render map concat endf]. rewrite E0 in *. cbn [app endf] in *.
      rewrite Et, hdf_spaces, hdf_ink in H0; [exact H0| |exact Hsp]. rewrite Egx. exists c_lt. eexists. split; reflexivity.
    + apply nilb_false in Hn. rewrite Hn, (endf_ink _ _ Hr).
      assert (G := relf_first (endf q pre) (gap ++ g) Hq).
      rewrite hdf_spaces, hdf_ink in G by assumption.
      assert (Esw : startswith [c_sp] (gap ++ g) = startswith [c_sp] gap) by (destruct gap; [rewrite Egx|]; reflexivity).
      rewrite Esw in G. apply G. intros X. split; [auto|]. specialize (Hx X). rewrite Et in Hx.
      rewrite app_assoc in Hx. rewrite app_assoc in Hx. apply spacing_app in Hx. destruct Hx as [Hx _].
      rewrite <- app_assoc in Hx. apply spacing_app in Hx. apply Hx.
  - split; [|apply Forall_app; split; [exact Ht|]; constructor; [intros _; apply trim_strip; exact Eb|constructor; [intros E; discriminate|constructor]]].
    change [Tok (strip gap) (if nilb ts then lead else startswith [c_sp] gap) true; Tok g (endswith [c_sp] gap) false]
      with ([Tok (strip gap) (if nilb ts then lead else startswith [c_sp] gap) true] ++ [Tok g (endswith [c_sp] gap) false]).
    rewrite (app_assoc ts). apply Hend.
    + apply mid_text; [exact Hmid|exact Eb| |exact Hs]. intros E1.
      rewrite (proj1 (mid_ne _ _ _ _ Hmid) E1) in Et. cbn [app] in Et. rewrite Et in H0.
      rewrite hdf_nonblank in H0 by exact Eb. exact H0.
    + rewrite endf_app, (endf_ink _ _ (render_text_last _ _ _ _ Eb)), endf_app. apply relf_last.
      * rewrite endf_start. intros [_ E]. apply (f_equal (map snd)) in E. rewrite marks_ink in E. cbn [map] in E.
        apply ink_ne_blank in Eb. congruence.
      * intros X. auto.
Qed.

Lemma newline_fold_gaps text lead p q pos s ms :
  (exact -> spacing text) -> relf (endf p (lead_str lead)) (hdf q text) -> (p = Fs <-> q = Fs) ->
  scan (rmatch HTML_NEWLINE_REGEX) pos s ms ->
  forall pre ts, pos = length pre -> text = pre ++ s -> mid p q ts pre -> Forall trim_tok ts ->
  exists pre' s' ts', fold_left (newline_step text lead) ms (ts, pos) = (ts', length pre')
    /\ text = pre' ++ s' /\ mid p q ts' pre' /\ Forall trim_tok ts'.
Proof.
  intros Hx H0 Hpq H. induction H as [pos s Hs|pos gap g rest ms Hno Hg Hm Hsc IH];
    intros pre ts -> Et Hmid Ht.
  - exists pre, s, ts. auto.
  - assert (Hd : den HTML_NEWLINE_REGEX g).
    { apply rmatch_den in Hm. destruct Hm as [_ Hm]. rewrite firstn_app, firstn_all, Nat.sub_diag in Hm.
      cbn [firstn] in Hm. rewrite app_nil_r in Hm. exact Hm. }
    assert (L : length pre + length gap + length g = length (pre ++ gap ++ g))
      by (rewrite !app_length; lia).
    destruct (newline_step text lead (ts, length pre)
      (length pre + length gap, length pre + length gap + length g)) as [ts1 le] eqn:E.
    assert (El : le = length pre + length gap + length g).
    { unfold newline_step in E. destruct (negb _) in E; injection E as _ <-; reflexivity. }
    destruct (newline_step_gaps text lead pre gap g rest ts ts1 le p q Et Hd Hx H0 Hpq Hmid Ht E) as [G1 G2].
    cbn [fold_left]. rewrite E, El. apply (IH (pre ++ gap ++ g)); auto. rewrite Et, <- !app_assoc. reflexivity.
Qed.

Lemma newline_split_keeps text lead ts p q :
  (exact -> spacing text) -> relf (endf p (lead_str lead)) (hdf q text) -> (p = Fs <-> q = Fs) ->
  newline_split text lead = Ok ts ->
  Forall2 relm (marks p (render ts)) (marks q text)
  /\ (ink_last text -> endf p (render ts) = Fa) /\ Forall trim_tok ts.
Proof.
  intros Hx H0 Hpq. unfold newline_split.
  destruct (newline_fold_gaps text lead p q 0 text _ Hx H0 Hpq (finditer_scan _ text) [] [] eq_refl eq_refl)
    as (pre & s & ts1 & E & Et & Hmid & Ht); [split; [constructor|auto]|constructor|].
  rewrite E, Et, skipn_pre, <- Et. clear E. intros E.
  assert (En : (length pre =? 0) = nilb ts1).
  { assert (G := mid_ne _ _ _ _ Hmid). destruct pre, ts1; cbn; try reflexivity; exfalso; intuition congruence. }
  rewrite En in E. destruct (blank s) eqn:Eb; cbn [negb] in E; apply ok_inj in E; subst ts.
  - split; [|split; [|exact Ht]].
    + rewrite Et, marks_app, (marks_spaces _ s); [rewrite app_nil_r; apply Hmid|].
      apply spaces_forallb, blank_spec, Eb.
    + intros Hl. destruct Hmid as [_ [[-> ->]|(_ & Hl' & _)]]; [|apply endf_ink; exact Hl'].
      cbn [app] in Et. subst text. apply ink_last_nonblank in Hl. congruence.
  - split; [|split].
    + rewrite Et. apply mid_text; [exact Hmid|exact Eb| |].
      * intros E1. rewrite (proj1 (mid_ne _ _ _ _ Hmid) E1) in Et. cbn [app] in Et. subst text. exact H0.
      * intros X. specialize (Hx X). rewrite Et in Hx. apply spacing_app in Hx. apply Hx.
    + intros _. apply endf_ink, render_text_last, Eb.
    + apply Forall_app. split; [exact Ht|]. constructor; [|constructor]. intros _. apply trim_strip. exact Eb.
Qed.

(** * Spaces *)

Definition gap_or_start (f : flag) : Prop := f = Fs \/ gapf f = true.

Lemma after_gap f c : gap_or_start (after_space f c).
Proof. unfold gap_or_start. destruct f; cbn; auto; destruct (N.eqb c c_nl); auto. Qed.

Lemma after_start f c : after_space f c = Fs <-> f = Fs.
Proof. destruct f; cbn; split; try congruence; destruct (N.eqb c c_nl); congruence. Qed.

Lemma hdf_gap f s : gap_or_start f -> gap_or_start (hdf f s) /\ (hdf f s = Fs <-> f = Fs).
Proof.
  revert f. induction s as [|c s IH]; intros f H; cbn [hdf]; [tauto|]. destruct (is_space c); [|tauto].
  destruct (IH (after_space f c) (after_gap f c)) as [H1 H2]. split; [exact H1|]. rewrite H2. apply after_start.
Qed.

Lemma relf_gaps x y : gap_or_start x -> gap_or_start y -> (x = Fs <-> y = Fs) -> relf x y.
Proof. unfold gap_or_start, relf. destruct x, y; cbn; intuition congruence. Qed.

Definition space_inv (p q : flag) (ts : list tok) (pre : str) : Prop :=
  Forall2 relm (marks p (render ts)) (marks q pre)
  /\ (ts = [] -> spaces pre)
  /\ (ink_last pre -> endf p (render ts) = Fa).

Lemma ink_last_space a c : is_space c = true -> ~ ink_last (a ++ [c]).
Proof. intros Hc (b & d & E & Hd). apply app_inj_tail in E. destruct E. congruence. Qed.

Lemma ink_last_spaces ws : spaces ws -> ~ ink_last ws.
Proof.
  intros H (b & d & -> & Hd). apply Forall_app in H. destruct H as [_ H]. apply Forall_inv in H. congruence.
Qed.

Lemma space_word text lead p q pre0 w rest ts :
  text = pre0 ++ w ++ rest -> relf (endf p (lead_str lead)) (hdf q text) -> (p = Fs <-> q = Fs) ->
  Forall2 relm (marks p (render ts)) (marks q pre0) -> (ts = [] -> spaces pre0) ->
  (ts <> [] -> exists pre, pre0 = pre ++ [c_sp]) ->
  space_inv p q (space_step lead ts w) (pre0 ++ w).
Proof.
  intros Et H0 Hpq HM Hn Hs.
  assert (Hnl : ~ ink_last pre0).
  { destruct ts as [|t ts]; [apply ink_last_spaces, Hn; reflexivity|].
    destruct (Hs ltac:(discriminate)) as (pre & ->). apply ink_last_space. reflexivity. }
  unfold space_step. destruct (nilb w) eqn:Ew.
  - apply nilb_true in Ew. subst w. rewrite app_nil_r. split; [exact HM|]. split; [exact Hn|]. contradiction.
  - apply nilb_false in Ew. split; [|split; [destruct ts; discriminate|]].
    + rewrite render_app, render_one, !marks_app. apply Forall2_app; [exact HM|]. unfold render1. cbn [t_lead t_text].
      destruct (blank w) eqn:Eb.
      * assert (Es : strip w = []) by (apply nilb_true; exact Eb). rewrite Es, app_nil_r.
        rewrite (marks_spaces _ w) by (apply spaces_forallb, blank_spec, Eb).
        rewrite marks_spaces; [constructor|]. destruct (if nilb ts then lead else true); repeat constructor.
      * apply relm_strip; [exact Eb|]. destruct ts as [|t0 ts0] eqn:Ets.
        -- cbn [nilb render map concat endf]. specialize (Hn eq_refl).
           rewrite Et, hdf_spaces, hdf_nonblank in H0 by assumption. exact H0.
        -- rewrite <- Ets in *. cbn [nilb]. assert (Hne : ts <> []) by (rewrite Ets; discriminate).
           apply nilb_false in Hne. rewrite Hne. apply nilb_false in Hne.
           destruct (Hs Hne) as (pre & Epre). cbn [lead_str endf]. change (is_space c_sp) with true. cbn match.
           assert (Gq : gap_or_start (endf q pre0)).
           { rewrite Epre, endf_app. cbn [endf]. change (is_space c_sp) with true. cbn match. apply after_gap. }
           destruct (hdf_gap _ w Gq) as [G1 G2]. apply relf_gaps; [apply after_gap|exact G1|].
           rewrite G2, after_start. apply relm_marks_nil; assumption.
    + intros Hl. destruct (blank w) eqn:Eb.
      * exfalso. apply (ink_last_suffix pre0 w Ew) in Hl. apply ink_last_nonblank in Hl. congruence.
      * apply endf_ink, render_text_last, Eb.
Qed.

Lemma space_fold_gaps text lead p q ws :
  relf (endf p (lead_str lead)) (hdf q text) -> (p = Fs <-> q = Fs) ->
  forall ts pre, text = pre ++ concat (map (fun w => c_sp :: w) ws) -> space_inv p q ts pre ->
  space_inv p q (fold_left (space_step lead) ws ts) text.
Proof.
  intros H0 Hpq. induction ws as [|w ws IH]; intros ts pre Et Hi.
  - cbn [map concat] in Et. rewrite app_nil_r in Et. subst pre. exact Hi.
  - cbn [fold_left]. apply (IH _ ((pre ++ [c_sp]) ++ w)).
    + rewrite Et. cbn [map concat]. rewrite <- !app_assoc. reflexivity.
    + destruct Hi as (H1 & H2 & H3).
      apply (space_word text lead p q (pre ++ [c_sp]) w (concat (map (fun w => c_sp :: w) ws)) ts).
      * rewrite Et. cbn [map concat]. rewrite <- !app_assoc. reflexivity.
      * exact H0.
      * exact Hpq.
      * rewrite marks_app, (marks_spaces _ [c_sp]), app_nil_r by (repeat constructor). exact H1.
      * intros E. apply Forall_app. split; [apply H2; exact E|repeat constructor].
      * eauto.
Qed.

Lemma join_concat c (w : str) ws : str_join [c] (w :: ws) = w ++ concat (map (fun w => c :: w) ws).
Proof.
  revert w. induction ws as [|v ws IH]; intros w; [cbn; rewrite app_nil_r; reflexivity|].
  rewrite str_join_cons by discriminate. rewrite IH. cbn [map concat app]. reflexivity.
Qed.

Lemma space_split_keeps text lead ts p q :
  relf (endf p (lead_str lead)) (hdf q text) -> (p = Fs <-> q = Fs) ->
  space_split text lead = Ok ts ->
  Forall2 relm (marks p (render ts)) (marks q text)
  /\ (ink_last text -> endf p (render ts) = Fa).
Proof.
  intros H0 Hpq E. unfold space_split in E. apply ok_inj in E. subst ts.
  assert (Ej := join_split_on c_sp text). destruct (split_on c_sp text) as [|w ws] eqn:Es.
  { exfalso. eapply split_on_ne. exact Es. }
  rewrite join_concat in Ej. cbn [fold_left].
  destruct (space_fold_gaps text lead p q ws H0 Hpq (space_step lead [] w) w) as (G1 & _ & G3); auto.
  apply (space_word text lead p q [] w (concat (map (fun w => c_sp :: w) ws)) []); auto.
  - constructor.
  - intros _. constructor.
  - congruence.
Qed.

(** * All passes *)

Lemma trim_in t ts : Forall trim_tok ts -> In t ts -> trim_tok t.
Proof. intros H Hin. rewrite Forall_forall in H. auto. Qed.

End Gaps.
