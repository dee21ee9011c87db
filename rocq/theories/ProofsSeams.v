(** The whitespace of the wrapped text and of the text. *)
From Coq Require Import String.
From Verif Require Import Py Regex Utils TextWrap Lines Base SpecLines SpecParser SpecWrap SpecFormat ProofsLines
  ProofsRegex ProofsScan ProofsWrap ProofsTokens ProofsParser ProofsLinks ProofsPieces ProofsApart ProofsFilled
  ProofsChars ProofsGaps.

(** * Flags and positions *)

Lemma marks_length p s : length (marks p s) = length (ink s).
Proof. rewrite <- (marks_ink p s), map_length. reflexivity. Qed.

Lemma endf_adj ws : spaces ws -> ws <> [] -> endf Fa ws = if in_dec N.eq_dec c_nl ws then Fn else Fg.
Proof.
  intros H Hn.
  assert (G : forall f, f = Fa \/ f = Fg -> endf f ws = if in_dec N.eq_dec c_nl ws then Fn else match ws with [] => f | _ => Fg end).
  { clear Hn. induction H as [|c ws Hc H IH]; intros f Hf.
    - cbn. reflexivity.
    - cbn [endf]. rewrite Hc. destruct (N.eqb_spec c c_nl) as [->|Hne].
      + assert (E : after_space f c_nl = Fn) by (destruct Hf as [->| ->]; reflexivity). rewrite E.
        assert (F : forall ws, spaces ws -> endf Fn ws = Fn).
        { clear. intros ws H. induction H as [|c ws Hc H IH]; [reflexivity|]. cbn [endf]. rewrite Hc. exact IH. }
        rewrite F by exact H. destruct (in_dec N.eq_dec c_nl (c_nl :: ws)) as [_|K]; [reflexivity|].
        exfalso. apply K. left. reflexivity.
      + assert (E : after_space f c = Fg) by (apply N.eqb_neq in Hne; destruct Hf as [->| ->]; cbn [after_space]; rewrite Hne; reflexivity).
        rewrite E, IH by auto. destruct (in_dec N.eq_dec c_nl ws) as [K|K], (in_dec N.eq_dec c_nl (c :: ws)) as [K'|K'];
          try reflexivity.
        * exfalso. apply K'. right. exact K.
        * exfalso. destruct K' as [K'|K']; [congruence|contradiction].
        * destruct ws; reflexivity. }
  rewrite G by auto. destruct ws; [congruence|reflexivity].
Qed.

(** Whitespace in front of the [i]th character. *)
Lemma gap_mark s i ws : gap_at s i ws ->
  exists c, nth_error (marks Fs s) i = Some (if in_dec N.eq_dec c_nl ws then Fn else Fg, c) /\ 0 < i.
Proof.
  intros (a & x & y & b & -> & Hx & Hy & Hs & Hn & <-). exists y. split.
  - rewrite app_assoc, marks_app, nth_error_app2 by (rewrite marks_length; lia).
    rewrite marks_length, Nat.sub_diag, marks_app, marks_spaces by exact Hs.
    rewrite (endf_ink Fs (a ++ [x])) by (exists a, x; auto). rewrite endf_adj by assumption.
    cbn [app marks]. rewrite Hy. reflexivity.
  - rewrite ink_app, app_length. cbn. unfold not_space. rewrite Hx. cbn. lia.
Qed.

Lemma mark_gap s : forall p i f c, nth_error (marks p s) i = Some (f, c) ->
  exists a ws b, s = a ++ ws ++ c :: b /\ is_space c = false /\ spaces ws /\ length (ink a) = i
    /\ ((a = [] /\ f = endf p ws) \/ (ink_last a /\ f = endf Fa ws)).
Proof.
  induction s as [|d s IH]; intros p i f c H; [destruct i; discriminate|]. cbn [marks] in H.
  destruct (is_space d) eqn:Ed.
  - destruct (IH _ _ _ _ H) as (a & ws & b & -> & Hc & Hs & Hi & [[-> Hf]|[Ha Hf]]).
    + exists [], (d :: ws), b. split; [reflexivity|]. split; [exact Hc|]. split; [constructor; assumption|].
      split; [exact Hi|]. left. split; [reflexivity|]. cbn [endf]. rewrite Ed. exact Hf.
    + exists (d :: a), ws, b. split; [reflexivity|]. split; [exact Hc|]. split; [exact Hs|].
      split; [cbn; unfold not_space; rewrite Ed; exact Hi|]. right. split; [|exact Hf].
      destruct Ha as (a' & x & -> & Hx). exists (d :: a'), x. auto.
  - destruct i as [|i].
    + injection H as <- <-. exists [], [], s. split; [reflexivity|]. split; [exact Ed|]. split; [constructor|].
      split; [reflexivity|]. left. auto.
    + cbn [nth_error] in H. destruct (IH _ _ _ _ H) as (a & ws & b & -> & Hc & Hs & Hi & Hor).
      exists (d :: a), ws, b. split; [reflexivity|]. split; [exact Hc|]. split; [exact Hs|].
      split; [unfold ink, not_space in *; cbn [filter]; rewrite Ed; cbn [negb length]; rewrite Hi; reflexivity|]. right.
      destruct Hor as [[-> Hf]|[Ha Hf]]; (split; [|exact Hf]).
      * exists [], d. auto.
      * destruct Ha as (a' & x & -> & Hx). exists (d :: a'), x. auto.
Qed.

Lemma endf_spaces_start ws : spaces ws -> endf Fs ws = Fs.
Proof. intros H. apply endf_start. split; [reflexivity|]. apply marks_spaces. exact H. Qed.

Lemma mark_gap_at s i f c : nth_error (marks Fs s) i = Some (f, c) -> gapf f = true ->
  exists ws, gap_at s i ws /\ (In c_nl ws <-> f = Fn).
Proof.
  intros H Hf. apply mark_gap in H. destruct H as (a & ws & b & -> & Hc & Hs & Hi & [[-> ->]|[Ha ->]]).
  - rewrite endf_spaces_start in Hf by exact Hs. discriminate.
  - assert (Hn : ws <> []) by (intros ->; discriminate). exists ws. split.
    + destruct Ha as (a' & x & -> & Hx). exists a', x, c, b. rewrite <- app_assoc. auto 8.
    + rewrite endf_adj by assumption. destruct (in_dec N.eq_dec c_nl ws); split; try tauto; discriminate.
Qed.

(** Only the first flag is the start. *)
Lemma mark_start s i c : nth_error (marks Fs s) i = Some (Fs, c) -> i = 0.
Proof.
  intros H. apply mark_gap in H. destruct H as (a & ws & b & -> & Hc & Hs & <- & [[-> _]|[Ha Hf]]); [reflexivity|].
  exfalso. assert (G := endf_start Fa ws). rewrite <- Hf in G. destruct (proj1 G eq_refl). discriminate.
Qed.

(** * Words *)

Definition word_marks (w : str) : list (bool * char) :=
  match w with [] => [] | c :: w' => (true, c) :: map (fun x => (false, x)) w' end.

Definition norm (m : flag * char) : bool * char := (match fst m with Fa => false | _ => true end, snd m).

Lemma norm_words s : forall p, p <> Fa -> map norm (marks p s) = concat (map word_marks (words s)).
Proof.
  induction s as [|c s IH]; intros p Hp; [reflexivity|]. cbn [marks words].
  destruct (is_space c) eqn:Ec.
  - apply IH. destruct p; cbn; try congruence; destruct (N.eqb c c_nl); discriminate.
  - assert (E0 : norm (p, c) = (true, c)) by (destruct p; try reflexivity; congruence).
    cbn [map]. rewrite E0. destruct s as [|d s]; [reflexivity|].
    destruct (is_space d) eqn:Ed.
    + cbn [map concat word_marks app]. f_equal. rewrite <- (IH Fg) by discriminate. cbn [marks]. rewrite Ed.
      cbn [after_space]. reflexivity.
    + specialize (IH Fg ltac:(discriminate)). cbn [marks] in *. rewrite Ed in *. cbn [map] in *.
      destruct (words (d :: s)) as [|w ws] eqn:Ew.
      * discriminate.
      * cbn [map concat] in *. destruct w as [|d' w].
        { exfalso. assert (G := words_not_space (d :: s)). rewrite Ew in G. apply Forall_inv in G. destruct G. congruence. }
        cbn [word_marks map app] in *. injection IH as <- IH. rewrite IH. reflexivity.
Qed.

Lemma word_marks_inj a b : Forall (fun w => w <> []) a -> Forall (fun w => w <> []) b ->
  concat (map word_marks a) = concat (map word_marks b) -> a = b.
Proof.
  revert b. induction a as [|w a IH]; intros b Ha Hb E.
  - destruct b as [|v b]; [reflexivity|]. apply Forall_inv in Hb. destruct v; [congruence|discriminate].
  - destruct b as [|v b]; [apply Forall_inv in Ha; destruct w; [congruence|discriminate]|].
    assert (Hw := Forall_inv Ha). assert (Hv := Forall_inv Hb). apply Forall_inv_tail in Ha, Hb.
    destruct w as [|c w]; [congruence|]. destruct v as [|d v]; [congruence|]. cbn [map concat word_marks app] in E.
    injection E as <- E.
    assert (G : forall w v x y, map (fun x => (false, x)) w ++ concat (map word_marks x)
                = map (fun x => (false, x)) v ++ concat (map word_marks y) ->
                Forall (fun w => w <> []) x -> Forall (fun w => w <> []) y ->
                w = v /\ concat (map word_marks x) = concat (map word_marks y)).
    { clear. induction w as [|c w IHw]; intros [|d v] x y E Hx Hy.
      - auto.
      - exfalso. destruct x as [|u x]; [discriminate|]. apply Forall_inv in Hx. destruct u; [congruence|discriminate].
      - exfalso. destruct y as [|u y]; [discriminate|]. apply Forall_inv in Hy. destruct u; [congruence|discriminate].
      - cbn [map app] in E. injection E as <- E. destruct (IHw v x y E Hx Hy) as [-> E2]. auto. }
    destruct (G w v a b E Ha Hb) as [-> E2]. f_equal. apply IH; assumption.
Qed.

(** * The passes *)

Section Passes.
Variable exact : Prop.

Lemma pass_keeps f ts r (Q : tok -> Prop) :
  (forall t r p q, Q t -> t_eval t = true -> f (t_text t) (t_lead t) = Ok r ->
     relf exact (endf p (lead_str (t_lead t))) (hdf q (t_text t)) -> (p = Fs <-> q = Fs) ->
     Forall2 (relm exact) (marks p (render r)) (marks q (t_text t))
     /\ (ink_last (t_text t) -> endf p (render r) = Fa)) ->
  (forall lead r, f [] lead = Ok r -> r = []) ->
  Forall Q ts -> Forall (trim_tok exact) ts -> split_pass f ts = Ok r ->
  Forall2 (relm exact) (marks Fs (render r)) (marks Fs (render ts)).
Proof.
  intros Hf Hnil HQ Ht E. eapply split_pass_keeps; [|exact Hnil|exact Ht|exact E|apply relf_refl].
  intros t Hin He r' Er p q Hpq Hr. rewrite Forall_forall in HQ. apply Hf; auto.
Qed.

Lemma pass_trim f ts r (Q : tok -> Prop) :
  (forall t r, Q t -> t_eval t = true -> f (t_text t) (t_lead t) = Ok r -> Forall (trim_tok exact) r) ->
  Forall Q ts -> split_pass f ts = Ok r -> Forall (trim_tok exact) r.
Proof.
  intros Hf H. revert r. induction H as [|t ts Ht H IH]; intros r E.
  - apply ok_inj in E. subst. constructor.
  - rewrite split_pass_cons in E. apply bind_ok in E. destruct E as (a & Ea & E).
    apply bind_ok in E. destruct E as (b & Eb & E). apply ok_inj in E. subst r.
    apply Forall_app. split; [|apply IH; exact Eb]. destruct (t_eval t) eqn:Et.
    + eapply Hf; eassumption.
    + apply ok_inj in Ea. subst a. constructor; [|constructor]. intros E. congruence.
Qed.

Lemma start_rel lead text : relf exact (endf Fs (lead_str lead)) (hdf Fs text).
Proof.
  assert (E : hdf Fs text = Fs) by (induction text as [|c s IH]; [reflexivity|]; cbn [hdf]; destruct (is_space c); [exact IH|reflexivity]).
  rewrite E. destruct lead; apply relf_refl.
Qed.

Lemma split_tail_nil lead r : split_tail [] [] 0 lead = Ok r -> r = [].
Proof. cbn. intros E. apply ok_inj in E. auto. Qed.

Lemma code_nil lead r : code_split [] lead = Ok r -> r = [].
Proof. cbn. intros E. apply ok_inj in E. auto. Qed.
Lemma link_nil lead r : link_split [] lead = Ok r -> r = [].
Proof. cbn. intros E. apply ok_inj in E. auto. Qed.
Lemma newline_nil lead r : newline_split [] lead = Ok r -> r = [].
Proof. cbn. intros E. apply ok_inj in E. auto. Qed.
Lemma space_nil lead r : space_split [] lead = Ok r -> r = [].
Proof. cbn. intros E. apply ok_inj in E. auto. Qed.

Definition no_joint (s : str) : Prop := forall a z b, In z [lit "]("; lit "]["] -> s <> a ++ z ++ b.

Lemma no_joint_links s : no_joint s -> link_matches s = [].
Proof.
  intros H. assert (G := link_matches_at s). destruct (link_matches s) as [|m ms]; [reflexivity|].
  exfalso. apply Forall_inv in G. destruct G as (x & g & y & p & q & u & r & o & cl & -> & [E K _ _ _ _] & _).
  apply (H (x ++ p ++ [c_lbr] ++ q) [c_rbr; o] ((u ++ [cl] ++ r) ++ y)).
  - destruct K as [[-> _]|[-> _]]; cbn; auto.
  - rewrite E, <- !app_assoc. reflexivity.
Qed.

Lemma linkless_joined text : linkless text -> no_joint (joined text).
Proof.
  intros H a z b Hz E.
  assert (G : z <> [] /\ Forall (fun c => is_space c = false) z).
  { cbn in Hz. repeat destruct Hz as [<-|Hz]; try (split; [discriminate|repeat constructor]). destruct Hz. }
  destruct (words_infix z a b (proj1 G) (proj2 G)) as (w & x & y & Hin & Ew).
  rewrite <- E, words_joined in Hin. exact (H w z x y Hin Hz Ew).
Qed.

Lemma spacing_joined text : plain_space text -> spacing (joined text).
Proof.
  intros H. unfold spacing, joined. apply Forall_str_join; [repeat constructor|]. apply Forall_map.
  assert (G1 := Forall_splitlines _ _ H). assert (G2 := splitlines_no_linebreak text).
  apply Forall_forall. intros l Hin. rewrite Forall_forall in G1, G2. apply Forall_strip.
  specialize (G1 l Hin). specialize (G2 l Hin). apply Forall_forall. intros c Hc Hs.
  rewrite Forall_forall in G1, G2. destruct (G1 c Hc Hs) as [E|E]; [exact E|]. specialize (G2 c Hc). cbn in G2. congruence.
Qed.

Lemma wrap_tokens_keeps text ts :
  (exact -> plain_space text) -> (exact -> linkless text) -> links_apart (joined text) ->
  wrap_tokens text = Ok ts ->
  Forall2 (relm exact) (marks Fs (render ts)) (marks Fs (joined text)).
Proof.
  unfold wrap_tokens. intros Hx Hl HA E. apply bind_ok in E. destruct E as (t1 & E1 & E).
  apply bind_ok in E. destruct E as (t2 & E2 & E). apply bind_ok in E. destruct E as (t3 & E3 & E4).
  assert (C1 := E1). apply code_pass_inv in C1. destruct C1 as [_ C1].
  assert (Hsp : exact -> spacing (joined text)) by (intros X; apply spacing_joined; auto).
  assert (K1 : Forall2 (relm exact) (marks Fs (render t1)) (marks Fs (joined text)) /\ Forall (trim_tok exact) t1).
  { assert (E1' := E1). rewrite split_pass_one in E1'.
    destruct (code_split_keeps exact (joined text) false t1 Fs Fs Hsp (start_rel _ _) ltac:(tauto) E1') as (G1 & _ & G3).
    auto. }
  destruct K1 as [K1 T1].
  set (P := fun c => exact -> is_space c = true -> c = c_sp).
  assert (Pi : forall c, is_inline c = true -> P c).
  { intros c H _. unfold is_inline in H. apply existsb_exists in H.
    destruct H as (x & Hin & Ex). apply N.eqb_eq in Ex. subst x. cbn in Hin.
    repeat destruct Hin as [<-|Hin]; try reflexivity; try discriminate. destruct Hin. }
  assert (P0 : Forall (fun t => Forall P (t_text t)) [Tok (joined text) false true]).
  { constructor; [|constructor]. cbn [t_text]. apply Forall_forall. intros c Hc X.
    specialize (Hsp X). unfold spacing in Hsp. rewrite Forall_forall in Hsp. auto. }
  assert (P1 : Forall (fun t => Forall P (t_text t)) t1).
  { eapply (okt_split_pass P); [exact (okt_code_split P Pi)|exact P0|exact E1]. }
  assert (P2 : Forall (fun t => Forall P (t_text t)) t2).
  { eapply (okt_split_pass P); [exact (okt_link_split P Pi)|exact P1|exact E2]. }
  assert (PS : forall s, Forall P s -> exact -> spacing s).
  { intros s H X. unfold spacing. eapply Forall_impl; [|exact H]. intros c Hc. apply Hc. exact X. }
  (* links *)
  set (Q := fun t => code_tok (joined text) t /\ Forall P (t_text t)).
  assert (HQ : Forall Q t1).
  { apply Forall_forall. intros t Hin. rewrite Forall_forall in C1, P1. split; auto. }
  assert (Hlink : forall t r p q, Q t -> t_eval t = true -> link_split (t_text t) (t_lead t) = Ok r ->
     relf exact (endf p (lead_str (t_lead t))) (hdf q (t_text t)) -> (p = Fs <-> q = Fs) ->
     Forall2 (relm exact) (marks p (render r)) (marks q (t_text t))
     /\ (ink_last (t_text t) -> endf p (render r) = Fa) /\ Forall (trim_tok exact) r).
  { intros t r p q [Hc Hp] He Er H0 Hpq. unfold code_tok in Hc. rewrite He in Hc. destruct Hc as (x & y & Ex & _).
    eapply link_split_keeps; [apply PS; exact Hp| | |exact H0|exact Hpq|exact Er].
    - intros X. apply no_joint_links. intros a z b Hz Ez. apply (linkless_joined text (Hl X) (x ++ a) z (b ++ y) Hz).
      rewrite Ex, Ez, <- !app_assoc. reflexivity.
    - eapply links_apart_infix. rewrite <- Ex. exact HA. }
  assert (K2 : Forall2 (relm exact) (marks Fs (render t2)) (marks Fs (render t1))).
  { eapply pass_keeps; [|exact link_nil|exact HQ|exact T1|exact E2]. intros t r p q H1 H2 H3 H4 H5.
    destruct (Hlink t r p q H1 H2 H3 H4 H5) as (G1 & G2 & _). auto. }
  assert (T2 : Forall (trim_tok exact) t2).
  { eapply pass_trim; [|exact HQ|exact E2]. intros t r H1 H2 H3.
    destruct (Hlink t r Fs Fs H1 H2 H3 (start_rel _ _) ltac:(tauto)) as (_ & _ & G). exact G. }
  (* HTML line breaks *)
  assert (K3 : Forall2 (relm exact) (marks Fs (render t3)) (marks Fs (render t2))).
  { eapply pass_keeps; [|exact newline_nil|exact P2|exact T2|exact E3]. intros t r p q H1 H2 H3 H4 H5.
    destruct (newline_split_keeps exact _ _ _ p q (PS _ H1) H4 H5 H3) as (G1 & G2 & _). auto. }
  assert (T3 : Forall (trim_tok exact) t3).
  { eapply pass_trim; [|exact P2|exact E3]. intros t r H1 H2 H3.
    destruct (newline_split_keeps exact _ _ _ Fs Fs (PS _ H1) (start_rel _ _) ltac:(tauto) H3) as (_ & _ & G). exact G. }
  (* spaces *)
  assert (K4 : Forall2 (relm exact) (marks Fs (render ts)) (marks Fs (render t3))).
  { eapply (pass_keeps space_split t3 ts (fun _ => True)); [|exact space_nil|apply Forall_forall; auto|exact T3|exact E4].
    intros t r p q _ H2 H3 H4 H5. eapply space_split_keeps; eassumption. }
  eapply relm_trans; [exact K4|]. eapply relm_trans; [exact K3|]. eapply relm_trans; [exact K2|exact K1].
Qed.

End Passes.

(** * Lines *)

Section Lines.
Variable K : flag -> flag -> Prop.
Variable sp : bool -> str.
Hypothesis sp_spaces : forall b, spaces (sp b).
Hypothesis K_space : forall x y c, K x y -> K (after_space x c) (after_space y c).
Hypothesis K_ink : K Fa Fa.
Hypothesis K_lead : forall x y b, K x y -> K (endf x (lead_str b)) (endf y (sp b)).
Variable K0 : flag -> flag -> Prop.
Hypothesis K_line : forall x y b, K0 x y -> K x (endf y (sp b)).
Hypothesis K_start : forall x y, (x = Fs \/ x = Fn) -> K x y -> K0 x y.
Hypothesis K_nl : forall x y, K x y -> K0 (after_space x c_nl) y.

Definition mark_rel (x y : flag * char) : Prop := snd x = snd y /\ K (fst x) (fst y).
Definition rend (ps : list piece) : str := concat (map (fun p => sp (snd p) ++ fst p) ps).

Lemma K_text s : forall x y, K x y -> Forall2 mark_rel (marks x s) (marks y s) /\ K (endf x s) (endf y s).
Proof.
  induction s as [|c s IH]; intros x y H; [split; [constructor|exact H]|]. cbn [marks endf].
  destruct (is_space c) eqn:Ec.
  - apply IH, K_space, H.
  - destruct (IH Fa Fa K_ink) as [G1 G2]. split; [|exact G2]. constructor; [split; [reflexivity|exact H]|exact G1].
Qed.

Lemma rend_app a b : rend (a ++ b) = rend a ++ rend b.
Proof. unfold rend. rewrite map_app, concat_app. reflexivity. Qed.

Lemma K_group g P Q : (P = Fs \/ P = Fn) -> K0 P Q ->
  (line_of g = [] /\ marks Q (rend g) = [] /\ K0 P (endf Q (rend g)))
  \/ (Forall2 mark_rel (marks P (line_of g)) (marks Q (rend g)) /\ K (endf P (line_of g)) (endf Q (rend g))).
Proof.
  intros HP H. induction g as [|p g IH] using rev_ind.
  - left. auto.
  - rewrite line_of_snoc, rend_app. unfold rend at 2 4 6 8. cbn [map concat]. rewrite app_nil_r.
    destruct p as [t b]. cbn [fst snd].
    assert (E : put (line_of g) (t, b) = match line_of g with [] => t | _ => line_of g ++ lead_str b ++ t end)
      by (destruct b, (line_of g); reflexivity).
    rewrite E. clear E. rewrite (marks_app Q), (marks_app (endf Q (rend g))), !(endf_app Q), (endf_app (endf Q (rend g))), (marks_spaces _ (sp b)) by apply sp_spaces. cbn [app].
    right. destruct (line_of g) as [|c l] eqn:El.
    + assert (G : marks Q (rend g) = [] /\ K0 P (endf Q (rend g))).
      { destruct IH as [(_ & G)|(G1 & G2)]; [exact G|]. cbn [marks endf] in G1, G2. inversion G1. auto. }
      destruct G as [G1 G2]. rewrite G1. cbn [app]. apply K_text. apply K_line, G2.
    + destruct IH as [(IH & _)|(IH1 & IH2)]; [discriminate|].
      rewrite !marks_app, !endf_app, (marks_spaces _ (lead_str b)) by (destruct b; repeat constructor). cbn [app].
      destruct (K_text t _ _ (K_lead _ _ b IH2)) as [G1 G2]. split; [apply Forall2_app; assumption|exact G2].
Qed.

Lemma after_nl x : after_space x c_nl = Fs \/ after_space x c_nl = Fn.
Proof. destruct x; auto. Qed.

Lemma K_groups gs : Forall (fun l => l <> []) (map line_of gs) -> forall P Q, (P = Fs \/ P = Fn) -> K0 P Q ->
  Forall2 mark_rel (marks P (str_join [c_nl] (map line_of gs))) (marks Q (rend (concat gs))).
Proof.
  induction gs as [|g gs IH]; intros Hne P Q HP H; [constructor|]. cbn [map concat].
  rewrite rend_app, marks_app. destruct (K_group g P Q HP H) as [(G & _)|[G1 G2]]; [exfalso; apply Forall_inv in Hne; contradiction|].
  destruct gs as [|g' gs].
  - cbn. rewrite !app_nil_r. exact G1.
  - cbn [map]. change (str_join [c_nl] (line_of g :: line_of g' :: map line_of gs))
      with (line_of g ++ [c_nl] ++ str_join [c_nl] (map line_of (g' :: gs))).
    rewrite marks_app. apply Forall2_app; [exact G1|]. cbn [app].
    change (marks (endf P (line_of g)) (c_nl :: str_join [c_nl] (map line_of (g' :: gs))))
      with (marks (after_space (endf P (line_of g)) c_nl) (str_join [c_nl] (map line_of (g' :: gs)))).
    apply IH; [exact (Forall_inv_tail Hne)|apply after_nl|]. apply K_nl. exact G2.
Qed.

Lemma ink_rend ps : ink (rend ps) = ink (concat (map fst ps)).
Proof.
  induction ps as [|p ps IH]; [reflexivity|]. unfold rend in *. cbn [map concat]. rewrite !ink_app, IH.
  assert (E : ink (sp (snd p)) = []) by (apply ink_spaces, sp_spaces). rewrite E. reflexivity.
Qed.

Lemma K_filled w ps lines P : filled w ps lines -> (P = Fs \/ P = Fn) -> K0 P P ->
  Forall2 mark_rel (marks P (str_join [c_nl] lines)) (marks P (rend ps)).
Proof.
  intros (groups & rest & -> & Hr & -> & Hne & _) HP H. rewrite rend_app, marks_app.
  assert (E : forall p, marks p (rend rest) = []).
  { intros p. assert (L : length (marks p (rend rest)) = 0).
    { rewrite marks_length, ink_rend, <- ink_line_of. cbv [piece] in *. rewrite Hr. reflexivity. }
    destruct (marks p (rend rest)); [reflexivity|discriminate]. }
  rewrite E, app_nil_r. apply K_groups; assumption.
Qed.

End Lines.

(** The wrapped text and its pieces on one line: the same gaps, and possibly more line breaks. *)
Definition relo (x y : flag) : Prop :=
  (x = Fs <-> y = Fs) /\ (x = Fg -> gapf y = true) /\ (gapf y = true -> gapf x = true).

Lemma render_rend ts : render ts = rend lead_str (map piece_of ts).
Proof. unfold render, rend. rewrite map_map. reflexivity. Qed.

Ltac flags := unfold relo, gapf, after_space, lead_str; repeat (match goal with |- context [N.eqb ?a ?b] => destruct (N.eqb a b) end);
  intuition (try congruence; try discriminate).

Definition relo0 (x y : flag) : Prop := (x = Fs \/ x = Fn) /\ (x = Fs <-> y = Fs).

Lemma lines_relo w ts lines : filled w (map piece_of ts) lines ->
  Forall2 (mark_rel relo) (marks Fs (str_join [c_nl] lines)) (marks Fs (render ts)).
Proof.
  intros H. rewrite render_rend. eapply (K_filled relo lead_str _ _ _ _ relo0); [| | |exact H|auto|]; unfold relo0.
  Unshelve.
  - intros [] [] []; cbn; flags.
  - intros [] []; cbn; flags.
  - intros [] []; cbn; flags.
  - flags.
  - intros []; repeat constructor.
  - intros [] [] c; flags.
  - flags.
  - intros [] [] []; cbn; flags.
Qed.

Definition relw (x y : flag) : Prop := (x = Fs <-> y = Fs) /\ (gapf x = true -> gapf y = true).
Definition widely (_ : bool) : str := [c_sp].

Lemma lines_relw w ts lines : filled w (map piece_of ts) lines ->
  Forall2 (mark_rel relw) (marks Fs (str_join [c_nl] lines)) (marks Fs (rend widely (map piece_of ts))).
Proof.
  intros H. eapply (K_filled relw widely _ _ _ _ relo0); [| | |exact H|auto|]; unfold relo0, relw.
  Unshelve.
  - intros [] [] []; cbn; flags.
  - intros [] []; cbn; flags.
  - intros [] []; cbn; flags.
  - flags.
  - intros []; repeat constructor.
  - unfold relw. intros [] [] c; flags.
  - unfold relw. flags.
  - unfold relw. intros [] [] []; cbn; flags.
Qed.

(** * Gaps of the wrapped text *)

Lemma Forall2_nth {A B} (R : A -> B -> Prop) l m i x : Forall2 R l m -> nth_error l i = Some x ->
  exists y, nth_error m i = Some y /\ R x y.
Proof.
  intros H. revert i. induction H as [|a b l m Hab H IH]; intros [|i] E; try discriminate.
  - injection E as <-. exists b. auto.
  - apply IH. exact E.
Qed.

Lemma Forall2_nth_r {A B} (R : A -> B -> Prop) l m i y : Forall2 R l m -> nth_error m i = Some y ->
  exists x, nth_error l i = Some x /\ R x y.
Proof.
  intros H. revert i. induction H as [|a b l m Hab H IH]; intros [|i] E; try discriminate.
  - injection E as <-. exists a. auto.
  - apply IH. exact E.
Qed.

Lemma gap_same_words s t i ws : words s = words t -> gap_at s i ws -> exists ws', gap_at t i ws'.
Proof.
  intros E H. apply gap_mark in H. destruct H as (c & H & Hi).
  assert (G : map norm (marks Fs s) = map norm (marks Fs t)).
  { rewrite !norm_words by discriminate. rewrite E. reflexivity. }
  apply (map_nth_error norm) in H. rewrite G in H.
  destruct (nth_error (marks Fs t) i) as [[f d]|] eqn:En.
  - rewrite (map_nth_error norm _ _ En) in H. injection H as H _.
    destruct f; cbn in H.
    + apply mark_start in En. lia.
    + destruct (in_dec N.eq_dec c_nl ws); discriminate.
    + destruct (mark_gap_at _ _ _ _ En eq_refl) as (ws' & G' & _). eauto.
    + destruct (mark_gap_at _ _ _ _ En eq_refl) as (ws' & G' & _). eauto.
  - exfalso. apply nth_error_None in En. assert (L := nth_error_Some (map norm (marks Fs t)) i).
    rewrite H, map_length in L. assert (i < length (marks Fs t)) by (apply L; discriminate). lia.
Qed.

Lemma wrap_no_new_gap text w out i ws :
  links_apart (joined text) -> wrap text w = Ok out -> gap_at out i ws -> ~ In c_nl ws ->
  exists ws', gap_at text i ws'.
Proof.
  intros HA E Hg Hn. apply wrap_ok in E. destruct E as (ts & lines & Et & -> & Hf & _).
  apply gap_mark in Hg. destruct Hg as (c & Hg & Hi). destruct (in_dec N.eq_dec c_nl ws) as [K|_]; [contradiction|].
  destruct (Forall2_nth _ _ _ _ _ (lines_relo _ _ _ Hf) Hg) as ([f d] & H1 & _ & R1). cbn [fst snd] in R1.
  destruct R1 as (_ & R1 & _). specialize (R1 eq_refl).
  assert (G := wrap_tokens_keeps False text ts ltac:(tauto) ltac:(tauto) HA Et).
  destruct (Forall2_nth _ _ _ _ _ G H1) as ([f' d'] & H2 & _ & R2). cbn [fst snd] in R2. destruct R2 as (_ & R2 & _).
  destruct (mark_gap_at _ _ _ _ H2 (R2 R1)) as (ws' & G' & _).
  eapply gap_same_words; [|exact G']. apply words_joined.
Qed.

Lemma linkless_apart text : linkless text -> links_apart (joined text).
Proof.
  intros H a z cl b z' cl' c E Hz _. exfalso. apply (linkless_joined text H a z (b ++ z' ++ c)); [|exact E].
  cbn in Hz. destruct Hz as [Hz|[Hz|[]]]; injection Hz as <- _; cbn; auto.
Qed.

Lemma wrap_gaps_kept text w out i ws :
  linkless text -> plain_space text -> wrap text w = Ok out -> gap_at text i ws -> exists ws', gap_at out i ws'.
Proof.
  intros Hl Hp E Hg. apply wrap_ok in E. destruct E as (ts & lines & Et & -> & Hf & _).
  apply (gap_same_words text (joined text)) in Hg; [|symmetry; apply words_joined]. destruct Hg as (ws' & Hg).
  apply gap_mark in Hg. destruct Hg as (c & Hg & Hi).
  assert (G := wrap_tokens_keeps True text ts ltac:(tauto) ltac:(tauto) (linkless_apart _ Hl) Et).
  destruct (Forall2_nth_r _ _ _ _ _ G Hg) as ([f d] & H1 & _ & R1). cbn [fst snd] in R1. destruct R1 as (_ & _ & R1).
  assert (R1' : gapf f = true) by (apply R1; [exact I|]; destruct (in_dec N.eq_dec c_nl ws'); reflexivity).
  destruct (Forall2_nth_r _ _ _ _ _ (lines_relo _ _ _ Hf) H1) as ([f' d'] & H2 & _ & R2). cbn [fst snd] in R2.
  destruct R2 as (_ & _ & R2). destruct (mark_gap_at _ _ _ _ H2 (R2 R1')) as (ws'' & G' & _). eauto.
Qed.

(** * Where a line can be broken without whitespace *)

(** Two characters between which a line can be broken. *)
Definition touch (x y : char) : Prop := In x (lit "`.>") \/ In y (lit "`<").

Definition last_char (s : str) : option char := match rev s with [] => None | c :: _ => Some c end.

Definition seam (x : option char) (t : tok) : Prop :=
  match x, t_text t with
  | Some x, y :: _ => t_lead t = true \/ touch x y
  | _, _ => True
  end.
Definition next (x : option char) (t : tok) : option char :=
  match last_char (t_text t) with
  | Some d => Some d
  | None => if t_lead t then None else x
  end.
Fixpoint seams (x : option char) (ts : list tok) : Prop :=
  match ts with [] => True | t :: ts => seam x t /\ seams (next x t) ts end.
Definition nexts (x : option char) (ts : list tok) : option char := fold_left next ts x.

Lemma last_char_snoc s c : last_char (s ++ [c]) = Some c.
Proof. unfold last_char. rewrite rev_unit. reflexivity. Qed.

Lemma last_char_app a s c : last_char s = Some c -> last_char (a ++ s) = Some c.
Proof.
  unfold last_char. rewrite rev_app_distr. destruct (rev s); [discriminate|]. intros E. exact E.
Qed.

Lemma last_char_ink s : ink_last s -> exists c, last_char s = Some c /\ is_space c = false.
Proof. intros (a & c & -> & H). exists c. split; [apply last_char_snoc|exact H]. Qed.

Lemma seams_app x a b : seams x (a ++ b) <-> seams x a /\ seams (nexts x a) b.
Proof. revert x. induction a as [|t a IH]; intros x; cbn [app seams nexts fold_left]; [tauto|]. rewrite IH. unfold nexts. tauto. Qed.

Lemma nexts_app x a b : nexts x (a ++ b) = nexts (nexts x a) b.
Proof. apply fold_left_app. Qed.

Lemma app_last_snoc ts t s : app_last (ts ++ [t]) s = ts ++ [Tok (t_text t ++ s) (t_lead t) (t_eval t)].
Proof.
  induction ts as [|u ts IH]; [reflexivity|]. cbn [app]. destruct (ts ++ [t]) eqn:E; [destruct ts; discriminate|].
  change (app_last (u :: t0 :: l) s) with (u :: app_last (t0 :: l) s). rewrite IH. reflexivity.
Qed.

Lemma eval_last_snoc ts t : eval_last (ts ++ [t]) = ts ++ [Tok (t_text t) (t_lead t) true].
Proof.
  induction ts as [|u ts IH]; [reflexivity|]. cbn [app]. destruct (ts ++ [t]) eqn:E; [destruct ts; discriminate|].
  change (eval_last (u :: t0 :: l)) with (u :: eval_last (t0 :: l)). rewrite IH. reflexivity.
Qed.

Definition full (ts : list tok) : Prop := Forall (fun t => t_text t <> []) ts.

Lemma app_last_seams x ts s : ts <> [] -> full ts -> seams x ts ->
  seams x (app_last ts s) /\ full (app_last ts s) /\ (forall c, last_char s = Some c -> nexts x (app_last ts s) = Some c).
Proof.
  intros Hn. destruct (exists_last Hn) as (ts' & t & ->). intros Hf Hs. apply Forall_app in Hf. destruct Hf as [Hf Ht].
  apply Forall_inv in Ht. rewrite app_last_snoc. apply seams_app in Hs. destruct Hs as [Hs [Ha _]]. split; [|split].
  - apply seams_app. split; [exact Hs|]. split; [|exact I]. unfold seam in *. cbn [t_text t_lead].
    destruct (nexts x ts'); [|exact I]. destruct (t_text t); [congruence|exact Ha].
  - apply Forall_app. split; [exact Hf|]. constructor; [|constructor]. cbn. destruct (t_text t); [congruence|discriminate].
  - intros c Hc. rewrite nexts_app. cbn [nexts fold_left]. unfold next at 1. cbn [t_text].
    rewrite (last_char_app _ _ _ Hc). reflexivity.
Qed.

Lemma snoc_seams x ts t : full ts -> seams x ts -> t_text t <> [] -> seam (nexts x ts) t ->
  seams x (ts ++ [t]) /\ full (ts ++ [t]) /\ nexts x (ts ++ [t]) = last_char (t_text t).
Proof.
  intros Hf Hs Hn Ht. split; [|split].
  - apply seams_app. split; [exact Hs|]. split; [exact Ht|exact I].
  - apply Forall_app. split; [exact Hf|]. constructor; [exact Hn|constructor].
  - rewrite nexts_app. cbn [nexts fold_left]. unfold next. destruct (last_char (t_text t)) eqn:E; [reflexivity|].
    unfold last_char in E. destruct (rev (t_text t)) eqn:Er; [|discriminate]. apply (f_equal (@rev _)) in Er.
    rewrite rev_involutive in Er. contradiction.
Qed.

(** After inline code everything can begin a line. *)
Definition closed (o : option char) : Prop := match o with None => True | Some x => In x (lit "`.>") end.

Lemma closed_seam o t : closed o -> seam o t.
Proof. intros H. unfold seam. destruct o; [|exact I]. destruct (t_text t); [exact I|]. right. left. exact H. Qed.

Definition code_seams (ts : list tok) : Prop := seams None ts /\ full ts /\ closed (nexts None ts).

Lemma rep_last_char k : 0 < k -> last_char (rep c_bt k) = Some c_bt.
Proof. intros H. destruct k as [|k]; [lia|]. rewrite rep_snoc. apply last_char_snoc. Qed.

Lemma code_dot ts : ts <> [] -> code_seams ts -> code_seams (app_last ts [c_dot]).
Proof.
  intros Hn (H1 & H2 & H3). destruct (app_last_seams None ts [c_dot] Hn H2 H1) as (G1 & G2 & G3).
  split; [exact G1|]. split; [exact G2|]. rewrite (G3 c_dot) by reflexivity. cbn. auto.
Qed.

Lemma blank_strip_ne s : blank s = false -> strip s <> [].
Proof. intros H E. destruct (strip_ends s H) as [(c & a & Ec & _) _]. rewrite E in Ec. discriminate. Qed.

Lemma code_step_seams text lead pre gap k rest ts open ts' open' le :
  text = pre ++ gap ++ rep c_bt k ++ rest -> 0 < k -> (open <> 0 -> ts <> []) ->
  code_seams ts ->
  code_step text lead (ts, open, length pre)
    (length pre + length gap, length pre + length gap + k) = (ts', open', le) ->
  code_seams ts' /\ ts' <> [].
Proof.
  intros Et Hk Ho H.
  assert (Sg : slice text (length pre) (length pre + length gap) = gap).
  { rewrite Et. apply slice_mid. }
  assert (Sgk : slice text (length pre) (length pre + length gap + k) = gap ++ rep c_bt k).
  { replace (length pre + length gap + k) with (length pre + length (gap ++ rep c_bt k))
      by (rewrite app_length, rep_length; lia).
    rewrite Et, (app_assoc gap). apply slice_mid. }
  assert (Km : length pre + length gap + k - (length pre + length gap) = k) by lia.
  unfold code_step. rewrite Sg, Sgk, Km.
  assert (Happ : forall s, last_char s = Some c_bt -> ts <> [] -> code_seams (app_last ts s) /\ app_last ts s <> []).
  { intros s Hs Hn. destruct H as (H1 & H2 & H3). destruct (app_last_seams None ts s Hn H2 H1) as (G1 & G2 & G3).
    split; [|apply app_last_ne; exact Hn]. split; [exact G1|]. split; [exact G2|]. rewrite (G3 _ Hs). cbn. auto. }
  destruct (open =? 0) eqn:Eo.
  - intros E. apply (f_equal (fun x => fst (fst x))) in E. cbn [fst] in E. subst ts'.
    set (dot := one_dot gap && negb (nilb ts)).
    set (ts1 := if dot then app_last ts [c_dot] else ts).
    assert (H1 : code_seams ts1).
    { unfold ts1. destruct dot eqn:Ed; [|exact H]. unfold dot in Ed. apply andb_prop in Ed. destruct Ed as [_ Ed].
      apply code_dot; [|exact H]. destruct ts; [discriminate|discriminate]. }
    set (p := if dot then tl gap else gap).
    set (ts2 := if negb (blank p) then ts1 ++ [Tok (strip p) (if nilb ts1 then lead else startswith [c_sp] p) true] else ts1).
    assert (H2 : seams None ts2 /\ full ts2).
    { unfold ts2. destruct H1 as (A1 & A2 & A3). destruct (blank p) eqn:Eb; cbn [negb]; [auto|].
      destruct (snoc_seams None ts1 (Tok (strip p) (if nilb ts1 then lead else startswith [c_sp] p) true) A2 A1) as (B1 & B2 & _);
        [apply blank_strip_ne; exact Eb|apply closed_seam; exact A3|auto]. }
    destruct H2 as [A1 A2]. split; [|destruct ts2; discriminate].
    destruct (snoc_seams None ts2 (Tok (rep c_bt k) (if nilb ts2 then lead else endswith [c_sp] p) false) A2 A1) as (B1 & B2 & B3).
    + cbn. destruct k; [lia|discriminate].
    + unfold seam. cbn [t_text t_lead]. destruct (nexts None ts2); [|exact I]. destruct k; [lia|]. cbn [rep repeat].
      right. right. left. reflexivity.
    + split; [exact B1|]. split; [exact B2|]. rewrite B3. cbn [t_text]. rewrite rep_last_char by exact Hk. cbn. auto.
  - apply Nat.eqb_neq in Eo. specialize (Ho Eo).
    destruct (k =? open); intros E; apply (f_equal (fun x => fst (fst x))) in E; cbn [fst] in E; subst ts'; apply Happ; auto.
    + apply Nat.eqb_neq in Eo. apply last_char_app, rep_last_char. destruct (Nat.eq_dec open 0); [|lia]. subst. discriminate.
    + apply last_char_app, rep_last_char. exact Hk.
Qed.

Lemma code_fold_seams text lead pos s ms :
  ticks pos s ms -> forall pre ts open, pos = length pre -> code_inv text pre s ts open -> (open <> 0 -> ts <> []) ->
  code_seams ts ->
  exists pre' s' ts' open',
    fold_left (code_step text lead) ms (ts, open, pos) = (ts', open', length pre') /\ text = pre' ++ s'
    /\ code_seams ts'.
Proof.
  intros H. induction H as [pos s Hs|pos gap k rest ms Hg Hk Hr Ht IH]; intros pre ts open -> Hi Ho Hc.
  - exists pre, s, ts, open. split; [reflexivity|]. split; [apply Hi|exact Hc].
  - destruct (code_step_inv text lead pre gap k rest ts open Hi Hg Hk Hr) as (ts' & open' & E & Hi').
    destruct (code_step_seams _ _ _ _ _ _ _ _ _ _ _ (proj1 Hi) Hk Ho Hc E) as [Hc' Hn'].
    cbn [fold_left]. rewrite E.
    assert (L : length pre + length gap + k = length (pre ++ gap ++ rep c_bt k)).
    { rewrite !app_length, rep_length. lia. }
    rewrite <- L. apply (IH (pre ++ gap ++ rep c_bt k) ts' open' L Hi'); auto.
Qed.

Lemma split_tail_seams ts rest le lead r : code_seams ts -> split_tail ts rest le lead = Ok r -> seams None r /\ full r.
Proof.
  intros H. unfold split_tail. destruct (one_dot rest) eqn:Ed.
  - destruct ts as [|t ts]; [discriminate|]. cbn [bind]. assert (G := code_dot (t :: ts) ltac:(discriminate) H).
    destruct G as (A1 & A2 & A3).
    destruct (blank (tl rest)) eqn:Eb; cbn [negb]; intros E; apply ok_inj in E; subst r; [auto|].
    destruct (snoc_seams None (app_last (t :: ts) [c_dot]) (Tok (strip (tl rest)) (if le =? 0 then lead else startswith [c_sp] (tl rest)) true) A2 A1) as (B1 & B2 & _);
      [apply blank_strip_ne; exact Eb|apply closed_seam; exact A3|auto].
  - cbn [bind]. destruct H as (A1 & A2 & A3).
    destruct (blank rest) eqn:Eb; cbn [negb]; intros E; apply ok_inj in E; subst r; [auto|].
    destruct (snoc_seams None ts (Tok (strip rest) (if le =? 0 then lead else startswith [c_sp] rest) true) A2 A1) as (B1 & B2 & _);
      [apply blank_strip_ne; exact Eb|apply closed_seam; exact A3|auto].
Qed.

Lemma eval_last_seams x ts : seams x ts -> full ts -> seams x (eval_last ts) /\ full (eval_last ts) /\ (ts <> [] -> eval_last ts <> []).
Proof.
  destruct ts as [|t0 ts0]; [auto|]. destruct (exists_last (l := t0 :: ts0) ltac:(discriminate)) as (ts' & t & ->).
  intros Hs Hf. rewrite eval_last_snoc. apply seams_app in Hs. destruct Hs as [Hs [Ht _]].
  apply Forall_app in Hf. destruct Hf as [Hf Hft]. split; [|split].
  - apply seams_app. split; [exact Hs|]. split; [exact Ht|exact I].
  - apply Forall_app. split; [exact Hf|]. constructor; [exact (Forall_inv Hft)|constructor].
  - destruct ts'; discriminate.
Qed.

Lemma code_split_seams text lead r : code_split text lead = Ok r -> seams None r /\ full r.
Proof.
  unfold code_split, INLINE_CODE_MARKER_REGEX.
  destruct (code_fold_seams text lead 0 text _ (finditer_ticks text) [] [] 0 eq_refl) as (pre & s & ts & open & E & Et & Hc).
  - split; [reflexivity|]. split; [reflexivity|]. split; [auto|lia].
  - congruence.
  - split; [exact I|]. split; [constructor|exact I].
  - rewrite E. destruct (negb (nilb ts) && _) eqn:Eu.
    + apply andb_prop in Eu. destruct Eu as [Eu _]. assert (Hn : ts <> []) by (destruct ts; discriminate).
      destruct Hc as (H1 & H2 & _). destruct (eval_last_seams None ts H1 H2) as (G1 & G2 & G3).
      destruct (negb (blank _)); intros K; apply ok_inj in K; subst r; [|auto].
      destruct (app_last_seams None (eval_last ts) (rstrip (skipn (length pre) text)) (G3 Hn) G2 G1) as (A1 & A2 & _). auto.
    + intros K. eapply split_tail_seams; eassumption.
Qed.

(** A split that keeps the ends of its text. *)
Definition ends_seams (f : str -> bool -> res (list tok)) : Prop :=
  forall text lead r x, ink_first text -> ink_last text -> f text lead = Ok r ->
  seam x (Tok text lead true) -> seams x r /\ nexts x r = last_char text.

Lemma pass_seams f ts r : ends_seams f -> full ts ->
  Forall (fun t => t_eval t = true -> ink_first (t_text t) /\ ink_last (t_text t)) ts ->
  split_pass f ts = Ok r -> forall x, seams x ts -> seams x r.
Proof.
  intros Hf Hfull He. revert r Hfull. induction He as [|t ts Ht He IH]; intros r Hfull E x Hs.
  - apply ok_inj in E. subst. exact I.
  - rewrite split_pass_cons in E. apply bind_ok in E. destruct E as (a & Ea & E).
    apply bind_ok in E. destruct E as (b & Eb & E). apply ok_inj in E. subst r.
    assert (Hn := Forall_inv Hfull). apply Forall_inv_tail in Hfull. destruct Hs as [Hs1 Hs2].
    apply seams_app.
    assert (G : seams x a /\ nexts x a = next x t).
    { destruct (t_eval t) eqn:Et.
      - destruct (Ht eq_refl) as [H1 H2].
        destruct (Hf _ _ _ x H1 H2 Ea) as [G1 G2]; [exact Hs1|]. split; [exact G1|].
        destruct (last_char_ink _ H2) as (c & Ec & _). unfold next. rewrite G2, Ec. reflexivity.
      - apply ok_inj in Ea. subst a. split; [split; [exact Hs1|exact I]|reflexivity]. }
    destruct G as [G1 G2]. split; [exact G1|]. rewrite G2. apply IH; assumption.
Qed.

Lemma strip_first c s : is_space c = false -> exists s', strip (c :: s) = c :: s'.
Proof. intros H. destruct (strip_app_lead [] c s) as (s' & E & _); [constructor|exact H|]. exists s'. exact E. Qed.

Lemma strip_ink_last s c : is_space c = false -> last_char s = Some c -> last_char (strip s) = Some c.
Proof.
  intros Hc H. destruct (strip_spec s) as (pre & post & E & Hpre & Hpost). rewrite E in H.
  apply spaces_forallb in Hpre, Hpost.
  destruct post as [|d post _] using rev_ind.
  - rewrite app_nil_r in H. destruct (strip s) as [|d s' _] eqn:Es using rev_ind.
    + rewrite app_nil_r in H. destruct pre as [|d pre _] using rev_ind; [discriminate|]. rewrite last_char_snoc in H.
      injection H as ->. apply Forall_app in Hpre. destruct Hpre as [_ Hd]. apply Forall_inv in Hd. congruence.
    + rewrite app_assoc, last_char_snoc in H. rewrite last_char_snoc. exact H.
  - rewrite !app_assoc, last_char_snoc in H. injection H as ->. apply Forall_app in Hpost. destruct Hpost as [_ Hd].
    apply Forall_inv in Hd. congruence.
Qed.

Lemma last_char_ne s : s <> [] -> exists c, last_char s = Some c.
Proof. intros H. destruct (exists_last H) as (a & c & ->). exists c. apply last_char_snoc. Qed.

(** HTML line breaks *)

Lemma html_chars g : den HTML_NEWLINE_REGEX g -> (exists x, g = c_lt :: x) /\ last_char g = Some c_gt.
Proof. intros H. apply html_den in H. cbn in H. repeat destruct H as [<-|H]; try destruct H; (split; [eexists; reflexivity|reflexivity]). Qed.

Definition newline_seams (x : option char) (pre : str) (ts : list tok) : Prop :=
  (pre = [] /\ ts = []) \/ (pre <> [] /\ ts <> [] /\ last_char pre = Some c_gt /\ full ts /\ seams x ts /\ nexts x ts = Some c_gt).

Lemma newline_step_seams text lead x pre gap g rest ts ts' le :
  text = pre ++ gap ++ g ++ rest -> den HTML_NEWLINE_REGEX g -> ink_first text -> seam x (Tok text lead true) ->
  newline_seams x pre ts ->
  newline_step text lead (ts, length pre)
    (length pre + length gap, length pre + length gap + length g) = (ts', le) ->
  newline_seams x (pre ++ gap ++ g) ts'.
Proof.
  intros Et Hg Hfi Hx H. destruct (html_chars g Hg) as [(g' & Eg) Hgl].
  assert (Sg : slice text (length pre) (length pre + length gap) = gap) by (rewrite Et; apply slice_mid).
  assert (Sm : slice text (length pre + length gap) (length pre + length gap + length g) = g).
  { rewrite Et, app_assoc, <- app_length. apply slice_mid. }
  unfold newline_step. rewrite Sg, Sm. set (lead' := if nilb ts then lead else _).
  assert (Hlt : forall o b, seam o (Tok g b false)).
  { intros o b. unfold seam. rewrite Eg. cbn [t_text]. destruct o; [|exact I]. right. right. cbn. auto. }
  assert (Hend : forall ts1 b, full ts1 -> seams x ts1 -> newline_seams x (pre ++ gap ++ g) (ts1 ++ [Tok g b false])).
  { intros ts1 b H1 H2. right. destruct (snoc_seams x ts1 (Tok g b false) H1 H2) as (G1 & G2 & G3);
      [rewrite Eg; discriminate|apply Hlt|].
    split; [rewrite Eg; destruct pre, gap; discriminate|]. split; [destruct ts1; discriminate|].
    split; [rewrite app_assoc; apply last_char_app; exact Hgl|]. split; [exact G2|]. split; [exact G1|].
    rewrite G3. exact Hgl. }
  assert (Hts : full ts /\ seams x ts) by (destruct H as [[_ ->]|(_ & _ & _ & H1 & H2 & _)]; [split; constructor|auto]).
  destruct Hts as [H1 H2].
  destruct (blank gap) eqn:Eb; cbn [negb]; intros E; apply (f_equal fst) in E; cbn [fst] in E; subst ts'.
  - apply Hend; assumption.
  - change [Tok (strip gap) lead' true; Tok g (endswith [c_sp] gap) false]
      with ([Tok (strip gap) lead' true] ++ [Tok g (endswith [c_sp] gap) false]).
    rewrite (app_assoc ts).
    destruct (snoc_seams x ts (Tok (strip gap) lead' true) H1 H2) as (G1 & G2 & _);
      [apply blank_strip_ne; exact Eb| |apply Hend; assumption].
    destruct H as [[-> ->]|(_ & _ & _ & _ & _ & Hn)].
    + cbn [nexts fold_left]. unfold lead'. cbn [nilb]. destruct Hfi as (c & a & Ec & Hc).
      rewrite Ec in Hx, Et. cbn [app] in Et. destruct gap as [|d gap]; [discriminate|]. cbn [app] in Et. injection Et as <- _.
      destruct (strip_first c gap Hc) as (s' & Es). unfold seam in *. cbn [t_text t_lead] in *. rewrite Es. exact Hx.
    + rewrite Hn. apply closed_seam. cbn. auto.
Qed.

Lemma newline_fold_seams text lead x pos s ms :
  ink_first text -> seam x (Tok text lead true) ->
  scan (rmatch HTML_NEWLINE_REGEX) pos s ms ->
  forall pre ts, pos = length pre -> text = pre ++ s -> newline_seams x pre ts ->
  exists pre' s' ts', fold_left (newline_step text lead) ms (ts, pos) = (ts', length pre')
    /\ text = pre' ++ s' /\ newline_seams x pre' ts'.
Proof.
  intros Hfi Hx H. induction H as [pos s Hs|pos gap g rest ms Hno Hg Hm Hsc IH]; intros pre ts -> Et Hn.
  - exists pre, s, ts. auto.
  - assert (Hd : den HTML_NEWLINE_REGEX g).
    { apply rmatch_den in Hm. destruct Hm as [_ Hm]. rewrite firstn_app, firstn_all, Nat.sub_diag in Hm.
      cbn [firstn] in Hm. rewrite app_nil_r in Hm. exact Hm. }
    assert (L : length pre + length gap + length g = length (pre ++ gap ++ g))
      by (rewrite !app_length; lia).
    destruct (newline_step text lead (ts, length pre)
      (length pre + length gap, length pre + length gap + length g)) as [ts1 le] eqn:E.
    assert (El : le = length pre + length gap + length g).
    { unfold newline_step in E. destruct (negb _) in E; injection E as _ <-; reflexivity. }
    assert (G := newline_step_seams text lead x pre gap g rest ts ts1 le Et Hd Hfi Hx Hn E).
    cbn [fold_left]. rewrite E, El. apply (IH (pre ++ gap ++ g)); auto. rewrite Et, <- !app_assoc. reflexivity.
Qed.

Lemma newline_split_full text lead x r : ink_first text -> ink_last text -> newline_split text lead = Ok r ->
  seam x (Tok text lead true) -> (seams x r /\ nexts x r = last_char text) /\ full r.
Proof.
  intros Hfi Hla E Hx. unfold newline_split in E.
  destruct (newline_fold_seams text lead x 0 text _ Hfi Hx (finditer_scan _ text) [] [] eq_refl eq_refl)
    as (pre & s & ts1 & Ef & Et & Hn); [left; auto|].
  rewrite Ef, Et, skipn_pre in E. clear Ef.
  assert (Hts : full ts1 /\ seams x ts1) by (destruct Hn as [[_ ->]|(_ & _ & _ & H1 & H2 & _)]; [split; constructor|auto]).
  destruct Hts as [H1 H2].
  destruct (last_char_ink _ Hla) as (d & Ed & Hd).
  destruct (blank s) eqn:Eb; cbn [negb] in E; apply ok_inj in E; subst r.
  - split; [|exact H1]. split; [exact H2|].
    assert (s = []).
    { destruct s as [|c s _] using rev_ind; [reflexivity|]. exfalso. rewrite Et, app_assoc, last_char_snoc in Ed. injection Ed as ->.
      apply blank_spec in Eb. rewrite forallb_app in Eb. apply andb_prop in Eb. destruct Eb as [_ Eb]. cbn in Eb. rewrite Hd in Eb. discriminate. }
    subst s. rewrite app_nil_r in Et. subst pre. destruct Hn as [[-> _]|(_ & _ & El & _ & _ & En)]; [discriminate|]. congruence.
  - set (b := if length pre =? 0 then lead else startswith [c_sp] s).
    assert (Hl : last_char (strip s) = last_char text).
    { rewrite Ed. apply strip_ink_last; [exact Hd|]. destruct s as [|c s _] using rev_ind; [discriminate|].
      rewrite Et, app_assoc, last_char_snoc in Ed. rewrite last_char_snoc. exact Ed. }
    destruct (snoc_seams x ts1 (Tok (strip s) b true) H1 H2) as (G1 & G2 & G3);
      [apply blank_strip_ne; exact Eb| |].
    + destruct Hn as [[-> ->]|(_ & _ & _ & _ & _ & Hn)].
      * cbn [nexts fold_left]. unfold b. cbn [length Nat.eqb]. cbn [app] in Et. subst s. destruct Hfi as (c & a & Ec & Hc).
        rewrite Ec in *. destruct (strip_first c a Hc) as (s' & Es). unfold seam in *. cbn [t_text t_lead] in *. rewrite Es. exact Hx.
      * rewrite Hn. apply closed_seam. cbn. auto.
    + split; [|exact G2]. split; [exact G1|]. rewrite G3. exact Hl.
Qed.

(** Spaces *)

Lemma space_fold_seams lead x ws : forall ts, ts <> [] -> seams x ts ->
  seams x (fold_left (space_step lead) ws ts) /\ fold_left (space_step lead) ws ts <> []
  /\ (forall w c, ws <> [] -> last ws w <> [] -> is_space c = false -> last_char (last ws w) = Some c ->
      nexts x (fold_left (space_step lead) ws ts) = Some c).
Proof.
  induction ws as [|w ws IH]; intros ts Hn Hs; cbn [fold_left].
  - split; [exact Hs|]. split; [exact Hn|]. congruence.
  - assert (G : seams x (space_step lead ts w) /\ space_step lead ts w <> []
      /\ (forall c, w <> [] -> is_space c = false -> last_char w = Some c -> nexts x (space_step lead ts w) = Some c)).
    { unfold space_step. destruct (nilb w) eqn:Ew.
      - apply nilb_true in Ew. subst w. split; [exact Hs|]. split; [exact Hn|]. congruence.
      - apply nilb_false in Hn. rewrite Hn. split; [|split; [destruct ts; discriminate|]].
        + apply seams_app. split; [exact Hs|]. split; [|exact I]. unfold seam. cbn [t_text t_lead].
          destruct (nexts x ts); [|exact I]. destruct (strip w); [exact I|]. auto.
        + intros c _ Hc Hl. rewrite nexts_app. cbn [nexts fold_left]. unfold next. cbn [t_text].
          rewrite (strip_ink_last _ _ Hc Hl). reflexivity. }
    destruct G as (G1 & G2 & G3). destruct (IH _ G2 G1) as (A1 & A2 & A3).
    split; [exact A1|]. split; [exact A2|]. intros w' c _ Hl Hc Hlc. destruct ws as [|v ws].
    + cbn [last fold_left] in *. apply G3; assumption.
    + apply (A3 w' c); [discriminate|exact Hl|exact Hc|exact Hlc].
Qed.

Lemma space_split_seams : ends_seams space_split.
Proof.
  intros text lead r x Hfi Hla E Hx. unfold space_split in E. apply ok_inj in E. subst r.
  assert (Ej := join_split_on c_sp text). destruct (split_on c_sp text) as [|w ws] eqn:Es.
  { exfalso. eapply split_on_ne. exact Es. }
  rewrite join_concat in Ej. cbn [fold_left].
  destruct Hfi as (c & a & Ec & Hc).
  assert (Hw : exists w', w = c :: w').
  { destruct w as [|c' w']; [|rewrite Ec in Ej; injection Ej as <- _; eauto]. exfalso.
    cbn [app] in Ej. destruct ws as [|v ws]; cbn [map concat app] in Ej; rewrite Ec in Ej; [discriminate|].
    injection Ej as <- _. discriminate. }
  destruct Hw as (w' & ->).
  assert (E1 : space_step lead [] (c :: w') = [Tok (strip (c :: w')) lead true]) by reflexivity.
  rewrite E1. destruct (strip_first c w' Hc) as (s' & Es').
  assert (S1 : seams x [Tok (strip (c :: w')) lead true]).
  { split; [|exact I]. unfold seam in *. cbn [t_text t_lead] in *. rewrite Es'. rewrite Ec in Hx. exact Hx. }
  destruct (space_fold_seams lead x ws [Tok (strip (c :: w')) lead true] ltac:(discriminate) S1) as (A1 & A2 & A3).
  split; [exact A1|]. destruct (last_char_ink _ Hla) as (d & Ed & Hd). rewrite Ed.
  destruct ws as [|v ws _] using rev_ind.
  - cbn [fold_left nexts]. unfold next. cbn [t_text]. cbn [map concat] in Ej. rewrite app_nil_r in Ej.
    rewrite <- Ej in Ed. rewrite (strip_ink_last _ _ Hd Ed). reflexivity.
  - assert (Hv : last_char v = Some d).
    { rewrite map_app, concat_app in Ej. cbn [map concat] in Ej. rewrite app_nil_r in Ej. rewrite app_assoc in Ej.
      rewrite <- Ej in Ed. destruct v as [|y v _] using rev_ind.
      - exfalso. rewrite last_char_snoc in Ed. injection Ed as <-. discriminate.
      - rewrite app_comm_cons, app_assoc, last_char_snoc in Ed. rewrite last_char_snoc. exact Ed. }
    apply (A3 [] d); [destruct ws; discriminate| |exact Hd|]; rewrite last_last; [|exact Hv].
    intros ->. discriminate.
Qed.

(** All passes *)

Lemma trim_full ts : full ts -> Forall (trim_tok False) ts ->
  Forall (fun t => t_eval t = true -> ink_first (t_text t) /\ ink_last (t_text t)) ts.
Proof.
  intros Hf Ht. apply Forall_forall. intros t Hin He. unfold full in Hf. rewrite Forall_forall in Hf, Ht.
  destruct (Ht t Hin He) as [[E _]|H]; [|exact H]. exfalso. exact (Hf t Hin E).
Qed.

Lemma link_pass_same ts r :
  Forall (fun t => t_eval t = true -> no_joint (t_text t) /\ ink_first (t_text t) /\ ink_last (t_text t)) ts ->
  split_pass link_split ts = Ok r -> r = ts.
Proof.
  intros H. revert r. induction H as [|t ts Ht H IH]; intros r E; [apply ok_inj in E; auto|].
  rewrite split_pass_cons in E. apply bind_ok in E. destruct E as (a & Ea & E).
  apply bind_ok in E. destruct E as (b & Eb & E). apply ok_inj in E. subst r. rewrite (IH b Eb). clear IH Eb.
  change (t :: ts) with ([t] ++ ts). f_equal. destruct (t_eval t) eqn:Et; [|apply ok_inj in Ea; auto].
  destruct (Ht eq_refl) as (Hl & Hfi & Hla). unfold link_split in Ea. rewrite (no_joint_links _ Hl) in Ea.
  cbn [foldM bind skipn] in Ea. unfold split_tail in Ea. destruct (one_dot (t_text t)); [discriminate|]. cbn [bind] in Ea.
  rewrite (ink_last_nonblank _ Hla) in Ea. cbn [negb Nat.eqb] in Ea. apply ok_inj in Ea. subst a.
  assert (Es : strip (t_text t) = t_text t).
  { apply strip_id.
    - destruct Hfi as (c & a & -> & Hc). exact Hc.
    - destruct Hla as (a & c & -> & Hc). rewrite rev_unit. exact Hc. }
  rewrite Es. destruct t as [tt tl te]. cbn in *. subst te. reflexivity.
Qed.

Lemma pass_full f ts r : (forall t r, t_eval t = true -> ink_first (t_text t) /\ ink_last (t_text t) -> f (t_text t) (t_lead t) = Ok r -> full r) ->
  full ts -> Forall (fun t => t_eval t = true -> ink_first (t_text t) /\ ink_last (t_text t)) ts ->
  split_pass f ts = Ok r -> full r.
Proof.
  intros Hf Hfull H. revert r Hfull. induction H as [|t ts Ht H IH]; intros r Hfull E; [apply ok_inj in E; subst; constructor|].
  rewrite split_pass_cons in E. apply bind_ok in E. destruct E as (a & Ea & E).
  apply bind_ok in E. destruct E as (b & Eb & E). apply ok_inj in E. subst r.
  apply Forall_app. split; [|apply IH; [exact (Forall_inv_tail Hfull)|exact Eb]].
  destruct (t_eval t) eqn:Et; [eapply Hf; eauto|]. apply ok_inj in Ea. subst a.
  constructor; [exact (Forall_inv Hfull)|constructor].
Qed.

Lemma wrap_tokens_seams text ts : linkless text -> wrap_tokens text = Ok ts -> seams None ts.
Proof.
  unfold wrap_tokens. intros Hl E. apply bind_ok in E. destruct E as (t1 & E1 & E).
  apply bind_ok in E. destruct E as (t2 & E2 & E). apply bind_ok in E. destruct E as (t3 & E3 & E4).
  assert (C1 := E1). apply code_pass_inv in C1. destruct C1 as [_ C1].
  rewrite split_pass_one in E1.
  destruct (code_split_keeps False (joined text) false t1 Fs Fs ltac:(tauto) (start_rel _ _ _) ltac:(tauto) E1) as (_ & _ & T1).
  destruct (code_split_seams _ _ _ E1) as [S1 F1].
  assert (I1 := trim_full _ F1 T1).
  assert (t2 = t1).
  { apply link_pass_same; [|exact E2]. apply Forall_forall. intros t Hin He. rewrite Forall_forall in I1, C1.
    split; [|apply I1; assumption]. specialize (C1 t Hin). unfold code_tok in C1. rewrite He in C1.
    destruct C1 as (x & y & Ex & _). intros a z b Hz Ez. apply (linkless_joined text Hl (x ++ a) z (b ++ y) Hz).
    rewrite Ex, Ez, <- !app_assoc. reflexivity. }
  subst t2.
  assert (S3 : seams None t3).
  { eapply pass_seams; [|exact F1|exact I1|exact E3|exact S1]. intros tx ld r x A1 A2 A3 A4.
    apply (newline_split_full tx ld x r A1 A2 A3 A4). }
  assert (F3 : full t3).
  { eapply pass_full; [|exact F1|exact I1|exact E3]. intros t r He [A1 A2] Er.
    apply (newline_split_full _ _ None r A1 A2 Er I). }
  assert (T3 : Forall (trim_tok False) t3).
  { eapply (pass_trim False newline_split t1 t3 (fun _ => True)); [|apply Forall_forall; auto|exact E3]. intros t r _ He Er.
    destruct (newline_split_keeps False _ _ _ Fs Fs ltac:(tauto) (start_rel _ _ _) ltac:(tauto) Er) as (_ & _ & G). exact G. }
  eapply pass_seams; [exact space_split_seams|exact F3|apply trim_full; assumption|exact E4|exact S3].
Qed.

(** The pieces far apart, and as they stand. *)

Fixpoint near (x : option char) (m n : list (flag * char)) : Prop :=
  match m, n with
  | [], [] => True
  | (f, c) :: m, (g, d) :: n =>
      c = d /\ (gapf f = true -> gapf g = true \/ exists x0, x = Some x0 /\ touch x0 c) /\ near (Some c) m n
  | _, _ => False
  end.

Definition last_ink (x : option char) (s : str) : option char :=
  match last_char (ink s) with Some c => Some c | None => x end.

Lemma last_ink_cons x c s : is_space c = false -> last_ink x (c :: s) = last_ink (Some c) s.
Proof.
  intros H. unfold last_ink, ink, not_space. cbn [filter]. rewrite H. cbn [negb].
  destruct (filter (fun c0 => negb (is_space c0)) s) as [|d t] eqn:E using rev_ind; [reflexivity|].
  rewrite app_comm_cons, !last_char_snoc. reflexivity.
Qed.

Lemma near_app x s m n m' n' : forall P Q, m = marks P s -> n = marks Q s -> near x m n -> near (last_ink x s) m' n' ->
  near x (m ++ m') (n ++ n').
Proof.
  intros P Q -> -> H H'. revert x P Q H H'. induction s as [|c s IH]; intros x P Q H H'; [exact H'|].
  cbn [marks] in *. destruct (is_space c) eqn:Ec.
  - apply IH; [exact H|]. unfold last_ink, ink, not_space in *. cbn [filter] in H'. rewrite Ec in H'. exact H'.
  - cbn [app near] in *. destruct H as (H1 & H2 & H3). split; [reflexivity|]. split; [exact H2|].
    apply IH; [exact H3|]. rewrite last_ink_cons in H' by exact Ec. exact H'.
Qed.

Lemma near_refl s : forall x P Q, (gapf P = true -> gapf Q = true) -> (P = Fs <-> Q = Fs) -> near x (marks P s) (marks Q s).
Proof.
  induction s as [|c s IH]; intros x P Q H H0; [exact I|]. cbn [marks]. destruct (is_space c).
  - apply IH; destruct P, Q; revert H H0; flags.
  - split; [reflexivity|]. split; [intros G; left; apply H, G|]. apply IH; auto; tauto.
Qed.

Lemma near_text s x P Q : (P = Fs <-> Q = Fs) ->
  (gapf P = true -> gapf Q = true \/ exists x0 y b, x = Some x0 /\ s = y :: b /\ touch x0 y) ->
  near x (marks P s) (marks Q s).
Proof.
  intros H0 H. destruct s as [|c s]; [exact I|]. cbn [marks]. destruct (is_space c) eqn:Ec.
  - apply near_refl; destruct P, Q; revert H0; clear; flags.
  - cbn [near]. split; [reflexivity|]. split; [|apply near_refl; tauto]. intros G. destruct (H G) as [G1|(x0 & y & b & -> & E & G1)]; [auto|].
    injection E as <- <-. right. eauto.
Qed.

(** What is known before a piece. *)
Definition near_state (x z : option char) (P Q : flag) : Prop :=
  (P = Fs <-> Q = Fs) /\ (P <> Fs -> Q = Fa -> x = z /\ exists c, x = Some c).

Lemma last_char_cons_space c s : is_space c = true -> last_ink None (c :: s) = last_ink None s.
Proof. intros H. unfold last_ink, ink, not_space. cbn [filter]. rewrite H. reflexivity. Qed.

Lemma near_pieces ts : forall x z P Q, near_state x z P Q -> seams x ts ->
  near z (marks P (rend widely (map piece_of ts))) (marks Q (render ts)).
Proof.
  induction ts as [|t ts IH]; intros x z P Q Hst Hs; [exact I|].
  destruct Hs as [Hs1 Hs2]. rewrite render_cons. cbn [map]. unfold rend. cbn [map concat].
  fold (rend widely (map piece_of ts)). unfold render1. cbn [piece_of fst snd].
  rewrite (marks_app P), (marks_app P), (marks_app Q), (marks_app Q), !endf_app.
  rewrite (marks_spaces P (widely (t_lead t))) by (repeat constructor).
  rewrite (marks_spaces Q (lead_str (t_lead t))) by (destruct (t_lead t); repeat constructor). cbn [app].
  set (P' := endf P (widely (t_lead t))). set (Q' := endf Q (lead_str (t_lead t))).
  assert (H0 : P' = Fs <-> Q' = Fs).
  { destruct Hst as [H0 _]. unfold P', Q'. destruct P, Q, (t_lead t); cbn; flags. }
  eapply (near_app z (t_text t) _ _ _ _ P' Q' eq_refl eq_refl).
  - destruct (t_text t) as [|y b] eqn:Et; [exact I|].
    apply near_text; [exact H0|]. intros G. destruct (gapf Q') eqn:EQ; [auto|]. right.
    assert (HP : P <> Fs) by (intros ->; discriminate).
    assert (HQ : Q = Fa /\ t_lead t = false).
    { destruct Hst as [Hst _]. unfold Q' in EQ. destruct Q, (t_lead t); cbn in EQ; try discriminate; auto; exfalso; tauto. }
    destruct HQ as [-> El]. destruct Hst as [_ Hst]. destruct (Hst HP eq_refl) as [<- (c & ->)].
    unfold seam in Hs1. rewrite Et in Hs1. destruct Hs1 as [Hs1|Hs1]; [congruence|]. eauto 8.
  - eapply IH; [|exact Hs2]. split.
    + rewrite !endf_start, H0. assert (L1 := marks_length P' (t_text t)). assert (L2 := marks_length Q' (t_text t)).
      destruct (marks P' (t_text t)), (marks Q' (t_text t)); cbn in *; try lia; intuition discriminate.
    + intros HP HQ. unfold next. destruct (t_text t) as [|d tx _] eqn:Et using rev_ind.
      * cbn [last_char rev endf] in *. unfold P' in HP. unfold Q' in HQ. destruct (t_lead t).
        -- exfalso. cbn in HQ. destruct Q; discriminate.
        -- cbn [lead_str endf] in HQ. destruct Hst as [A B]. unfold last_ink. cbn. apply B; [|exact HQ].
           intros E. apply A in E. congruence.
      * rewrite last_char_snoc. split; [|eauto]. unfold last_ink. rewrite ink_app. unfold ink at 2. cbn [filter].
        unfold not_space. destruct (is_space d) eqn:Ed; cbn [negb].
        -- exfalso. rewrite endf_app in HQ. cbn [endf] in HQ. rewrite Ed in HQ. destruct (endf Q' tx); cbn in HQ; try discriminate;
             destruct (N.eqb d c_nl); discriminate.
        -- rewrite last_char_snoc. reflexivity.
Qed.

Lemma near_nth m : forall x n i f c, near x m n -> nth_error m i = Some (f, c) -> gapf f = true ->
  exists g, nth_error n i = Some (g, c)
    /\ (gapf g = true \/ exists x0, match i with 0 => x | S j => nth_error (map (fun p => snd p) m) j end = Some x0 /\ touch x0 c).
Proof.
  induction m as [|[f0 c0] m IH]; intros x n i f c H E G; [destruct i; discriminate|].
  destruct n as [|[g0 d0] n]; [destruct H|]. destruct H as (<- & H1 & H2). destruct i as [|i].
  - injection E as -> ->. exists g0. split; [reflexivity|]. apply H1, G.
  - cbn [nth_error] in E. destruct (IH _ _ _ _ _ H2 E G) as (g & Eg & H). exists g. split; [exact Eg|].
    destruct H as [H|(x0 & Ex & H)]; [auto|]. right. exists x0. split; [|exact H]. destruct i; exact Ex.
Qed.

(** A gap of the wrapped text is one of the text, or it is beside inline code or an HTML line break. *)
Lemma wrap_breaks text w out i ws :
  linkless text -> wrap text w = Ok out -> gap_at out i ws ->
  (exists ws', gap_at text i ws')
  \/ exists a x y b, ink text = a ++ [x; y] ++ b /\ length (a ++ [x]) = i /\ touch x y.
Proof.
  intros Hl E Hg. apply wrap_ok in E. destruct E as (ts & lines & Et & -> & Hf & _).
  apply gap_mark in Hg. destruct Hg as (c & Hg & Hi).
  destruct (Forall2_nth _ _ _ _ _ (lines_relw _ _ _ Hf) Hg) as ([f d] & H1 & _ & R1). cbn [fst snd] in R1.
  destruct R1 as (_ & R1). assert (Gf : gapf f = true) by (apply R1; destruct (in_dec N.eq_dec c_nl ws); reflexivity).
  assert (N0 : near None (marks Fs (rend widely (map piece_of ts))) (marks Fs (render ts))).
  { apply (near_pieces ts None None Fs Fs); [|apply (wrap_tokens_seams text); assumption]. split; [tauto|]. congruence. }
  destruct (near_nth _ _ _ _ _ _ N0 H1 Gf) as (g & Hgr & Hor).
  assert (G := wrap_tokens_keeps False text ts ltac:(tauto) ltac:(tauto) (linkless_apart _ Hl) Et).
  destruct Hor as [Hor|(x0 & Ex & Hor)].
  - left. destruct (Forall2_nth _ _ _ _ _ G Hgr) as ([f' d'] & H2 & _ & R2). cbn [fst snd] in R2. destruct R2 as (_ & R2 & _).
    destruct (mark_gap_at _ _ _ _ H2 (R2 Hor)) as (ws' & G' & _). eapply gap_same_words; [|exact G']. apply words_joined.
  - right. destruct i as [|j]; [discriminate|].
    assert (E1 : map snd (marks Fs (rend widely (map piece_of ts))) = ink text).
    { rewrite marks_ink, ink_rend by (intros []; repeat constructor). rewrite <- ink_rend with (sp := lead_str) by (intros []; repeat constructor).
      rewrite <- render_rend, <- (marks_ink Fs (render ts)).
      assert (E2 : map snd (marks Fs (render ts)) = map snd (marks Fs (joined text))).
      { clear -G. induction G as [|a b l m [H _] G IH]; [reflexivity|]. cbn [map]. f_equal; assumption. }
      rewrite E2, marks_ink, !ink_words, words_joined. reflexivity. }
    change (map (fun p : flag * char => snd p)) with (map (@snd flag char)) in Ex. rewrite E1 in Ex.
    assert (Ey : nth_error (ink text) (S j) = Some d).
    { rewrite <- E1. erewrite map_nth_error; [|exact H1]. reflexivity. }
    apply nth_error_split in Ex. destruct Ex as (a & b & Eb & La). rewrite Eb in Ey.
    rewrite nth_error_app2 in Ey by lia. replace (S j - length a) with 1 in Ey by lia. cbn in Ey.
    destruct b as [|y b]; [discriminate|]. injection Ey as ->. exists a, x0, d, b. split; [exact Eb|].
    split; [rewrite app_length; cbn; lia|exact Hor].
Qed.

(** Without a limit, and without HTML line breaks, there is one line. *)
Lemma ink_nonspace s : Forall (fun c => is_space c = false) s -> ink s = s.
Proof.
  intros H. induction H as [|c s Hc H IH]; [reflexivity|]. unfold ink, not_space in *. cbn [filter]. rewrite Hc. cbn [negb].
  rewrite IH. reflexivity.
Qed.

Lemma break_ink p ps : In p ps -> html_break p -> exists a b, ink (concat (map fst ps)) = a ++ lit "<br" ++ b.
Proof.
  intros Hin (tag & t & Ep & Ht). apply in_split in Hin. destruct Hin as (l1 & l2 & ->).
  rewrite map_app, concat_app. cbn [map concat]. rewrite !ink_app, Ep, ink_app.
  assert (E : exists t', ink tag = lit "<br" ++ t').
  { cbn in Ht. repeat destruct Ht as [<-|Ht]; try (eexists; reflexivity). destruct Ht. }
  destruct E as (t' & ->). exists (ink (concat (map fst l1))). eexists. rewrite <- !app_assoc. reflexivity.
Qed.

Lemma one_group w ps lines : filled w ps lines -> (forall n, fits w n) ->
  (forall a b, ink (concat (map fst ps)) <> a ++ lit "<br" ++ b) -> length lines <= 1.
Proof.
  intros (groups & rest & -> & _ & -> & _ & _ & Hb & _) Hw Hn. rewrite map_length.
  destruct groups as [|g [|g' groups]]; cbn; try lia. exfalso.
  destruct (Hb [] g g' groups eq_refl) as [(g1 & p & -> & Hp)|(p & g1 & _ & Hp)].
  - destruct (break_ink p (concat ((g1 ++ [p]) :: g' :: groups) ++ rest)) as (a & b & E); [|exact Hp|exact (Hn a b E)].
    cbn [concat]. rewrite !in_app_iff. cbn. auto.
  - apply Hp, Hw.
Qed.

Lemma wrap_unlimited text w out :
  linkless text -> plain_space text -> (forall n, fits w n) -> (forall a b, ink text <> a ++ lit "<br" ++ b) ->
  wrap text w = Ok out -> words out = words text.
Proof.
  intros Hl Hp Hw Hb E. apply wrap_ok in E. destruct E as (ts & lines & Et & -> & Hf & Ho).
  assert (G := wrap_tokens_keeps True text ts ltac:(tauto) ltac:(tauto) (linkless_apart _ Hl) Et).
  assert (Ei : ink (concat (map fst (map piece_of ts))) = ink text).
  { rewrite <- ink_rend with (sp := lead_str) by (intros []; repeat constructor).
    rewrite <- render_rend, <- (marks_ink Fs (render ts)).
    assert (E2 : map snd (marks Fs (render ts)) = map snd (marks Fs (joined text))).
    { clear -G. induction G as [|a b l m [H _] G IH]; [reflexivity|]. cbn [map]. f_equal; assumption. }
    rewrite E2, marks_ink, !ink_words, words_joined. reflexivity. }
  assert (L := one_group w _ _ Hf Hw). rewrite Ei in L. specialize (L Hb).
  assert (Hnl : ~ In c_nl (str_join [c_nl] lines)).
  { destruct lines as [|l [|l' lines]]; cbn in L; try lia; [intros []|]. cbn [str_join].
    apply Forall_inv in Ho. intros Hin. unfold one_line in Ho. rewrite Forall_forall in Ho. specialize (Ho _ Hin). discriminate. }
  assert (R := lines_relo _ _ _ Hf). set (out := str_join [c_nl] lines) in *.
  assert (Hm : map norm (marks Fs out) = map norm (marks Fs (joined text))).
  { assert (Hfn : Forall (fun m => fst m <> Fn) (marks Fs out)).
    { apply Forall_forall. intros [f c] Hin Ef. cbn in Ef. subst f. apply In_nth_error in Hin. destruct Hin as (i & Hi).
      destruct (mark_gap_at _ _ _ _ Hi eq_refl) as (ws & (a & x & y & b & Ex & _) & Hws). apply Hnl. rewrite Ex.
      rewrite !in_app_iff. right. right. left. apply Hws. reflexivity. }
    clear -R G Hfn. revert G. generalize (marks Fs (joined text)). induction R as [|x y l m [R1 R2] R IH]; intros n G.
    - inversion G. reflexivity.
    - inversion G as [|y' z m' n' [G1 G2] G3]. subst. cbn [map]. f_equal; [|apply IH; [exact (Forall_inv_tail Hfn)|exact G3]].
      assert (F := Forall_inv Hfn). unfold norm. rewrite R1, G1. f_equal.
      destruct x as [x ?], y as [y ?], z as [z ?]. cbn [fst snd] in *. revert F R2 G2. clear. unfold relo, relf.
      destruct x, y, z; cbn; intuition (try congruence; try discriminate). }
  rewrite !norm_words in Hm by discriminate. rewrite words_joined in Hm.
  apply word_marks_inj in Hm; [exact Hm| |]; (eapply Forall_impl; [|apply words_not_space]); cbn; tauto.
Qed.
