(** The structure of one formatting pass. *)
From Verif Require Import Py Regex Utils TextWrap Lines Detectors Formatters Base
  SpecLines SpecParser SpecFormat ProofsLines ProofsParser ProofsShapes.

(** ** Trimming *)

Lemma rtrims_rstrip s r : rtrims s r <-> r = rstrip s.
Proof.
  unfold rtrims. split.
  - intros [(ws & -> & Hw) Hl]. unfold rstrip.
    rewrite rstrip_by_app by (apply spaces_forallb; exact Hw).
    destruct r as [|x r _] using rev_ind; [reflexivity|].
    rewrite rstrip_by_snoc by eauto. reflexivity.
  - intros ->. split.
    + destruct (rstrip_by_spec is_space s) as (ws & E & Hw). exists ws.
      split; [exact E|]. apply spaces_forallb. exact Hw.
    + intros r' c E. eapply rstrip_by_last; eauto.
Qed.

Lemma trims_strip s r : trims s r <-> r = strip s.
Proof.
  unfold trims. split.
  - intros [(ws & ws' & -> & Hw & Hw') [Hh Hl]].
    rewrite strip_app_spaces by (apply spaces_forallb; assumption).
    symmetry. apply strip_id.
    + destruct r; eauto.
    + destruct r as [|x r _] using rev_ind; [exact I|]. rewrite rev_app_distr. cbn. eauto.
  - intros ->. split; [|split].
    + destruct (strip_spec s) as (a & b & E & Ha & Hb). exists a, b.
      split; [exact E|]. split; apply spaces_forallb; assumption.
    + intros c r' E. eapply strip_head; eauto.
    + intros r' c E. eapply strip_last; eauto.
Qed.

Lemma newline_terminated_join rs :
  rs <> [] -> newline_terminated rs = str_join [c_nl] rs ++ [c_nl].
Proof.
  unfold newline_terminated. induction rs as [|r rs IH]; intros H; [congruence|].
  destruct rs as [|r' rs]; [cbn; rewrite app_nil_r; reflexivity|].
  rewrite str_join_cons by discriminate. cbn [map concat] in *. rewrite IH by discriminate.
  rewrite <- !app_assoc. reflexivity.
Qed.

(** ** The formatters of a document *)

Lemma build_formatters_inv lim w i last secs fs outs :
  build_formatters i last secs = Ok fs ->
  Forall2 (fun '(ty, line_index, lines) r => section_text lim w line_index ty lines r) fs outs ->
  exists texts, section_texts lim w i secs texts
    /\ outs = separated last (combine (map fst secs) texts).
Proof.
  revert i last fs outs. induction secs as [|[ty content] secs IH]; intros i last fs outs E H;
    cbn [build_formatters] in E.
  - inv E. inv H. exists []. split; [constructor|reflexivity].
  - bind_inv E. bind_inv E. apply ok_inj in E. subst fs.
    apply Forall2_app_inv_l in H. destruct H as (o1 & o2 & H1 & H2 & ->).
    inversion H2 as [|f y fs' ys Hy Hys]; subst.
    destruct (IH _ _ _ _ E1 Hys) as (texts & Ht & Eo).
    exists (y :: texts). split; [constructor; assumption|].
    cbn [map fst combine separated]. rewrite <- Eo.
    f_equal. destruct ty; try (inv H1; destruct last as [[]|]; reflexivity).
    destruct last as [[]|]; inversion H1 as [|f z fs'' zs Hz Hzs]; subst; try reflexivity.
    inv Hzs. unfold section_text in Hz. cbn in Hz. apply ok_inj in Hz. subst z. reflexivity.
Qed.

Lemma build_formatters_ok lim w i last secs texts :
  Forall (fun s => repr_check (fst s) (snd s) = Ok tt) secs ->
  section_texts lim w i secs texts ->
  exists fs, build_formatters i last secs = Ok fs
    /\ Forall2 (fun '(ty, line_index, lines) r => section_text lim w line_index ty lines r) fs
         (separated last (combine (map fst secs) texts)).
Proof.
  intros Hr H. revert last Hr.
  induction H as [i|i ty content secs r outs Hs H IH]; intros last Hr.
  - exists []. split; [reflexivity|constructor].
  - inv Hr. destruct (IH (Some ty) H3) as (fs & E & Hf).
    cbn [build_formatters]. cbn [fst snd] in H2. rewrite H2. cbn [bind]. rewrite E. cbn [bind].
    eexists. split; [reflexivity|]. cbn [map fst combine separated].
    apply Forall2_app.
    + destruct ty; try (destruct last as [[]|]; constructor; fail).
      destruct last as [[]|]; constructor; [reflexivity|constructor].
    + constructor; [exact Hs|exact Hf].
Qed.

Definition finish_pass (rs : list str) : str :=
  match rs with [] => [c_nl] | _ => newline_terminated rs end.

Lemma finish_pass_join rs : finish_pass rs = str_join [c_nl] rs ++ [c_nl].
Proof.
  destruct rs as [|r rs]; [reflexivity|]. cbn [finish_pass].
  apply newline_terminated_join. discriminate.
Qed.

Lemma reformat_pass_inv lim text w out :
  reformat_pass (S lim) text w = Ok out ->
  exists secs texts, parse_markdown lim (splitlines text) = Ok secs
    /\ section_texts lim w 0 secs texts
    /\ out = finish_pass (separated None (combine (map fst secs) texts)).
Proof.
  intros E. cbn [reformat_pass] in E. bind_inv E. bind_inv E. bind_inv E. apply ok_inj in E.
  assert (E3 : forall (x : res (list str)) b, pep479 x = Ok b -> x = Ok b).
  { intros [] b; cbn; congruence. }
  apply E3 in E2. apply mapM_ok in E2.
  destruct (build_formatters_inv lim w 0 None a a0 a1 E1) as (texts & Ht & Eo).
  { clear -E2. induction E2 as [|[[ty i] ls] y fs ys Hy E2 IHf]; constructor; auto. }
  exists a, texts. split; [exact E0|]. split; [exact Ht|].
  rewrite <- E, finish_pass_join, Eo. reflexivity.
Qed.

Lemma reformat_pass_ok lim text w secs texts :
  parse_markdown lim (splitlines text) = Ok secs ->
  Forall (fun s => repr_check (fst s) (snd s) = Ok tt) secs ->
  section_texts lim w 0 secs texts ->
  reformat_pass (S lim) text w
  = Ok (finish_pass (separated None (combine (map fst secs) texts))).
Proof.
  intros Hp Hr Ht. cbn [reformat_pass]. rewrite Hp. cbn [bind].
  destruct (build_formatters_ok lim w 0 None secs texts Hr Ht) as (fs & E & Hf).
  rewrite E. cbn [bind].
  assert (E2 : mapM (fun '(ty, line_index, lines) =>
      reformatted (fun (lines0 : list str) (w' : width) =>
                     reformat_pass lim (str_join [c_nl] lines0 ++ [c_nl]) w')
                  ty line_index lines w) fs
      = Ok (separated None (combine (map fst secs) texts))).
  { apply mapM_ok. clear -Hf. induction Hf as [|[[ty i] ls] y fs ys Hy Hf IHf]; constructor; auto. }
  rewrite E2. cbn [pep479 bind]. rewrite finish_pass_join. reflexivity.
Qed.

(** The section at a position of a parsed document and its text. *)
Lemma section_texts_app lim w i s1 s2 texts :
  section_texts lim w i (s1 ++ s2) texts
  <-> exists t1 t2, texts = t1 ++ t2 /\ section_texts lim w i s1 t1
       /\ section_texts lim w (i + length (concat (map snd s1))) s2 t2.
Proof.
  revert i texts. induction s1 as [|[ty c] s1 IH]; intros i texts; cbn [app map concat].
  - cbn [length]. rewrite Nat.add_0_r. split.
    + intros H. exists [], texts. split; [reflexivity|]. split; [constructor|exact H].
    + intros (t1 & t2 & -> & H1 & H2). inv H1. exact H2.
  - split.
    + intros H. inv H. apply IH in H6. destruct H6 as (t1 & t2 & -> & H1 & H2).
      exists (r :: t1), t2. split; [reflexivity|]. split; [constructor; assumption|].
      cbn [snd]. rewrite app_length, Nat.add_assoc. exact H2.
    + intros (t1 & t2 & -> & H1 & H2). inv H1. cbn [app]. constructor; [assumption|].
      apply IH. exists outs, t2. split; [reflexivity|]. split; [assumption|].
      cbn [snd] in H2. rewrite app_length, Nat.add_assoc in H2. exact H2.
Qed.

Lemma section_texts_length lim w i secs texts :
  section_texts lim w i secs texts -> length texts = length secs.
Proof. induction 1; cbn; auto. Qed.

Lemma separated_app last l1 l2 :
  separated last (l1 ++ l2)
  = separated last l1
    ++ separated (match rev l1 with [] => last | (ty, _) :: _ => Some ty end) l2.
Proof.
  revert last. induction l1 as [|[ty r] l1 IH]; intros last; [reflexivity|].
  cbn [app separated]. rewrite IH, <- app_assoc. cbn [app]. do 4 f_equal.
  cbn [rev]. destruct (rev l1) as [|[ty' r'] x]; reflexivity.
Qed.

Lemma separated_nil last l : separated last l = [] -> l = [].
Proof.
  destruct l as [|[ty r] l]; [reflexivity|]. cbn [separated]. intros H.
  apply app_eq_nil in H. destruct H. discriminate.
Qed.

Lemma combine_app {A B} (l1 l2 : list A) (t1 t2 : list B) :
  length l1 = length t1 -> combine (l1 ++ l2) (t1 ++ t2) = combine l1 t1 ++ combine l2 t2.
Proof.
  revert t1. induction l1 as [|a l1 IH]; intros [|b t1] H; try discriminate; [reflexivity|].
  cbn in *. rewrite IH by lia. reflexivity.
Qed.

Lemma finish_pass_ne rs : rs <> [] -> finish_pass rs = newline_terminated rs.
Proof. destruct rs; [congruence|reflexivity]. Qed.

Lemma app_ne_r {A} (l1 l2 : list A) : l2 <> [] -> l1 ++ l2 <> [].
Proof. intros H E. apply app_eq_nil in E. tauto. Qed.
