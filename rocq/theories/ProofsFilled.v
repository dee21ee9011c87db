(** From the pieces to the lines of the wrapped text. *)
From Coq Require Import String.
From Verif Require Import Py Regex Utils TextWrap Base SpecLines ProofsLines ProofsRegex SpecWrap
  SpecFormat ProofsScan ProofsWrap ProofsTokens ProofsParser ProofsLinks ProofsPieces ProofsApart
  ProofsCode ProofsChars.

(** * Characters of the filled lines *)

Lemma put_Forall (P : char -> Prop) line p :
  P c_sp -> Forall P line -> Forall P (fst p) -> Forall P (put line p).
Proof.
  intros Hs Hl Hp. destruct p as [t [|]], line as [|c line]; cbn [put fst] in *; auto;
    repeat (apply Forall_app; split); auto.
Qed.

Lemma line_of_Forall (P : char -> Prop) g :
  P c_sp -> Forall (fun p => Forall P (fst p)) g -> Forall P (line_of g).
Proof.
  intros Hs. induction g as [|p g IH] using rev_ind; intros H; [constructor|].
  rewrite line_of_snoc. apply Forall_app in H. destruct H as [Hg Hp].
  apply put_Forall; auto. apply (Forall_inv Hp).
Qed.

Lemma filled_Forall (P : char -> Prop) w ps lines :
  filled w ps lines -> P c_sp -> Forall (fun p => Forall P (fst p)) ps -> Forall (Forall P) lines.
Proof.
  intros (groups & rest & -> & _ & -> & _) Hs H. apply Forall_app in H. destruct H as [H _].
  induction groups as [|g groups IH]; [constructor|]. cbn [concat map] in *.
  apply Forall_app in H. destruct H. constructor; auto. apply line_of_Forall; auto.
Qed.

(** * Non-whitespace characters *)

Lemma ink_put line p : ink (put line p) = ink line ++ ink (fst p).
Proof. destruct p as [t [|]], line as [|c line]; cbn [put fst]; rewrite ?ink_app; reflexivity. Qed.

Lemma ink_line_of g : ink (line_of g) = ink (concat (map fst g)).
Proof.
  induction g as [|p g IH] using rev_ind; [reflexivity|].
  rewrite line_of_snoc, ink_put, IH, map_app, concat_app, ink_app. cbn [map concat].
  rewrite app_nil_r. reflexivity.
Qed.

Lemma filled_ink w ps lines :
  filled w ps lines -> ink (str_join [c_nl] lines) = ink (concat (map fst ps)).
Proof.
  intros (groups & rest & -> & Hr & -> & _).
  assert (Hi := ink_line_of rest). rewrite Hr in Hi.
  rewrite ink_join_nl, map_app, concat_app, ink_app. cbv [piece] in *. rewrite <- Hi, app_nil_r. clear Hr Hi. induction groups as [|g groups IH]; [reflexivity|]. cbn [map concat].
  rewrite map_app, concat_app, !ink_app, <- IH, ink_line_of. reflexivity.
Qed.

Lemma texts_pieces ts : concat (map fst (map piece_of ts)) = texts ts.
Proof. unfold texts. rewrite map_map. reflexivity. Qed.

(** * Words *)

Lemma words_put line p : snd p = true \/ line = [] -> words (put line p) = words line ++ words (fst p).
Proof.
  intros H. destruct p as [t [|]], line as [|c line]; cbn [put fst snd app] in *; auto.
  - rewrite app_comm_cons. apply words_app_space. reflexivity.
  - destruct H; discriminate.
Qed.

Lemma words_line_of g : Forall (fun p => snd p = true) (tl g) ->
  words (line_of g) = concat (map (fun p => words (fst p)) g).
Proof.
  induction g as [|p g IH] using rev_ind; intros H; [reflexivity|].
  rewrite line_of_snoc, map_app, concat_app. cbn [map concat]. rewrite app_nil_r.
  destruct g as [|q g].
  - cbn. destruct p as [t [|]]; reflexivity.
  - cbn [tl app] in H. apply Forall_app in H. destruct H as [H Hp].
    rewrite words_put by (left; apply (Forall_inv Hp)). rewrite IH by exact H. reflexivity.
Qed.

Lemma filled_words w ps lines :
  Forall (fun p => snd p = true) (tl ps) -> filled w ps lines ->
  words (str_join [c_nl] lines) = concat (map (fun p => words (fst p)) ps).
Proof.
  intros Hl (groups & rest & -> & Hr & -> & _). rewrite words_join_nl.
  assert (Htl : forall g1 g2 : list piece, Forall (fun p => snd p = true) (tl (g1 ++ g2)) ->
            Forall (fun p => snd p = true) (tl g1) /\ Forall (fun p => snd p = true) (tl g2)).
  { intros [|p g1] g2 H; cbn in *; [split; [constructor|exact H]|].
    apply Forall_app in H. destruct H as [H1 H2]. split; [exact H1|].
    destruct g2; [constructor|]. inversion H2; assumption. }
  apply Htl in Hl. destruct Hl as [Hl Hlr].
  assert (Hw := words_line_of rest Hlr). rewrite Hr in Hw.
  rewrite map_app, concat_app. cbv [piece] in *. rewrite <- Hw. cbn [words].
  rewrite app_nil_r. clear rest Hr Hlr Hw.
  induction groups as [|g groups IH]; [reflexivity|]. cbn [concat map] in *.
  apply Htl in Hl. destruct Hl as [Hg Hl].
  rewrite map_app, concat_app, <- words_line_of by exact Hg. f_equal. apply IH. exact Hl.
Qed.

(** * [wrap] *)

Lemma joined_one_line text : one_line (joined text).
Proof.
  unfold joined, one_line. apply Forall_str_join; [repeat constructor|].
  apply Forall_map. eapply Forall_impl; [|apply splitlines_no_linebreak].
  intros l H. apply Forall_strip. exact H.
Qed.

Lemma wrap_tokens_one_line text ts :
  wrap_tokens text = Ok ts -> Forall (fun p => one_line (fst p)) (map piece_of ts).
Proof.
  intros E. unfold wrap_tokens in E. apply Forall_map. unfold one_line. cbn [piece_of fst].
  set (P := fun c => is_linebreak c = false).
  assert (Pi : forall c, is_inline c = true -> P c).
  { intros c H. unfold P. unfold is_inline in H. apply existsb_exists in H.
    destruct H as (x & Hin & Ex). apply N.eqb_eq in Ex. subst x. cbn in Hin.
    repeat destruct Hin as [<-|Hin]; try reflexivity. destruct Hin. }
  apply bind_ok in E. destruct E as (t1 & E1 & E). apply bind_ok in E. destruct E as (t2 & E2 & E).
  apply bind_ok in E. destruct E as (t3 & E3 & E).
  eapply (okt_split_pass P); [exact (okt_space_split P)| |eassumption].
  eapply (okt_split_pass P); [exact (okt_newline_split P)| |eassumption].
  eapply (okt_split_pass P); [exact (okt_link_split P Pi)| |eassumption].
  eapply (okt_split_pass P); [exact (okt_code_split P Pi)| |eassumption].
  constructor; [|constructor]. cbn [t_text]. apply joined_one_line.
Qed.

Lemma wrap_ok text w out :
  wrap text w = Ok out ->
  exists ts lines, wrap_tokens text = Ok ts /\ out = str_join [c_nl] lines
    /\ filled w (map piece_of ts) lines /\ Forall one_line lines.
Proof.
  rewrite wrap_by_tokens. intros E. apply bind_ok in E. destruct E as (ts & Et & E).
  apply ok_inj in E. destruct (join_filled w ts) as (lines & El & Hf).
  exists ts, lines. split; [exact Et|]. split; [congruence|]. split; [exact Hf|].
  eapply filled_Forall; [exact Hf|reflexivity|]. apply wrap_tokens_one_line with text. exact Et.
Qed.

Lemma wrap_err text w e : wrap text w = Err e -> dot_word text /\ e = IndexError.
Proof.
  rewrite wrap_by_tokens. intros E. apply bind_err in E. destruct E as [E|(ts & _ & E)]; [|discriminate].
  apply wrap_tokens_err. exact E.
Qed.

(** * Plain text *)

Lemma words_cons_ink c s : is_space c = false ->
  exists w ws, words (c :: s) = (c :: w) :: ws
    /\ ((words s = ws /\ w = []) \/ (words s = w :: ws)).
Proof.
  intros Hc. cbn [words]. rewrite Hc. destruct s as [|d s]; [exists [], []; auto|].
  destruct (is_space d); [exists [], (words (d :: s)); auto|].
  destruct (words (d :: s)) as [|w ws]; [exists [], []|exists w, ws]; auto.
Qed.

Lemma words_cons_ink2 c d s w ws : is_space c = false -> is_space d = false ->
  words (d :: s) = w :: ws -> words (c :: d :: s) = (c :: w) :: ws.
Proof.
  intros Hc Hd E. remember (d :: s) as t eqn:Et. cbn [words]. rewrite Hc, E, Et, Hd. reflexivity.
Qed.

Lemma words_prefix z b : z <> [] -> Forall (fun c => is_space c = false) z ->
  exists w ws, words (z ++ b) = (z ++ w) :: ws.
Proof.
  intros Hn H. induction H as [|c z Hc H IH]; [congruence|]. cbn [app].
  destruct z as [|d z].
  - destruct (words_cons_ink c b Hc) as (w & ws & E & _). exists w, ws. exact E.
  - destruct (IH ltac:(discriminate)) as (w & ws & E).
    exists w, ws. cbn [app] in *. apply words_cons_ink2; auto. apply (Forall_inv H).
Qed.

Lemma words_infix z a b : z <> [] -> Forall (fun c => is_space c = false) z ->
  exists w x y, In w (words (a ++ z ++ b)) /\ w = x ++ z ++ y.
Proof.
  intros Hn H. induction a as [|c a IH].
  - destruct (words_prefix z b Hn H) as (w & ws & E). cbn [app]. rewrite E.
    exists (z ++ w), [], w. split; [left; reflexivity|reflexivity].
  - destruct IH as (w & x & y & Hin & E). cbn [app]. destruct (is_space c) eqn:Hc.
    + rewrite words_cons_space by exact Hc. eauto.
    + destruct (words_cons_ink c (a ++ z ++ b) Hc) as (w' & ws & E' & [[E2 ->]|E2]); rewrite E'.
      * exists w, x, y. split; [right; congruence|exact E].
      * rewrite E2 in Hin. destruct Hin as [->|Hin].
        -- exists (c :: w), (c :: x), y. split; [left; reflexivity|]. rewrite E. reflexivity.
        -- exists w, x, y. split; [right; exact Hin|exact E].
Qed.

Lemma plain_infix text a z b : plain text -> In z markup -> joined text <> a ++ z ++ b.
Proof.
  intros H Hz E.
  assert (G : z <> [] /\ Forall (fun c => is_space c = false) z).
  { cbn in Hz. repeat destruct Hz as [<-|Hz]; try (split; [discriminate|repeat constructor]). destruct Hz. }
  destruct (words_infix z a b (proj1 G) (proj2 G)) as (w & x & y & Hin & Ew).
  rewrite <- E, words_joined in Hin. exact (H w z x y Hin Hz Ew).
Qed.

Definition no_markup (s : str) : Prop := forall a z b, In z markup -> s <> a ++ z ++ b.

Lemma no_markup_infix x s y : no_markup (x ++ s ++ y) -> no_markup s.
Proof. intros H a z b Hz ->. apply (H (x ++ a) z (b ++ y) Hz). rewrite <- !app_assoc. reflexivity. Qed.

Lemma no_markup_strip s : no_markup s -> no_markup (strip s).
Proof.
  intros H. destruct (strip_spec s) as (x & y & E & _). rewrite E in H.
  apply no_markup_infix in H. exact H.
Qed.

Lemma finditer_nil r s : (forall x g y, s = x ++ g ++ y -> ~ den r g) -> finditer r s = [].
Proof.
  intros H. destruct (finditer r s) as [|[a b] ms] eqn:E; [reflexivity|]. exfalso.
  destruct (finditer_In r s a b) as (x & g & y & Es & _ & Hd & _).
  - rewrite E. left. reflexivity.
  - exact (H x g y Es Hd).
Qed.

Lemma no_markup_ticks s : no_markup s -> finditer INLINE_CODE_MARKER_REGEX s = [].
Proof.
  intros H. apply finditer_nil. intros x g y -> Hd.
  unfold INLINE_CODE_MARKER_REGEX, Plus in Hd. cbn [den] in Hd.
  destruct Hd as (c & s' & -> & E & _). apply N.eqb_eq in E. subst c.
  apply (H x (lit "`") (s' ++ y)); [left; reflexivity|reflexivity].
Qed.

Lemma no_markup_links s : no_markup s -> link_matches s = [].
Proof.
  intros H. assert (G := link_matches_at s). destruct (link_matches s) as [|m ms]; [reflexivity|].
  exfalso. apply Forall_inv in G. destruct G as (x & g & y & p & q & u & r & o & cl & -> & [E K _ _ _ _] & _).
  apply (H (x ++ p ++ [c_lbr] ++ q) [c_rbr; o] ((u ++ [cl] ++ r) ++ y)).
  - destruct K as [[-> _]|[-> _]]; cbn; auto.
  - rewrite E, <- !app_assoc. reflexivity.
Qed.

Lemma no_markup_breaks s : no_markup s -> finditer HTML_NEWLINE_REGEX s = [].
Proof.
  intros H. apply finditer_nil. intros x g y -> Hd. apply html_den in Hd.
  assert (G : exists t, g = lit "<br" ++ t).
  { cbn in Hd. repeat destruct Hd as [<-|Hd]; try (eexists; reflexivity). destruct Hd. }
  destruct G as (t & ->). apply (H x (lit "<br") (t ++ y)); [cbn; auto 6|]. rewrite <- !app_assoc. reflexivity.
Qed.

(** One token, or none when there is nothing but whitespace. *)
Definition one_tok (s : str) (lead : bool) : list tok :=
  if blank s then [] else [Tok (strip s) lead true].

Lemma code_split_plain s lead : no_markup s -> one_dot s = false ->
  code_split s lead = Ok (one_tok s lead).
Proof.
  intros H Hd. unfold code_split. rewrite no_markup_ticks by exact H. cbn [fold_left nilb negb andb].
  unfold split_tail. cbn [skipn]. rewrite Hd. cbn [bind]. unfold one_tok. destruct (blank s); reflexivity.
Qed.

Lemma link_split_plain s lead : no_markup s -> one_dot s = false ->
  link_split s lead = Ok (one_tok s lead).
Proof.
  intros H Hd. unfold link_split. rewrite no_markup_links by exact H. cbn [foldM bind].
  unfold split_tail. cbn [skipn]. rewrite Hd. cbn [bind]. unfold one_tok. destruct (blank s); reflexivity.
Qed.

Lemma newline_split_plain s lead : no_markup s ->
  newline_split s lead = Ok (one_tok s lead).
Proof.
  intros H. unfold newline_split. rewrite no_markup_breaks by exact H. cbn [fold_left skipn].
  unfold one_tok. destruct (blank s); reflexivity.
Qed.

Lemma split_pass_one f t lead : split_pass f [Tok t lead true] = f t lead.
Proof.
  unfold split_pass. cbn [mapM t_eval t_text t_lead].
  destruct (f t lead) as [x|]; [|reflexivity]. cbn. rewrite app_nil_r. reflexivity.
Qed.

Definition space_toks (ws : list str) (lead : bool) : list tok :=
  match filter (fun w => negb (nilb w)) ws with
  | [] => []
  | w :: ws => Tok (strip w) lead true :: map (fun w => Tok (strip w) true true) ws
  end.

Lemma space_fold_toks ws lead : fold_left (space_step lead) ws [] = space_toks ws lead.
Proof.
  assert (G : forall ws ts, ts <> [] ->
    fold_left (space_step lead) ws ts
    = ts ++ map (fun w => Tok (strip w) true true) (filter (fun w => negb (nilb w)) ws)).
  { clear. induction ws as [|w ws IH]; intros ts Hn; [cbn; rewrite app_nil_r; reflexivity|].
    cbn [fold_left filter]. unfold space_step at 2. destruct (nilb w) eqn:E; cbn [negb]; [apply IH; exact Hn|].
    apply nilb_false in Hn. rewrite Hn. rewrite IH by (destruct ts; discriminate). cbn [map].
    rewrite <- app_assoc. reflexivity. }
  unfold space_toks. induction ws as [|w ws IH]; [reflexivity|]. cbn [fold_left filter].
  unfold space_step at 2. destruct (nilb w) eqn:E; cbn [negb]; [exact IH|]. cbn [nilb app].
  rewrite G by discriminate. reflexivity.
Qed.

Lemma blank_strip_false s : blank s = false -> blank (strip s) = false.
Proof. intros H. apply ink_ne_blank. rewrite ink_strip. apply ink_ne_blank. exact H. Qed.

(** The tokens of a plain text. *)
Lemma wrap_tokens_plain text :
  plain text -> one_dot (joined text) = false -> one_dot (strip (joined text)) = false ->
  wrap_tokens text
  = Ok (if blank (joined text) then [] else space_toks (split_on c_sp (strip (joined text))) false).
Proof.
  intros Hp Hd Hd2. unfold wrap_tokens. rewrite split_pass_one.
  assert (Hm : no_markup (joined text)).
  { intros a z b Hz. apply plain_infix; assumption. }
  assert (Hms := no_markup_strip _ Hm).
  rewrite code_split_plain by assumption. cbn [bind]. unfold one_tok.
  destruct (blank (joined text)) eqn:Eb; [reflexivity|]. assert (Ebs := blank_strip_false _ Eb).
  rewrite split_pass_one, link_split_plain by assumption. unfold one_tok. rewrite Ebs. cbn [bind].
  rewrite strip_idem, split_pass_one, newline_split_plain by assumption. unfold one_tok. rewrite Ebs.
  cbn [bind]. rewrite strip_idem, split_pass_one. unfold space_split. rewrite space_fold_toks. reflexivity.
Qed.

Lemma one_dot_strip text : one_dot (strip text) = true -> exists w ws, words text = w :: ws /\ one_dot w = true.
Proof.
  intros H. rewrite <- words_strip. apply one_dot_spec in H. destruct H as (u & -> & Hu).
  apply one_dot_word. exact Hu.
Qed.

Lemma one_dot_first text : one_dot text = true -> exists w ws, words text = w :: ws /\ one_dot w = true.
Proof.
  intros H. apply one_dot_spec in H. destruct H as (u & -> & Hu). apply one_dot_word. exact Hu.
Qed.

Lemma wrap_tokens_plain_ok text ts :
  plain text -> wrap_tokens text = Ok ts ->
  ts = if blank (joined text) then [] else space_toks (split_on c_sp (strip (joined text))) false.
Proof.
  intros Hp E. assert (Hm : no_markup (joined text)).
  { intros a z b Hz. apply plain_infix; assumption. }
  destruct (one_dot (joined text)) eqn:Hd.
  - exfalso. unfold wrap_tokens in E. rewrite split_pass_one in E. unfold code_split in E.
    rewrite no_markup_ticks in E by exact Hm. cbn [fold_left nilb negb andb skipn] in E.
    unfold split_tail in E. rewrite Hd in E. discriminate.
  - destruct (one_dot (strip (joined text))) eqn:Hd2.
    + exfalso. unfold wrap_tokens in E. rewrite split_pass_one in E.
      rewrite code_split_plain in E by assumption. unfold one_tok in E.
      destruct (blank (joined text)) eqn:Eb.
      * apply one_dot_spec in Hd2. destruct Hd2 as (u & E2 & _).
        assert (strip (joined text) <> []) by (rewrite E2; discriminate).
        apply blank_strip in H. congruence.
      * cbn [bind] in E. rewrite split_pass_one in E. unfold link_split in E.
        rewrite no_markup_links in E by (apply no_markup_strip; exact Hm).
        cbn [foldM bind] in E. unfold split_tail in E. cbn [skipn] in E. rewrite Hd2 in E. discriminate.
    + rewrite wrap_tokens_plain in E by assumption. apply ok_inj in E. congruence.
Qed.

Lemma space_toks_words ws lead :
  concat (map (fun t => words (t_text t)) (space_toks ws lead)) = concat (map words ws).
Proof.
  assert (G : forall ws, concat (map (fun t => words (t_text t))
              (map (fun w => Tok (strip w) true true) (filter (fun w => negb (nilb w)) ws)))
              = concat (map words ws)).
  { clear. induction ws as [|w ws IH]; [reflexivity|]. cbn [filter map concat].
    destruct w as [|c w]; cbn [nilb negb]; [exact IH|]. cbn [map concat t_text].
    rewrite IH, words_strip. reflexivity. }
  rewrite <- G. unfold space_toks. destruct (filter _ ws) as [|w ws']; reflexivity.
Qed.

Lemma space_toks_lead ws lead : Forall (fun t => t_lead t = true) (tl (space_toks ws lead)).
Proof.
  unfold space_toks. destruct (filter _ ws) as [|w ws']; [constructor|]. cbn [tl].
  apply Forall_map, Forall_forall. reflexivity.
Qed.

Lemma wrap_plain_words text w out : plain text -> wrap text w = Ok out -> words out = words text.
Proof.
  intros Hp E. apply wrap_ok in E. destruct E as (ts & lines & Et & -> & Hf & _).
  apply wrap_tokens_plain_ok in Et; [|exact Hp].
  rewrite (filled_words w (map piece_of ts)).
  - rewrite map_map. cbn [piece_of fst]. subst ts. rewrite <- words_joined.
    destruct (blank (joined text)) eqn:Eb.
    + apply blank_iff in Eb. rewrite words_spaces by exact Eb. reflexivity.
    + rewrite space_toks_words, <- words_join, join_split_on, words_strip. reflexivity.
  - subst ts. destruct (blank (joined text)); [constructor|].
    assert (H := space_toks_lead (split_on c_sp (strip (joined text))) false).
    destruct (space_toks _ _); [constructor|]. cbn [tl map] in *. apply Forall_map. exact H.
  - exact Hf.
Qed.
