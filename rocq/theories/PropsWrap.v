(** Properties C18 and C20-C24: wrapping. *)
From Coq Require Import String.
From Verif Require Import Py Regex Utils TextWrap Lines Detectors Formatters Base
  SpecLines SpecParser SpecFormat SpecWrap ProofsLines ProofsParser ProofsShapes ProofsWrap ProofsTokens
  ProofsPieces ProofsApart ProofsCode ProofsFilled ProofsGaps ProofsSeams ProofsBreaks ProofsLost ProofsSolid PropsParser.

(** * Success *)

(** Wrapping fails only on text with a word that begins with a single dot. *)
Theorem C20_wrap_succeeds : forall text w,
  ~ dot_word text -> exists out, wrap text w = Ok out.
Proof.
  intros text w H. destruct (wrap text w) as [out|e] eqn:E; [eauto|].
  apply wrap_err in E. tauto.
Qed.

(** * C20 *)

(** At any width each line is not empty, and fits or is a piece of the text inside which
    no line is ever broken. *)
Theorem C20_lines_fit : forall text w out, wrap text w = Ok out ->
  exists lines, out = str_join [c_nl] lines /\ Forall one_line lines
    /\ Forall (fun line => line <> []
                 /\ (fits w (length line) \/ solid (joined text) line)) lines.
Proof.
  intros text w out E. apply wrap_ok in E. destruct E as (ts & lines & Et & -> & Hf & Ho).
  exists lines. split; [reflexivity|]. split; [exact Ho|]. apply wrap_tokens_solid in Et.
  destruct Hf as (groups & rest & Ep & _ & -> & Hne & Hg & _). clear Ho.
  assert (G : forall p, In p (concat groups) -> solid (joined text) (fst p)).
  { intros p Hp. assert (Hin : In p (map piece_of ts)) by (rewrite Ep; apply in_app_iff; left; exact Hp).
    apply in_map_iff in Hin. destruct Hin as (t & <- & Hin). rewrite Forall_forall in Et. apply (Et t Hin). }
  rewrite Forall_map in *. rewrite Forall_forall in *. intros g Hin. split; [apply Hne; exact Hin|].
  destruct (Hg g Hin) as [H|(p & Hp & H)]; [left; exact H|]. right. rewrite H. apply G.
  apply in_concat. eauto.
Qed.

Example C20_nonvacuous :
  wrap (lit "aa bbb `c  c` [d e](f g) hhhhhh") (WInt 6)
  = Ok (str_join [c_nl] [lit "aa bbb"; lit "`c  c`"; lit "[d e]("; lit "f g)"; lit "hhhhhh"])
  /\ wrap (lit "aa bbb `c  c` [d e](f g) hhhhhh") (WInt 4)
  = Ok (str_join [c_nl] [lit "aa"; lit "bbb"; lit "`c  c`"; lit "[d"; lit "e]("; lit "f g)"; lit "hhhhhh"]).
Proof. split; vm_compute; reflexivity. Qed.

(** Two code spans and the text between them are not such a piece. *)
Example C20_not_solid : ~ solid (lit "aa `b` c `d`") (lit "`b` c `d`").
Proof.
  intros [H|[H|[H|H]]].
  - apply H. cbn. tauto.
  - destruct H as (before & n & code & m & dot & after & _ & E & _ & _ & Hn & Hc & Hm & _ & Hd & _).
    assert (n = 1).
    { destruct n as [|[|n]]; [lia|reflexivity|]. cbn in E. discriminate. }
    subst n. cbn [repeat app] in E.
    assert (E2 : lit "b` c `d`" = code ++ repeat c_bt m ++ dot) by (cbn in E; injection E as E; exact E).
    clear E. destruct Hd as [<-|[<-|[]]].
    2: { rewrite app_assoc in E2. change (lit "b` c `d`") with (lit "b` c `d" ++ [c_bt]) in E2.
         apply app_inj_tail in E2. destruct E2. discriminate. }
    rewrite app_nil_r in E2. destruct m as [|m]; [lia|]. change (repeat c_bt (S m)) with (rep c_bt (S m)) in E2; rewrite rep_snoc, app_assoc in E2.
    change (lit "b` c `d`") with (lit "b` c `d" ++ [c_bt]) in E2. apply app_inj_tail in E2.
    destruct E2 as [E2 _]. destruct m as [|m].
    + cbn [repeat] in E2. rewrite app_nil_r in E2. subst code. destruct Hc as (_ & _ & _ & Hc).
      destruct (Hc (lit "b") (lit " c `d") eq_refl) as [(a & Ea)|(b & Eb)].
      * destruct a as [|x [|y a]]; discriminate.
      * discriminate.
    + change (repeat c_bt (S m)) with (rep c_bt (S m)) in E2; rewrite rep_snoc, app_assoc in E2. change (lit "b` c `d") with (lit "b` c `" ++ lit "d") in E2.
      apply app_inj_tail in E2. destruct E2. discriminate.
  - cbn in H. repeat (destruct H as [H|H]; [discriminate|]). destruct H.
  - destruct H as (before & z & close & ws & half & after & Hj & E & _).
    assert (C : contains z (lit "aa `b` c `d`") = true) by (apply contains_spec; eauto).
    cbn [joints In] in Hj. destruct Hj as [Hj|[Hj|[]]]; injection Hj as <- <-; discriminate.
Qed.

(** * C21 *)

(** The lines are such pieces, filled greedily. The pieces do not depend on the width
    and, when links are apart, they hold all the characters of the text in order. *)
Theorem C21_greedy : forall text, exists pieces,
  Forall (fun p => solid (joined text) (fst p)) pieces
  /\ (links_apart (joined text) -> ~ dot_word text -> ink (concat (map fst pieces)) = ink text)
  /\ forall w out, wrap text w = Ok out ->
     exists lines, out = str_join [c_nl] lines /\ Forall one_line lines /\ filled w pieces lines.
Proof.
  intros text. destruct (wrap_tokens text) as [ts|e] eqn:Et.
  - exists (map piece_of ts). split; [rewrite Forall_map; apply (wrap_tokens_solid text ts Et)|]. split.
    + intros Ha _. rewrite texts_pieces. apply wrap_tokens_ink; assumption.
    + intros w out E. apply wrap_ok in E. destruct E as (ts' & lines & Et' & -> & Hf & Ho).
      rewrite Et in Et'. apply ok_inj in Et'. subst ts'. eauto.
  - exists []. split; [constructor|]. split.
    + apply wrap_tokens_err in Et. tauto.
    + intros w out E. rewrite wrap_by_tokens, Et in E. discriminate.
Qed.

Lemma words_split_on s : Forall (fun c => is_space c = true -> c = c_sp) s ->
  map strip (filter (fun w => negb (nilb w)) (split_on c_sp s)) = words s.
Proof.
  intros H. rewrite <- (join_split_on c_sp s) at 2. rewrite words_join.
  assert (G : Forall (Forall (fun c => is_space c = false)) (split_on c_sp s)).
  { assert (G1 := split_on_no_sep c_sp s).
    assert (G2 := Forall_split_on (fun c => is_space c = true -> c = c_sp) c_sp s H).
    revert G1 G2. generalize (split_on c_sp s). clear. intros l. induction l as [|w l IH]; intros G1 G2; [constructor|].
    inversion G1; inversion G2; subst. constructor; [|auto]. clear -H1 H5.
    induction w as [|c w IH]; [constructor|]. inversion H1; inversion H5; subst. constructor; [|auto].
    destruct (is_space c); [|reflexivity]. exfalso. auto. }
  revert G. generalize (split_on c_sp s). clear. intros l G. induction G as [|w l Hw Hl IH]; [reflexivity|].
  cbn [filter map concat]. destruct w as [|c w]; [exact IH|]. cbn [nilb negb map].
  rewrite strip_no_space, IH, words_one; [reflexivity|discriminate|exact Hw|exact Hw].
Qed.

Lemma filled_lead w a b ps lines :
  filled w ((a, b) :: ps) lines -> forall b', filled w ((a, b') :: ps) lines.
Proof.
  intros (groups & rest & Ep & Hr & -> & Hne & Hg & Hb & Ho) b'.
  assert (Lo : forall x y g, line_of ((a, x) :: g) = line_of ((a, y) :: g)) by reflexivity.
  destruct groups as [|[|p0 g0] groups].
  - cbn [concat app] in Ep. destruct rest as [|p rest]; [discriminate|]. injection Ep as <- ->.
    exists [], ((a, b') :: rest). repeat split; auto.
  - exfalso. cbn [map] in Hne. apply Forall_inv in Hne. apply Hne. reflexivity.
  - cbn [concat app] in Ep. injection Ep as <- Ep.
    exists (((a, b') :: g0) :: groups), rest. cbn [concat app]. rewrite <- Ep.
    split; [reflexivity|]. split; [exact Hr|]. split; [reflexivity|].
    split; [exact Hne|]. split; [|split].
    + inversion Hg as [|? ? H1 H2]; subst. constructor; [|exact H2].
      destruct H1 as [H1|(p & Hin & H1)]; [left; exact H1|]. right. destruct Hin as [<-|Hin].
      * exists (a, b'). split; [left; reflexivity|exact H1].
      * exists p. split; [right; exact Hin|exact H1].
    + intros before g g' after E. destruct before as [|g1 before].
      * injection E as <- E. destruct (Hb [] ((a, b) :: g0) g' after) as [H|H].
        -- cbn [app]. rewrite E. reflexivity.
        -- left. destruct H as (ps' & p & H & Hp). destruct ps' as [|q ps'].
           ++ injection H as <- ->. exists [], (a, b'). split; [reflexivity|exact Hp].
           ++ injection H as _ ->. exists ((a, b') :: ps'), p. split; [reflexivity|exact Hp].
        -- right. exact H.
      * injection E as <- E. apply (Hb (((a, b) :: g0) :: before) g g' after). cbn [app].
        rewrite E. reflexivity.
    + inversion Ho as [|? ? H1 H2]; subst. constructor; [|exact H2].
      intros g1 p g2 E Hp. destruct g1 as [|q g1].
      * injection E as <- ->. apply (H1 [] (a, b) g2 eq_refl Hp).
      * injection E as _ E. apply (H1 ((a, b) :: g1) p g2); [cbn; rewrite E; reflexivity|exact Hp].
Qed.

(** The words of plain text, whose whitespace is spaces and line separators, are the pieces. *)
Theorem C21_plain_words : forall text w out,
  plain text -> Forall (fun c => is_space c = true -> c = c_sp \/ is_linebreak c = true) text ->
  wrap text w = Ok out ->
  exists lines, out = str_join [c_nl] lines /\ filled w (words_as_pieces (words text)) lines.
Proof.
  intros text w out Hp Hs E. apply wrap_ok in E. destruct E as (ts & lines & Et & -> & Hf & _).
  exists lines. split; [reflexivity|]. apply wrap_tokens_plain_ok in Et; [|exact Hp].
  assert (Hj : Forall (fun c => is_space c = true -> c = c_sp) (joined text)).
  { unfold joined. apply Forall_str_join; [auto|]. apply Forall_map.
    assert (G1 := Forall_splitlines _ _ Hs). assert (G2 := splitlines_no_linebreak text).
    revert G1 G2. generalize (splitlines text). clear. intros l. induction l as [|x l IH]; intros G1 G2; [constructor|].
    inversion G1; inversion G2; subst. constructor; [|auto]. apply Forall_strip. clear -H1 H5.
    induction x as [|c x IH]; [constructor|]. inversion H1; inversion H5; subst. constructor; [|auto].
    intros Hc. destruct (H2 Hc); [assumption|congruence]. }
  rewrite <- words_joined. destruct (blank (joined text)) eqn:Eb.
  - subst ts. apply blank_iff in Eb. rewrite words_spaces by exact Eb. exact Hf.
  - rewrite <- words_strip, <- words_split_on by (apply Forall_strip; exact Hj).
    subst ts. unfold space_toks in Hf. destruct (filter _ _) as [|x ws] eqn:Ef; [exact Hf|].
    cbn [map] in Hf. unfold words_as_pieces. cbn [map]. unfold piece_of at 1 in Hf. cbn [t_text t_lead] in Hf.
    apply filled_lead with (b' := true) in Hf. rewrite map_map in *. exact Hf.
Qed.

Example C21_nonvacuous :
  wrap (lit "a bb" ++ [c_nl] ++ lit "ccc  d ee f") (WInt 5)
  = Ok (str_join [c_nl] [lit "a bb"; lit "ccc d"; lit "ee f"])
  /\ wrap (lit "a<br>b c") (WInt 20) = Ok (str_join [c_nl] [lit "a<br>"; lit "b c"]).
Proof. split; vm_compute; reflexivity. Qed.

Example C21_plain_nonvacuous : plain (lit "a bb" ++ [c_nl] ++ lit "ccc  d ee f").
Proof.
  intros word z a b Hw Hz E. subst word.
  assert (G : Forall (fun x => contains z x = false) (words (lit "a bb" ++ [c_nl] ++ lit "ccc  d ee f"))).
  { cbn in Hz. repeat destruct Hz as [<-|Hz]; [..|destruct Hz]; vm_compute; repeat constructor. }
  rewrite Forall_forall in G. specialize (G _ Hw).
  assert (contains z (a ++ z ++ b) = true) by (apply contains_spec; eauto). congruence.
Qed.

(** * C22 *)

(** Wrapping can lose text: the target of a link around an image. *)
Theorem C22_refuted :
  ~ (forall text w out, wrap text w = Ok out -> ink out = ink text).
Proof.
  intros H.
  specialize (H (lit "[![img](a.png)](link)") (WInt 88) (lit "[![img](a.png)") ltac:(vm_compute; reflexivity)).
  discriminate.
Qed.

(** Missing: text in which links overlap, or links of different kinds touch. *)
Theorem C22_partial : forall text w out,
  links_apart (joined text) -> wrap text w = Ok out -> ink out = ink text.
Proof.
  intros text w out Ha E. apply wrap_ok in E. destruct E as (ts & lines & Et & -> & Hf & _).
  rewrite (filled_ink w _ _ Hf), texts_pieces. apply wrap_tokens_ink; assumption.
Qed.

(** Text without links. *)
Theorem C22_plain : forall text w out,
  (forall word z close a b, In word (words text) -> In (z, close) joints -> word <> a ++ z ++ b) ->
  wrap text w = Ok out -> ink out = ink text.
Proof.
  intros text w out H. apply C22_partial. intros a z close b z' close' c E Hz _. exfalso.
  assert (G : z <> [] /\ Forall (fun c => is_space c = false) z).
  { cbn in Hz. repeat destruct Hz as [Hz|Hz]; try (injection Hz as <- <-; split; [discriminate|repeat constructor]).
    destruct Hz. }
  destruct (words_infix z a (b ++ z' ++ c) (proj1 G) (proj2 G)) as (word & x & y & Hin & Ew).
  rewrite <- E, words_joined in Hin. exact (H word z close x y Hin Hz Ew).
Qed.

(** A test for [links_apart], for examples. *)
Fixpoint after (p : char -> bool) (s : str) : option str :=
  match s with
  | [] => None
  | c :: s' => if p c then Some s' else after p s'
  end.

Definition closed_by (same : bool) (close b : str) : bool :=
  match after (fun c => str_eqb [c] close) b with
  | Some b => match (if same then Some b else after is_space b) with
              | Some b => match after (N.eqb c_lbr) b with Some _ => true | None => false end
              | None => false
              end
  | None => false
  end.

Definition apart_test (text : str) : bool :=
  forallb (fun i => forallb (fun j => forallb (fun zc => forallb (fun zc' =>
    implb (startswith (fst zc) (skipn i text) && startswith (fst zc') (skipn (j + 2 + i) text))
          (closed_by (str_eqb (fst zc) (fst zc')) (snd zc) (firstn j (skipn (2 + i) text)))) joints) joints)
    (seq 0 (length text))) (seq 0 (length text)).

Lemma after_spec p s r : after p s = Some r -> exists x c, s = x ++ [c] ++ r /\ p c = true.
Proof.
  revert r. induction s as [|c s IH]; cbn [after]; intros r H; [discriminate|].
  destruct (p c) eqn:E.
  - apply some_inj in H. subst. exists [], c. auto.
  - destruct (IH r H) as (x & d & -> & Hd). exists (c :: x), d. auto.
Qed.

Lemma apart_test_sound text : apart_test text = true -> links_apart text.
Proof.
  intros H a z close b z' close' c E Hz Hz'. unfold apart_test in H. rewrite forallb_forall in H.
  assert (Lz : length z = 2 /\ length z' = 2).
  { split; [revert Hz|revert Hz']; cbn; intros [X|[X|[]]]; injection X as <- _; reflexivity. }
  assert (L := f_equal (@length _) E). rewrite !app_length in L.
  specialize (H (length a)). rewrite in_seq in H. specialize (H ltac:(lia)). rewrite forallb_forall in H.
  specialize (H (length b)). rewrite in_seq in H. specialize (H ltac:(lia)). rewrite forallb_forall in H.
  specialize (H _ Hz). rewrite forallb_forall in H. specialize (H _ Hz'). cbn [fst snd] in H.
  assert (S1 : skipn (length a) text = z ++ b ++ z' ++ c).
  { rewrite E, skipn_app, skipn_all, Nat.sub_diag. reflexivity. }
  assert (S2 : skipn (2 + length a) text = b ++ z' ++ c).
  { rewrite E, app_assoc, <- (proj1 Lz), Nat.add_comm, <- app_length.
    rewrite skipn_app, skipn_all, Nat.sub_diag. reflexivity. }
  assert (S3 : skipn (length b + 2 + length a) text = z' ++ c).
  { rewrite E, (app_assoc a), (app_assoc (a ++ z)).
    replace (length b + 2 + length a) with (length ((a ++ z) ++ b)) by (rewrite !app_length; lia).
    rewrite skipn_app, skipn_all, Nat.sub_diag. reflexivity. }
  rewrite S1, S2, S3 in H.
  rewrite firstn_app, firstn_all, Nat.sub_diag, firstn_O, app_nil_r in H.
  replace (startswith z (z ++ b ++ z' ++ c)) with true in H by (symmetry; apply startswith_spec; eauto).
  replace (startswith z' (z' ++ c)) with true in H by (symmetry; apply startswith_spec; eauto).
  cbn [andb implb] in H. unfold closed_by in H.
  destruct (after _ b) as [b2|] eqn:E1; [|discriminate].
  apply after_spec in E1. destruct E1 as (x1 & c1 & -> & P1). apply str_eqb_eq in P1. subst close.
  destruct (str_eqb z z') eqn:Ez.
  - apply str_eqb_eq in Ez. destruct (after _ b2) as [b3|] eqn:E2; [|discriminate].
    apply after_spec in E2. destruct E2 as (x2 & c2 & -> & P2). apply N.eqb_eq in P2. subst c2.
    exists x1, x2, b3. split; [reflexivity|auto].
  - destruct (after _ b2) as [b3|] eqn:E2; [|discriminate].
    destruct (after _ b3) as [b4|] eqn:E3; [|discriminate].
    apply after_spec in E2, E3. destruct E2 as (x2 & c2 & -> & P2), E3 as (x3 & c3 & -> & P3).
    apply N.eqb_eq in P3. subst c3. exists x1, (x2 ++ [c2] ++ x3), b4. split.
    + rewrite <- !app_assoc. reflexivity.
    + right. exists c2. split; [|exact P2]. apply in_app_iff. right. left. reflexivity.
Qed.

Example C22_nonvacuous :
  links_apart (joined (lit "see [a](b)[g](h), `c d` and [e][f] now"))
  /\ wrap (lit "see [a](b)[g](h), `c d` and [e][f] now") (WInt 6)
     = Ok (str_join [c_nl] [lit "see"; lit "[a](b)"; lit "[g]("; lit "h),"; lit "`c d`"; lit "and"; lit "[e][f]"; lit "now"]).
Proof.
  split; [apply apart_test_sound|]; vm_compute; reflexivity.
Qed.

(** * C23 *)

(** Wrapping can join two words (two links with a space between them; a word and inline
    code with a tab between them), and it can separate what is not separated (a word and
    inline code that touches it). *)
Theorem C23_refuted :
  ~ (forall text w out, wrap text w = Ok out -> length (words text) <= length (words out))
  /\ ~ (forall text w out, wrap text w = Ok out -> length (words out) <= length (words text)).
Proof.
  split; intros H.
  - specialize (H (lit "[a](b) [c](d)") (WInt 88) (lit "[a](b)[c](d)") ltac:(vm_compute; reflexivity)).
    vm_compute in H. lia.
  - specialize (H (lit "foo`bar`") (WInt 5) (lit "foo" ++ [c_nl] ++ lit "`bar`") ltac:(vm_compute; reflexivity)).
    vm_compute in H. lia.
Qed.

Example C23_tab :
  wrap (lit "a" ++ [c_tab] ++ lit "`b`") (WInt 88) = Ok (lit "a`b`").
Proof. vm_compute. reflexivity. Qed.

(** Missing: text with inline code, links or HTML line breaks. *)
Theorem C23_partial : forall text w out,
  plain text -> wrap text w = Ok out -> words out = words text.
Proof. exact wrap_plain_words. Qed.

(** With markup: the wrapped text has no whitespace that is not in the text, other than
    line breaks. *)
Theorem C23_no_new_whitespace : forall text w out i ws,
  links_apart (joined text) -> wrap text w = Ok out ->
  gap_at out i ws -> ~ In c_nl ws ->
  exists ws', gap_at text i ws'.
Proof. exact wrap_no_new_gap. Qed.

(** Where the text has whitespace the wrapped text has whitespace, if there are no links and
    the whitespace is spaces and line separators. (See [C23_refuted] for links and
    [C23_tab] for other whitespace.) *)
Theorem C23_whitespace_kept : forall text w out i ws,
  linkless text -> plain_space text -> wrap text w = Ok out ->
  gap_at text i ws -> exists ws', gap_at out i ws'.
Proof. exact wrap_gaps_kept. Qed.

(** A line break that is not at whitespace of the text is beside inline code (and a full
    stop after it) or beside an HTML line break. *)
Theorem C23_breaks : forall text w out i ws,
  linkless text -> wrap text w = Ok out -> gap_at out i ws ->
  (exists ws', gap_at text i ws')
  \/ exists a x y b, ink text = a ++ [x; y] ++ b /\ length (a ++ [x]) = i
     /\ (In x (lit "`.>") \/ In y (lit "`<")).
Proof. exact wrap_breaks. Qed.

(** The same two with links: whitespace that is lost was inside a link or beside one, and a
    line break that is not at whitespace of the text can also be at an opening bracket or at
    the beginning of a link that follows a closing one. *)
Theorem C23_whitespace_links : forall text w out i ws,
  links_apart (joined text) -> plain_space text -> wrap text w = Ok out ->
  gap_at text i ws -> (exists ws', gap_at out i ws') \/ link_gap text i.
Proof. exact wrap_gaps_links. Qed.

Theorem C23_breaks_links : forall text w out i ws,
  links_apart (joined text) -> wrap text w = Ok out -> gap_at out i ws ->
  (exists ws', gap_at text i ws')
  \/ exists a x y b, ink text = a ++ [x; y] ++ b /\ length (a ++ [x]) = i
     /\ (In x (lit "`.>([") \/ In y (lit "`<[(")
         \/ (In x (lit "])") /\ exists p q, y :: b = p ++ [c_lbr] ++ q /\ ~ In c_rbr p /\ ~ In c_rpar p)).
Proof. exact wrap_breaks_links. Qed.

(** Without a limit on the width no words are joined or separated. *)
Theorem C23_unlimited : forall text w out,
  linkless text -> plain_space text -> (forall n, fits w n) ->
  (forall a b, ink text <> a ++ lit "<br" ++ b) ->
  wrap text w = Ok out -> words out = words text.
Proof. exact wrap_unlimited. Qed.

Definition C23_text : str := lit "use `a b`, x`c`." ++ [c_nl] ++ lit "and <br> `d` e".
Definition C23_out : str :=
  str_join [c_nl] [lit "use"; lit "`a b`"; lit ", x"; lit "`c`."; lit "and"; lit "<br>"; lit "`d` e"].

Lemma linkless_test text :
  forallb (fun w => negb (contains (lit "](") w) && negb (contains (lit "][") w)) (words text) = true -> linkless text.
Proof.
  intros G word z a b Hw Hz E. rewrite forallb_forall in G. specialize (G word Hw). apply andb_prop in G. destruct G as [G1 G2].
  apply negb_true_iff in G1, G2. assert (K : contains z word = true) by (apply contains_spec; eauto).
  destruct Hz as [<-|[<-|[]]]; congruence.
Qed.
Lemma plain_space_test text :
  forallb (fun c => negb (is_space c) || N.eqb c c_sp || is_linebreak c) text = true -> plain_space text.
Proof.
  intros G. apply Forall_forall. intros c Hin Hc. rewrite forallb_forall in G. specialize (G c Hin). rewrite Hc in G.
  cbn [negb orb] in G. apply orb_prop in G. destruct G as [G|G]; [left; apply N.eqb_eq, G|right; exact G].
Qed.

Example C23_nonvacuous :
  linkless C23_text /\ plain_space C23_text /\ links_apart (joined C23_text)
  /\ wrap C23_text (WInt 5) = Ok C23_out
  /\ gap_at C23_text 8 [c_sp] /\ gap_at C23_out 8 [c_sp]
  /\ gap_at C23_text 3 [c_sp] /\ gap_at C23_out 3 [c_nl].
Proof.
  split; [apply linkless_test; vm_compute; reflexivity|].
  split; [apply plain_space_test; vm_compute; reflexivity|].
  split; [apply linkless_apart, linkless_test; vm_compute; reflexivity|]. split; [vm_compute; reflexivity|].
  assert (S1 : spaces [c_sp]) by (repeat constructor). assert (S2 : spaces [c_nl]) by (repeat constructor).
  split; [|split; [|split]].
  - exists (lit "use `a b`"), 44%N, 120%N, (lit "`c`." ++ [c_nl] ++ lit "and <br> `d` e").
    repeat (split; [first [exact S1|discriminate|vm_compute; reflexivity]|]). vm_compute. reflexivity.
  - exists (lit "use" ++ [c_nl] ++ lit "`a b`" ++ [c_nl]), 44%N, 120%N,
      ([c_nl] ++ lit "`c`." ++ [c_nl] ++ lit "and" ++ [c_nl] ++ lit "<br>" ++ [c_nl] ++ lit "`d` e").
    repeat (split; [first [exact S1|discriminate|vm_compute; reflexivity]|]). vm_compute. reflexivity.
  - exists (lit "us"), 101%N, 96%N, (lit "a b`, x`c`." ++ [c_nl] ++ lit "and <br> `d` e").
    repeat (split; [first [exact S1|discriminate|vm_compute; reflexivity]|]). vm_compute. reflexivity.
  - exists (lit "us"), 101%N, 96%N,
      (lit "a b`" ++ [c_nl] ++ lit ", x" ++ [c_nl] ++ lit "`c`." ++ [c_nl] ++ lit "and" ++ [c_nl] ++ lit "<br>" ++ [c_nl] ++ lit "`d` e").
    repeat (split; [first [exact S2|discriminate|vm_compute; reflexivity]|]). vm_compute. reflexivity.
Qed.

(** A text with links: spaces between two links and inside one are lost, the others are kept,
    and lines are broken beside the brackets. *)
Definition C23_links : str := lit "see(x)foo[a b ](c d), [e][ f])[g  h".
Example C23_links_nonvacuous :
  links_apart (joined C23_links) /\ plain_space C23_links
  /\ wrap C23_links (WInt 88) = Ok (lit "see(x)foo[a b](c d),[e][f])[g h")
  /\ wrap C23_links (WInt 4)
     = Ok (str_join [c_nl] [lit "see(x)"; lit "foo[a"; lit "b]("; lit "c d),"; lit "[e]["; lit "f])"; lit "[g h"])
  /\ gap_at C23_links 11 [c_sp] /\ gap_at C23_links 18 [c_sp]
  /\ link_gap C23_links 18 /\ ~ link_gap C23_links 11.
Proof.
  split; [apply apart_test_sound; vm_compute; reflexivity|].
  split; [apply plain_space_test; vm_compute; reflexivity|].
  split; [vm_compute; reflexivity|]. split; [vm_compute; reflexivity|].
  assert (S1 : spaces [c_sp]) by (repeat constructor). split; [|split; [|split]].
  - exists (lit "see(x)foo["), 97%N, 98%N, (lit " ](c d), [e][ f])[g  h").
    repeat (split; [first [exact S1|discriminate|vm_compute; reflexivity]|]). vm_compute. reflexivity.
  - exists (lit "see(x)foo[a b ](c d)"), 44%N, c_lbr, (lit "e][ f])[g  h").
    repeat (split; [first [exact S1|discriminate|vm_compute; reflexivity]|]). vm_compute. reflexivity.
  - exists [lit "see(x)foo[a"; lit "b"; lit "](c"], (lit "d),"), (lit "[e]["), [lit "f])[g"; lit "h"].
    split; [vm_compute; reflexivity|]. split; [vm_compute; reflexivity|]. right. right. split; [left|]; vm_compute; auto.
  - intros (u & a & b & v & Ew & El & H).
    assert (W : words C23_links = [lit "see(x)foo[a"; lit "b"; lit "](c"; lit "d),"; lit "[e]["; lit "f])[g"; lit "h"])
      by (vm_compute; reflexivity).
    assert (Ha : a <> []).
    { assert (G := words_not_space C23_links). rewrite Ew, Forall_forall in G. apply (G a). rewrite !in_app_iff. cbn. auto. }
    rewrite W in Ew. destruct u as [|u0 u].
    + injection Ew as <- <- <-. destruct H as [(z & r & Hz & E)|[(z & r & Hz & E)|[_ H]]].
      * destruct Hz as [<-|[<-|[]]]; discriminate.
      * destruct Hz as [<-|[<-|[]]]; apply (f_equal (@rev _)) in E; rewrite rev_app_distr in E; discriminate.
      * vm_compute in H. destruct H as [H|[]]. discriminate.
    + injection Ew as <- _. rewrite concat_app, app_length in El. cbn [concat] in El. rewrite !app_length in El.
      change (length (lit "see(x)foo[a")) with 11 in El.
      destruct a as [|c a]; [congruence|]. cbn [length] in El. lia.
Qed.

Example C23_unlimited_nonvacuous :
  let text := lit "use `a  b`," ++ [c_nl] ++ lit "  x`c`.  e" in
  wrap text (WInt 0) = Ok (lit "use `a  b`, x`c`. e").
Proof. vm_compute. reflexivity. Qed.

(** * C24 *)

(** Every closed inline code span stands on one line of the output. *)
Theorem C24_code_on_one_line : forall text w out spans span,
  code_spans (joined text) spans -> In span spans -> wrap text w = Ok out ->
  exists lines line a b, out = str_join [c_nl] lines /\ Forall one_line lines
    /\ In line lines /\ line = a ++ span ++ b.
Proof.
  intros text w out spans span Hs Hin E. apply wrap_ok in E.
  destruct E as (ts & lines & Et & -> & Hf & Ho).
  destruct (wrap_tokens_spans text ts spans span Hs Hin Et) as (t & Ht & Hsp).
  assert (Hne : fst (piece_of t) <> []).
  { cbn. assert (G : span <> []).
    { clear -Hs Hin. induction Hs as [|plain n code rest spans Hp Hn Hc Hr Hs IH]; [destruct Hin|].
      destruct Hin as [<-|Hin]; [|auto]. destruct n; [lia|discriminate]. }
    destruct Hsp as [_ [->| ->]]; [exact G|]. destruct span; [congruence|discriminate]. }
  destruct (filled_piece w (map piece_of ts) lines (piece_of t) Hf) as (line & a & b & Hl & El);
    [apply in_map; exact Ht|exact Hne|].
  cbn [piece_of fst] in El. destruct Hsp as [_ [Es|Es]]; rewrite Es in El.
  - exists lines, line, a, b. auto.
  - exists lines, line, a, ([c_dot] ++ b). rewrite <- app_assoc in El. auto.
Qed.

Example C24_nonvacuous :
  code_spans (joined (lit "aa `b  b`. cc ``d ` e`` f")) [lit "`b  b`"; lit "``d ` e``"]
  /\ wrap (lit "aa `b  b`. cc ``d ` e`` f") (WInt 3)
     = Ok (str_join [c_nl] [lit "aa"; lit "`b  b`."; lit "cc"; lit "``d ` e``"; lit "f"]).
Proof.
  split; [|vm_compute; reflexivity].
  assert (B : forall n code, contains (repeat c_bt n) code = false -> code <> [] ->
              (forall x, code <> c_bt :: x) -> (forall x, code <> x ++ [c_bt]) -> code_body n code).
  { intros n code H H1 H2 H3. split; [exact H1|]. split; [exact H2|]. split; [exact H3|]. intros a b ->. exfalso.
    assert (contains (repeat c_bt n) (a ++ repeat c_bt n ++ b) = true) by (apply contains_spec; eauto).
    congruence. }
  assert (L : forall (x s : str) c d, s = x ++ [c] -> last s d = c) by (intros x s c d ->; apply last_last).
  change (joined (lit "aa `b  b`. cc ``d ` e`` f"))
    with (lit "aa " ++ (repeat c_bt 1 ++ lit "b  b" ++ repeat c_bt 1)
          ++ lit ". cc " ++ (repeat c_bt 2 ++ lit "d ` e" ++ repeat c_bt 2) ++ lit " f").
  apply (spans_span (lit "aa ") 1 (lit "b  b")); [cbn; intuition discriminate|lia| |discriminate|].
  { apply B; try discriminate; [reflexivity|]. intros x E. apply (L x _ _ c_sp) in E. discriminate. }
  apply (spans_span (lit ". cc ") 2 (lit "d ` e")); [cbn; intuition discriminate|lia| |discriminate|].
  { apply B; try discriminate; [reflexivity|]. intros x E. apply (L x _ _ c_sp) in E. discriminate. }
  constructor.
Qed.

(** * C18 *)

Lemma splitlines_join_ne ls : Forall (fun l => l <> []) ls -> Forall one_line ls ->
  splitlines (str_join [c_nl] ls) = ls.
Proof.
  intros Hn Ho. induction Ho as [|l ls Hl Ho IH]; [reflexivity|]. inversion Hn; subst.
  destruct ls as [|l' ls].
  - cbn [str_join]. apply splitlines_single; assumption.
  - rewrite str_join_cons by discriminate. cbn [app]. rewrite splitlines_app_nl by exact Hl.
    f_equal. apply IH. assumption.
Qed.

Lemma fold_max l : forall n, (In (fold_left Nat.max l n) (n :: l))
  /\ Forall (fun x => x <= fold_left Nat.max l n) (n :: l).
Proof.
  induction l as [|a l IH]; intros n; cbn [fold_left].
  - split; [left; reflexivity|repeat constructor].
  - destruct (IH (Nat.max n a)) as [H1 H2]. split.
    + destruct H1 as [H1|H1]; [|right; right; exact H1]. rewrite <- H1.
      destruct (Nat.max_spec n a) as [[_ ->]|[_ ->]]; cbn; auto.
    + inversion H2 as [|? ? H3 H4]; subst. constructor; [lia|]. constructor; [lia|exact H4].
Qed.

Lemma ink_join_strip ls : ink (str_join [c_sp] (map strip ls)) = ink (concat ls).
Proof.
  induction ls as [|l ls IH]; [reflexivity|]. destruct ls as [|l' ls].
  - cbn. rewrite app_nil_r. apply ink_strip.
  - cbn [map] in *. rewrite str_join_cons by discriminate. cbn [concat].
    rewrite !ink_app, IH, ink_strip. cbn [concat]. rewrite ink_app. reflexivity.
Qed.

(** A setext heading of the document is formatted to its wrapped text and one underline:
    the character of the original underline, as often as the longest line is long. *)
Theorem C18_setext_heading : forall lim w i text secs content r,
  parse_markdown lim (splitlines text) = Ok secs -> In (SETEXT_HEADING, content) secs ->
  section_text lim w i SETEXT_HEADING content r ->
  exists heading u c k ws ws' wrapped lines n,
    content = heading ++ [u] /\ In c [c_eq; c_dash]
    /\ u = ws ++ repeat c (S k) ++ ws' /\ spaces ws /\ spaces ws'
    /\ wrap (str_join [c_sp] (map strip heading)) w = Ok wrapped
    /\ has_lines wrapped lines
    /\ (exists line, In line lines /\ length line = n)
    /\ Forall (fun line => length line <= n) lines
    /\ r = wrapped ++ [c_nl] ++ repeat c n.
Proof.
  intros lim w i text secs content r Hp Hin Hr.
  assert (Hs := C10_section_shapes _ _ _ _ _ Hp Hin). cbn [section_shape] in Hs.
  destruct Hs as (l & rest & u & -> & Hl & _ & Hu).
  destruct Hu as (c & k & ws & ws' & -> & Hw & Hw' & _ & Hc).
  unfold section_text in Hr. cbn [reformatted] in Hr. unfold fmt_setext_heading in Hr.
  change (l :: rest ++ [ws ++ repeat c (S k) ++ ws']) with ((l :: rest) ++ [ws ++ repeat c (S k) ++ ws']) in *.
  set (heading := l :: rest) in *.
  replace (length (heading ++ [ws ++ repeat c (S k) ++ ws']) <? 2) with false in Hr
    by (symmetry; apply Nat.ltb_ge; rewrite app_length; cbn; lia).
  rewrite removelast_last, last_last in Hr.
  apply bind_ok in Hr. destruct Hr as (wrapped & Ew & Hr).
  apply bind_ok in Hr. destruct Hr as (n & En & Hr).
  apply bind_ok in Hr. destruct Hr as (c' & Ec & Hr). apply ok_inj in Hr.
  rewrite strip_repeat in Ec; [|destruct Hc as [<-|[<-|[]]]; reflexivity|exact Hw|exact Hw'].
  apply ok_inj in Ec. subst c'.
  destruct (wrap_ok _ _ _ Ew) as (ts & lines & Et & El & Hf & Ho).
  assert (Hne : Forall (fun line => line <> []) lines) by (destruct Hf as (? & ? & _ & _ & _ & H & _); exact H).
  rewrite El, splitlines_join_ne in En by assumption.
  destruct lines as [|l1 lines]; [discriminate|]. cbn [map max_list] in En. apply ok_inj in En.
  destruct (fold_max (map (@length char) lines) (length l1)) as [M1 M2]. rewrite En in M1, M2.
  change (length l1 :: map (@length char) lines) with (map (@length char) (l1 :: lines)) in M1, M2.
  exists heading, (ws ++ repeat c (S k) ++ ws'), c, k, ws, ws', wrapped, (l1 :: lines), n.
  repeat (split; [first [reflexivity|assumption]|]). split; [|split; [|split]].
  - split; [exact El|]. split; [discriminate|]. eapply Forall_impl; [|exact Ho]. intros x Hx.
    eapply Forall_impl; [|exact Hx]. cbn. intros y Hy ->. discriminate.
  - apply in_map_iff in M1. destruct M1 as (x & E & Hx). eauto.
  - apply Forall_map in M2. exact M2.
  - symmetry. exact Hr.
Qed.

(** It always succeeds, unless a word of the heading begins with a single dot. *)
Theorem C18_succeeds : forall lim w i text secs content,
  parse_markdown lim (splitlines text) = Ok secs -> In (SETEXT_HEADING, content) secs ->
  ~ dot_word (str_join [c_sp] content) -> exists r, section_text lim w i SETEXT_HEADING content r.
Proof.
  intros lim w i text secs content Hp Hin Hd.
  assert (Hs := C10_section_shapes _ _ _ _ _ Hp Hin). cbn [section_shape] in Hs.
  destruct Hs as (l & rest & u & -> & Hl & _ & Hu).
  destruct Hu as (c & k & ws & ws' & -> & Hw & Hw' & _ & Hc).
  unfold section_text. cbn [reformatted]. unfold fmt_setext_heading.
  change (l :: rest ++ [ws ++ repeat c (S k) ++ ws']) with ((l :: rest) ++ [ws ++ repeat c (S k) ++ ws']) in *.
  replace (length ((l :: rest) ++ [ws ++ repeat c (S k) ++ ws']) <? 2) with false
    by (symmetry; apply Nat.ltb_ge; rewrite app_length; cbn; lia).
  rewrite removelast_last, last_last.
  rewrite strip_repeat; [|destruct Hc as [<-|[<-|[]]]; reflexivity|exact Hw|exact Hw'].
  cbn [repeat first_char].
  destruct (wrap (str_join [c_sp] (map strip (l :: rest))) w) as [wrapped|e] eqn:Ew.
  2: { exfalso. apply wrap_err in Ew. destruct Ew as [(word & Hword & Hdot) _]. apply Hd.
       exists word. split; [|exact Hdot]. rewrite words_join in *. rewrite map_map in Hword.
       rewrite (map_ext _ words) in Hword by (intros; apply words_strip).
       rewrite map_app, concat_app. apply in_app_iff. left. exact Hword. }
  cbn [bind]. destruct (wrap_ok _ _ _ Ew) as (ts & lines & Et & El & Hf & Ho).
  assert (Hne : Forall (fun line => line <> []) lines) by (destruct Hf as (? & ? & _ & _ & _ & H & _); exact H).
  assert (Hi : ink wrapped <> []).
  { rewrite El, (filled_ink w _ _ Hf), texts_pieces. apply (wrap_tokens_ok _ _ Et).
    rewrite ink_join_strip. cbn [concat]. rewrite ink_app. intros E. apply app_eq_nil in E.
    destruct E as [E _]. apply ink_nil in E. destruct Hl as [Hl _]. apply Hl. exact E. }
  rewrite El, splitlines_join_ne by assumption.
  destruct lines as [|l1 lines]; [rewrite El in Hi; contradiction|]. cbn [map max_list bind]. eauto.
Qed.

Example C18_nonvacuous :
  parse_markdown 9 [lit "Some  long"; lit "heading "; lit " ----"; lit "x"]
  = Ok [(SETEXT_HEADING, [lit "Some  long"; lit "heading "; lit " ----"]); (PARAGRAPH, [lit "x"])]
  /\ section_text 9 (WInt 10) 0 SETEXT_HEADING [lit "Some  long"; lit "heading "; lit " ----"]
       (str_join [c_nl] [lit "Some long"; lit "heading"; lit "---------"]).
Proof. split; vm_compute; reflexivity. Qed.
