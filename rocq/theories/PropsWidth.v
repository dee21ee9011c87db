(** Property C74: how wide the lines of a formatted document are. *)
From Coq Require Import String QArith.
From Verif Require Import Py Regex Utils TextWrap Lines Detectors Formatters Base SpecLines SpecFormat
  SpecParser SpecWrap SpecList SpecQuote SpecErrors SpecWidth
  ProofsLines ProofsPass ProofsErrors ProofsPieces PropsParser PropsQuote PropsChars ProofsLimit ProofsTokens PropsLocal ProofsChars ProofsWidth.
Local Open Scope nat_scope.

(** Every line of the output consists of the markers of the quotes and list entries it is
    in (or the spaces instead of them), and a line that fits into what is left of the
    width beside them, or has an excuse. *)
Theorem C74_layout : forall lim text w out,
  reformat_markdown_text lim text w = Ok out -> Forall (laid w (splitlines text)) (splitlines out).
Proof. exact reformat_laid. Qed.

Lemma alike_length a b r : alike a b -> rtrims a r -> length r <= length b.
Proof.
  intros H Hr. apply alike_rstrip in H. apply rtrims_rstrip in Hr. subst r. rewrite H. apply rstrip_length.
Qed.

(** So a line has no more characters than the width, not counting whitespace at its end,
    unless the markers before it leave no room, or it has an excuse. Missing: texts with an
    indented block quote. *)
Theorem C74_width_partial : forall lim text z out,
  reformat_markdown_text lim text (WInt z) = Ok out -> quotes_flush (splitlines text) ->
  Forall (fun l => exists l', rtrims l l' /\
    ((Z.of_nat (length l') <= z)%Z
     \/ exists before z' lines' t,
          placed (WInt z) (splitlines text) before (WInt z') lines' /\ alike l (before ++ t)
          /\ ((z' <= 0)%Z \/ excused (WInt z') lines' t))) (splitlines out).
Proof.
  intros lim text z out H Fq. eapply Forall_impl; [|exact (C74_layout _ _ _ _ H)].
  intros l (before & w' & lines' & t & P & A & V).
  destruct (placed_room _ _ _ _ _ P Fq z eq_refl) as (z' & -> & L).
  assert (Hl : rtrims l (rstrip l)) by (apply rtrims_rstrip; reflexivity).
  exists (rstrip l). split; [exact Hl|]. assert (Ll := alike_length _ _ _ A Hl). rewrite app_length in Ll.
  destruct V as [[V|V]|V].
  - right. exists before, z', lines', t. auto.
  - left. lia.
  - right. exists before, z', lines', t. auto.
Qed.

(** If every line is modest, the only excuse is a single word (or the underline of a
    heading). *)
Theorem C74_words_partial : forall lim text z out,
  reformat_markdown_text lim text (WInt z) = Ok out -> Forall modest (splitlines text) ->
  Forall (fun l => exists l', rtrims l l' /\
    ((Z.of_nat (length l') <= z)%Z
     \/ exists before z' lines' t,
          placed (WInt z) (splitlines text) before (WInt z') lines' /\ alike l (before ++ t)
          /\ ((z' <= 0)%Z \/ ~ In c_sp t))) (splitlines out).
Proof.
  intros lim text z out H M. assert (G := C74_width_partial _ _ _ _ H (modest_flush _ M)).
  rewrite Forall_forall in G. apply Forall_forall. intros l Hl. destruct (G l Hl) as (l' & Hr & V). exists l'. split; [exact Hr|].
  destruct V as [V|(before & z' & lines' & t & P & A & V)]; [left; exact V|right].
  exists before, z', lines', t. split; [exact P|]. split; [exact A|]. destruct V as [V|V]; [left; exact V|right].
  assert (M' := modest_within _ _ (placed_within _ _ _ _ _ P) M).
  assert (Lt : ~ In 60%N l).
  { assert (G' : Forall (fun y => y <> 60%N) out).
    { eapply out_chars; [| |exact H].
      - intros d Hd ->. discriminate.
      - eapply Forall_impl; [|exact M]. intros x (M1 & _). eapply Forall_impl; [|exact M1]. cbn. intros y Hy ->. apply Hy. auto 8. }
    apply Forall_splitlines in G'. rewrite Forall_forall in G'. specialize (G' l Hl). rewrite Forall_forall in G'.
    intros Hin. exact (G' _ Hin eq_refl). }
  destruct V as (ty & c & S & V). assert (Mc := modest_section _ _ _ S M').
  assert (Sol : forall ls x, Forall modest ls -> ~ In x br_tags -> solid (joined (str_join [c_sp] (map strip ls))) x -> ~ In c_sp x).
  { intros ls x Ml Hb Hs.
    assert (Ch : forall y, In y (joined (str_join [c_sp] (map strip ls))) -> In y (lit "`]") -> False).
    { intros y Hy. revert y Hy. apply (proj1 (Forall_forall (fun y => In y (lit "`]") -> False) _)). assert (G' : Forall (fun y => In y (lit "`]") -> False) (str_join [c_sp] (map strip ls))).
      { apply Forall_str_join; [repeat constructor; cbn; intuition discriminate|]. apply Forall_map. eapply Forall_impl; [|exact Ml].
        intros s0 (M1 & _). apply Forall_forall. intros y Hy Hbad. apply in_strip in Hy. rewrite Forall_forall in M1. apply (M1 _ Hy).
        cbn in Hbad |- *. intuition. }
      unfold joined. apply Forall_str_join; [repeat constructor; cbn; intuition discriminate|]. apply Forall_map.
      apply Forall_splitlines in G'. eapply Forall_impl; [|exact G']. intros s0 Hs0. apply Forall_forall. intros y Hy. apply in_strip in Hy.
      rewrite Forall_forall in Hs0. exact (Hs0 y Hy). }
    destruct Hs as [Hs|[Hs|[Hs|Hs]]]; [exact Hs|exfalso|contradiction|exfalso].
    - destruct Hs as (b & n & code & m & dot & a & E & Et & _ & _ & Hn & _). apply (Ch c_bt); [|cbn; auto].
      rewrite E, Et. destruct n as [|n]; [lia|]. cbn [repeat]. rewrite !in_app_iff. right. left. left. left. reflexivity.
    - destruct Hs as (b & zz & close & ws & half & a & Hz & E & _). apply (Ch c_rbr); [|cbn; auto].
      rewrite E. rewrite !in_app_iff. right. left. cbn in Hz. destruct Hz as [Hz|[Hz|[]]]; injection Hz as <- _; left; reflexivity. }
  assert (Br : ~ In t br_tags).
  { intros Hb. apply Lt. apply alike_rstrip in A.
    assert (Hi : In 60%N (rstrip l)).
    { rewrite A. rewrite rstrip_append.
      - apply in_app_iff. right. cbn in Hb. destruct Hb as [<-|[<-|[<-|[<-|[]]]]]; left; reflexivity.
      - cbn in Hb. destruct Hb as [<-|[<-|[<-|[<-|[]]]]]; discriminate. }
    destruct (rstrip_by_spec is_space l) as (post & El & _). rewrite El. apply in_app_iff. left. exact Hi. }
  assert (Sh := section_shape_of _ _ _ S).
  assert (Bad : forall x y, In x c -> In y x -> ~ In y (lit "`~|#]<")).
  { intros x y Hx Hy. rewrite Forall_forall in Mc. destruct (Mc x Hx) as (M1 & _). rewrite Forall_forall in M1. apply (M1 _ Hy). }
  destruct ty; try contradiction; cbn [section_shape] in Sh.
  - destruct Sh as (x & -> & (ws & body & -> & _)). exfalso. apply (Bad _ c_hash (or_introl eq_refl)); [apply in_app_iff; right; left; reflexivity|cbn; auto 8].
  - destruct Sh as (x & rest & fence & -> & (ws & ch & n & info & -> & _ & Hc & Hn & _) & _). exfalso.
    apply (Bad _ ch (or_introl eq_refl)); [apply in_app_iff; right; apply in_app_iff; left; destruct n; [lia|left; reflexivity]|].
    cbn in Hc |- *. intuition.
  - destruct Sh as (x & rest & -> & (ws & ch & body & -> & Hw & _ & Hn) & _). exfalso. apply Forall_inv in Mc.
    destruct Mc as (_ & Mc & _). assert (K := Mc [] ws (ch :: body) eq_refl Hw). lia.
  - destruct Sh as (x & rest & -> & (ws & label & body & -> & _)). exfalso.
    apply (Bad _ c_rbr (or_introl eq_refl)); [|cbn; auto 8]. rewrite in_app_iff. right. right. rewrite in_app_iff. right. left. reflexivity.
  - apply (Sol c t Mc Br V).
  - destruct V as (heading & u & p & -> & Hs & [->|(ch & Hc & ->)]).
    + apply Forall_app in Mc. apply (Sol heading p (proj1 Mc) Br Hs).
    + intros Hin. apply repeat_spec in Hin. destruct Hc as [<-|[<-|[]]]; discriminate.
  - destruct V as (lim' & i & r & V & _). destruct c as [|x rest]; [discriminate|]. inversion Sh as [|? ? (ws & body & -> & _) _]; subst. exfalso.
    apply (Bad _ c_bar (or_introl eq_refl)); [apply in_app_iff; right; left; reflexivity|cbn; auto 8].
Qed.

(** * An example *)

Fixpoint runs_test (l : str) : bool :=
  match l with
  | [] => true
  | _ => negb (4 <=? length l) || negb (forallb is_space (firstn 4 l))
  end && match l with [] => true | _ :: t => runs_test t end.
Fixpoint spaced_test (l : str) : bool :=
  match l with
  | x :: ((y :: _) as t) => negb (is_space x && N.eqb y c_gt) && spaced_test t
  | _ => true
  end.
Definition modest_test (l : str) : bool :=
  forallb (fun c => negb (existsb (N.eqb c) (lit "`~|#]<"))) l && runs_test l && spaced_test l.

Lemma modest_test_sound l : modest_test l = true -> modest l.
Proof.
  unfold modest_test. rewrite !andb_true_iff. intros ((H1 & H2) & H3). split; [|split].
  - apply Forall_forall. intros c Hc Hin. rewrite forallb_forall in H1. specialize (H1 c Hc). apply negb_true_iff in H1.
    assert (E : existsb (N.eqb c) (lit "`~|#]<") = true) by (apply existsb_exists; exists c; split; [exact Hin|apply N.eqb_refl]).
    congruence.
  - clear H1 H3. intros a ws b -> Hw. induction a as [|y a IH].
    + destruct (le_lt_dec 4 (length ws)) as [K|K]; [exfalso|exact K].
      do 4 (destruct ws as [|? ws]; [cbn in K; lia|]). cbn [app runs_test] in H2. apply andb_true_iff in H2. destruct H2 as [H2 _].
      cbn [firstn] in H2. apply spaces_forallb in Hw. cbn [forallb] in Hw |- *. rewrite !andb_true_iff in Hw. destruct Hw as (W1 & W2 & W3 & W4 & _).
      cbn [forallb] in H2. rewrite W1, W2, W3, W4 in H2. cbn in H2. discriminate.
    + apply IH. cbn [app runs_test] in H2. apply andb_true_iff in H2. apply H2.
  - clear H1 H2. intros a x b ->. induction a as [|y a IH].
    + cbn [app spaced_test] in H3. apply andb_true_iff in H3. destruct H3 as [H3 _]. rewrite N.eqb_refl, andb_true_r in H3.
      apply negb_true_iff in H3. exact H3.
    + apply IH. destruct a as [|z a]; cbn [app spaced_test] in H3; apply andb_true_iff in H3; apply H3.
Qed.

Definition ex_modest : str :=
  str_join [c_nl] [lit "9. some words that are too long for one line";
                   lit "10. - an-unreasonably-long-word here"; [];
                   lit "> a quote that holds"; lit "> * a-word-of-twenty-four-ch and others"].

Example C74_nonvacuous :
  Forall modest (splitlines ex_modest) /\ quotes_flush (splitlines ex_modest)
  /\ reformat_markdown_text 20 ex_modest (WInt 20)
     = Ok (str_join [c_nl] [lit "9. some words that"; lit "    are too long for"; lit "    one line";
                            lit "10. - an-unreasonably-long-word"; lit "      here"; [];
                            lit "> a quote that holds"; lit "> * a-word-of-twenty-four-ch"; lit ">   and others"; []]).
Proof.
  assert (M : Forall modest (splitlines ex_modest)).
  { assert (G : forallb modest_test (splitlines ex_modest) = true) by (vm_compute; reflexivity).
    rewrite forallb_forall in G. apply Forall_forall. intros l Hl. apply modest_test_sound, G, Hl. }
  split; [exact M|]. split; [apply modest_flush; exact M|]. vm_compute. reflexivity.
Qed.

(** The text may have indented quotes if the formatted text has none; what stands before the
    text within a line, and the excuses, can be read off the formatted text. *)
Theorem C74_result_partial : forall lim text z out,
  reformat_markdown_text lim text (WInt z) = Ok out ->
  exists t, (exists r, rtrims t r /\ out = r ++ [c_nl])
    /\ Forall (laid (WInt z) (splitlines t)) (splitlines out)
    /\ (quotes_flush (splitlines t) ->
        Forall (fun l => exists l', rtrims l l' /\
          ((Z.of_nat (length l') <= z)%Z
           \/ exists before z' lines' u,
                placed (WInt z) (splitlines t) before (WInt z') lines' /\ alike l (before ++ u)
                /\ ((z' <= 0)%Z \/ excused (WInt z') lines' u))) (splitlines out)).
Proof.
  intros lim text z out H.
  assert (G : exists t, reformat_pass lim t (WInt z) = Ok t /\ out = rstrip t ++ [c_nl]).
  { unfold reformat_markdown_text in H. destruct (reformat_pass lim text (WInt z)) as [t|]; [|discriminate]. cbn [bind] in H.
    destruct (reformat_pass lim t (WInt z)) as [t'|] eqn:E; [|discriminate]. cbn [bind] in H.
    destruct (str_eqb t' t) eqn:Et; [|discriminate]. apply str_eqb_eq in Et. subst t'. injection H as <-. eauto. }
  destruct G as (t & Ht & Eo). exists t. split; [exists (rstrip t); split; [apply rtrims_rstrip; reflexivity|exact Eo]|].
  assert (H' : reformat_markdown_text lim t (WInt z) = Ok out).
  { unfold reformat_markdown_text. rewrite Ht. cbn [bind]. rewrite Ht. cbn [bind]. rewrite str_eqb_refl, Eo. reflexivity. }
  split; [apply (C74_layout lim t _ out H')|]. intros Hq. apply (C74_width_partial lim t z out H' Hq).
Qed.

(** An indented quote in the text. *)
Example C74_nonvacuous_result :
  reformat_markdown_text 9 (lit "  > some words" ++ [c_nl]) (WInt 12) = Ok (lit "> some words" ++ [c_nl])
  /\ ~ quotes_flush (splitlines (lit "  > some words" ++ [c_nl]))
  /\ quotes_flush (splitlines (lit "> some words" ++ [c_nl])).
Proof.
  split; [vm_compute; reflexivity|]. split.
  - intros H. destruct (H [lit "  > some words"] [lit "  > some words"]) as (l & rest & E).
    + apply within_self.
    + exists 9, [(BLOCK_QUOTE, [lit "  > some words"])]. split; [vm_compute; reflexivity|left; reflexivity].
    + discriminate.
  - apply modest_flush. constructor; [|constructor]. apply modest_test_sound. vm_compute. reflexivity.
Qed.

(** Without the condition it fails: the text of an indented quote is formatted to a larger
    width than there is (and then the second run finds something to do). *)
Theorem C74_indented_refuted : exists text l,
  reformat_pass 9 text (WInt 10) = Ok (l ++ [c_nl]) /\ l = lit "> aaaaa bbbbb" /\ length l = 13
  /\ reformat_markdown_text 9 text (WInt 10) = Err ReformatInconsistentException.
Proof.
  exists (lit "   > aaaaa bbbbb"), (lit "> aaaaa bbbbb"). repeat split; vm_compute; reflexivity.
Qed.
