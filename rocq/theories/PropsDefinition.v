(** Properties C36 and C37: link reference definitions. *)
From Coq Require Import String QArith.
From Verif Require Import Py Regex Utils TextWrap Lines Detectors Formatters Base
  SpecLines SpecParser SpecFormat SpecWrap SpecDefinition ProofsLines ProofsRegex ProofsParser
  ProofsShapes ProofsKinds ProofsForward ProofsPass ProofsTokens ProofsPieces ProofsApart ProofsFilled ProofsDefinition PropsParser PropsLeaf PropsWrap.
Local Open Scope nat_scope.

(** * Label, link and title *)

(** The formatter finds the parts the definition has. *)
Lemma lrd_parts_spec content label parts :
  Forall one_line content -> defines content label parts ->
  lrd_parts content = Ok (label, hd [] parts, str_join [c_sp] (tl parts)).
Proof.
  intros Ho (ws & body & rest & -> & Hw & Hl & Hn & ->). unfold lrd_parts.
  set (B := str_join [c_sp] (body :: rest)).
  assert (HB : Forall (fun c => c <> c_nl) B).
  { unfold B. apply Forall_str_join; [repeat constructor; discriminate|].
    inversion Ho as [|? ? H1 H2]; subst. constructor.
    - apply one_line_no_nl in H1. apply Forall_app in H1. destruct H1 as [_ H1]. inversion H1 as [|? ? _ H3]; subst.
      apply Forall_app in H3. destruct H3 as [_ H3]. inversion H3 as [|? ? _ H4]; subst.
      inversion H4; subst. assumption.
    - eapply Forall_impl; [|exact H2]. intros x. apply one_line_no_nl. }
  assert (E : str_join [c_sp] ((ws ++ c_lbr :: label ++ c_rbr :: c_colon :: body) :: rest)
              = ws ++ c_lbr :: label ++ c_rbr :: c_colon :: B).
  { unfold B. destruct rest as [|x rest]; [reflexivity|]. rewrite !str_join_cons by discriminate.
    repeat (cbn [app]; rewrite <- ?app_assoc). reflexivity. }
  rewrite E, lrd_groups_lead by exact Hw. cbn [lrd_groups]. unfold lrd_groups_at.
  rewrite definition_rmatch by assumption.
  assert (S1 : slice (c_lbr :: label ++ c_rbr :: c_colon :: B) 1 (length label + 3 - 2) = label).
  { unfold slice. cbn [skipn]. replace (length label + 3 - 2 - 1) with (length label) by lia.
    rewrite firstn_app, firstn_all, Nat.sub_diag. cbn. apply app_nil_r. }
  assert (S2 : skipn (length label + 3) (c_lbr :: label ++ c_rbr :: c_colon :: B) = B).
  { replace (c_lbr :: label ++ c_rbr :: c_colon :: B) with ((c_lbr :: label ++ [c_rbr; c_colon]) ++ B)
      by (cbn [app]; rewrite <- app_assoc; reflexivity).
    rewrite skipn_app, skipn_all2 by (cbn [length]; rewrite app_length; cbn; lia).
    replace (length label + 3 - length (c_lbr :: label ++ [c_rbr; c_colon])) with 0
      by (cbn [length]; rewrite app_length; cbn; lia). reflexivity. }
  rewrite S1, S2. clearbody B. clear E S1 S2 Ho.
  assert (W := words_lstrip B).
  assert (HB2 : Forall (fun c => c <> c_nl) (lstrip B)) by (apply Forall_lstrip_by; exact HB).
  destruct (lstrip B) as [|c s] eqn:Es.
  - rewrite <- W. reflexivity.
  - assert (Hc : is_space c = false) by (eapply lstrip_by_head; exact Es).
    rewrite <- W, (words_take (c :: s)) by exact Hc. cbn [hd tl].
    rewrite (take_while_all (fun c => negb (N.eqb c c_nl))).
    + rewrite words_lstrip. reflexivity.
    + apply Forall_lstrip_by, Forall_lstrip_by. eapply Forall_impl; [|exact HB2].
      intros x Hx. apply negb_true_iff, N.eqb_neq. exact Hx.
Qed.

Lemma words_join_words ws : Forall (fun w => w <> [] /\ Forall (fun c => is_space c = false) w) ws ->
  words (str_join [c_sp] ws) = ws.
Proof.
  intros H. rewrite words_join. induction H as [|w ws [Hn Hw] H IH]; [reflexivity|].
  cbn [map concat]. rewrite IH, words_one by assumption. reflexivity.
Qed.

Lemma written_cons label link title : title <> [] ->
  written label (link :: title) = label_text label ++ [c_sp] ++ link ++ [c_sp] ++ str_join [c_sp] title.
Proof. intros H. unfold written. rewrite !str_join_cons by (auto; discriminate). reflexivity. Qed.

Lemma join_title_ne (ps : list str) : Forall (fun w => w <> [] /\ Forall (fun c => is_space c = false) w) ps ->
  ps <> [] -> str_join [c_sp] ps <> [].
Proof.
  intros H Hn. destruct H as [|p ps [Hp _] H]; [congruence|]. destruct ps; [exact Hp|].
  rewrite str_join_cons by discriminate. destruct p; [congruence|discriminate].
Qed.

(** [links_apart] and [plain] for the part of a definition that is wrapped. *)
Lemma joined_single s : one_line s -> joined s = strip s.
Proof.
  intros H. unfold joined. destruct s as [|c s]; [reflexivity|].
  rewrite splitlines_single by (auto; discriminate). reflexivity.
Qed.

Lemma links_apart_tail pre s : one_line s -> links_apart (pre ++ s) -> links_apart (joined s).
Proof.
  intros Ho H. rewrite joined_single by exact Ho. destruct (strip_spec s) as (a & b & E & _).
  rewrite E in H. apply (links_apart_infix (pre ++ a) (strip s) b). rewrite <- app_assoc. exact H.
Qed.

Lemma plain_tail pre s : words (pre ++ s) = words pre ++ words s \/ pre = [] -> plain (pre ++ s) -> plain s.
Proof.
  intros [E| ->] H word z a b Hin; apply H; [|exact Hin]. rewrite E. apply in_app_iff. right. exact Hin.
Qed.

Lemma len_le_longer n w : len_le n w = false -> longer n w.
Proof.
  destruct w as [z| |q]; cbn; [rewrite Z.leb_gt; auto|discriminate|].
  intros H. apply Qnot_le_lt. intros G. apply Qle_bool_iff in G. congruence.
Qed.

(** * C36 *)

(** What is kept of a definition. *)
Definition kept (label : str) (parts : list str) (r : str) : Prop :=
  (links_apart (written label parts) -> ink r = ink (written label parts))
  /\ (plain (written label parts) -> words r = words (written label parts)).

(** A formatted definition has its label, link and title, unless the title starts on the
    line of the link and its first word does not fit there. *)
Theorem C36_partial : forall lim w i content r,
  section_shape LINK_REFERENCE_DEFINITION content -> Forall one_line content ->
  section_text lim w i LINK_REFERENCE_DEFINITION content r ->
  exists label parts, defines content label parts
    /\ (kept label parts r
        \/ exists link first more, parts = link :: first :: more
             /\ longer (length first + length (written label [link])) w).
Proof.
  intros lim w i content r (l & rest & -> & Hd) Ho H.
  destruct Hd as (ws & label & body & -> & Hw & _ & Hl & Hn).
  set (content := (ws ++ c_lbr :: label ++ c_rbr :: c_colon :: body) :: rest) in *.
  set (parts := words (str_join [c_sp] (body :: rest))).
  assert (Hdef : defines content label parts) by (exists ws, body, rest; auto 6).
  exists label, parts. split; [exact Hdef|].
  assert (Hp := lrd_parts_spec _ _ _ Ho Hdef).
  assert (Hws : Forall (fun w => w <> [] /\ Forall (fun c => is_space c = false) w) parts)
    by apply words_nonspace.
  clearbody parts. unfold section_text in H. cbn [reformatted] in H.
  unfold fmt_link_reference_definition in H. rewrite Hp in H. cbn [bind] in H. clear Hp.
  fold (label_text label) in H.
  assert (Hlab : one_line (label_text label)).
  { apply Forall_inv in Ho. apply Forall_app in Ho. destruct Ho as [_ Ho].
    unfold label_text. cbn [app]. inversion Ho as [|? ? H1 H2]; subst. constructor; [reflexivity|].
    apply Forall_app in H2. destruct H2 as [H2 _]. apply Forall_app. split; [exact H2|]. repeat constructor. }
  assert (Hone : forall ps, Forall (fun w => w <> [] /\ Forall (fun c => is_space c = false) w) ps ->
    one_line (str_join [c_sp] ps)).
  { intros ps G. apply Forall_str_join; [repeat constructor|]. eapply Forall_impl; [|exact G].
    intros x [_ Hx]. eapply Forall_impl; [|exact Hx]. intros c Hc.
    destruct (is_linebreak c) eqn:E; [|reflexivity]. apply linebreak_space in E. congruence. }
  destruct parts as [|link title].
  { cbn [hd nilb] in H. apply ok_inj in H. subst r. left. split; reflexivity. }
  inversion Hws as [|? ? [Hln Hls] Ht]; subst. cbn [hd tl] in H.
  destruct link as [|c0 link0] eqn:El; [congruence|]. cbn [nilb] in H. rewrite <- El in *.
  assert (Hlo : one_line link).
  { assert (G := Hone [link]). cbn in G. apply G. repeat constructor; congruence. }
  assert (Hs : exists k sep, (sep = c_sp \/ sep = c_nl) /\
     match words (str_join [c_sp] title) with
     | [] => Ok (label_text label ++ [sep] ++ link)
     | first_word :: _ =>
        line <- nth_line content k ;;
        if contains first_word line then
          let str_lines := splitlines (label_text label ++ [sep] ++ link) in
          let last_line := last str_lines [] in
          if len_le (length first_word + length last_line) w then
            wrapped <- wrap (last_line ++ [c_sp] ++ str_join [c_sp] title) w ;;
            Ok (str_join [c_nl] (removelast str_lines ++ [wrapped]))
          else
            wrapped <- wrap (str_join [c_sp] title) w ;;
            Ok ([c_nl] ++ wrapped)
        else
          wrapped <- wrap (str_join [c_sp] title) w ;;
          Ok ((label_text label ++ [sep] ++ link) ++ [c_nl] ++ wrapped)
     end = Ok r).
  { apply bind_ok in H. destruct H as (l0 & _ & H). destruct (contains link l0).
    - exists 0, c_sp. split; [auto|exact H].
    - exists 1, c_nl. split; [auto|exact H]. }
  destruct Hs as (k & sep & Hsep & Hs). clear H. rewrite words_join_words in Hs by exact Ht.
  assert (Hsp : is_space sep = true) by (destruct Hsep as [->| ->]; reflexivity).
  destruct title as [|first more].
  { apply ok_inj in Hs. subst r. left. unfold kept, written. cbn [str_join]. split; intros _.
    - rewrite !ink_app. cbn [ink filter app]. unfold ink at 2 4. cbn [filter]. unfold not_space. rewrite Hsp. reflexivity.
    - cbn [app]. rewrite !words_app_space by (assumption || reflexivity). reflexivity. }
  set (title := first :: more) in *.
  assert (Hto := Hone title Ht).
  assert (Htn : title <> []) by discriminate.
  apply bind_ok in Hs. destruct Hs as (line & _ & Hs).
  assert (Hwr := written_cons label link title Htn).
  (* the title is wrapped on its own *)
  assert (Own : forall wrapped, wrap (str_join [c_sp] title) w = Ok wrapped ->
    r = (label_text label ++ [sep] ++ link) ++ [c_nl] ++ wrapped -> kept label (link :: title) r).
  { intros wrapped Ew ->. unfold kept. rewrite Hwr. split; intros G.
    - assert (Ei : ink wrapped = ink (str_join [c_sp] title)).
      { eapply C22_partial; [|exact Ew].
        apply (links_apart_tail (label_text label ++ [c_sp] ++ link ++ [c_sp])); [exact Hto|].
        repeat (cbn [app] in *; rewrite <- ?app_assoc). exact G. }
      rewrite !ink_app, Ei. unfold ink at 2 4 7 9. cbn [filter]. unfold not_space. rewrite Hsp. cbn [negb].
      change (is_space c_nl) with true. change (is_space c_sp) with true. cbn [negb app].
      rewrite <- !app_assoc. reflexivity.
    - assert (Ei : words wrapped = words (str_join [c_sp] title)).
      { apply (wrap_plain_words _ _ _) with (2 := Ew).
        intros word z a b Hin. apply G. cbn [app].
        rewrite (words_app_space (label_text label)), (words_app_space link) by reflexivity.
        apply in_app_iff. right. apply in_app_iff. right. exact Hin. }
      cbn [app]. rewrite <- !app_assoc. cbn [app].
      rewrite !words_app_space by (assumption || reflexivity). rewrite Ei. reflexivity. }
  destruct (contains first line).
  - assert (Lines : exists before last_line, splitlines (label_text label ++ [sep] ++ link) = before ++ [last_line]
              /\ ((before = [] /\ last_line = label_text label ++ [c_sp] ++ link)
                  \/ (before = [label_text label] /\ last_line = link))).
    { destruct Hsep as [->| ->].
      - exists [], (label_text label ++ [c_sp] ++ link). split; [|left; auto].
        apply splitlines_single; [|destruct (label_text label) eqn:E; discriminate].
        apply Forall_app. split; [exact Hlab|]. constructor; [reflexivity|exact Hlo].
      - exists [label_text label], link. split; [|right; auto]. cbn [app].
        rewrite splitlines_app_nl by exact Hlab. rewrite splitlines_single by assumption. reflexivity. }
    destruct Lines as (before & last_line & Es & Hlast). cbv zeta in Hs. rewrite Es, last_last in Hs.
    rewrite removelast_last in Hs.
    destruct (len_le (length first + length last_line) w) eqn:Efit.
    + left. apply bind_ok in Hs. destruct Hs as (wrapped & Ew & Hs). apply ok_inj in Hs.
      assert (Hall : one_line (last_line ++ [c_sp] ++ str_join [c_sp] title)).
      { apply Forall_app. split; [|constructor; [reflexivity|exact Hto]].
        destruct Hlast as [[_ ->]|[_ ->]]; [|exact Hlo]. apply Forall_app. split; [exact Hlab|].
        constructor; [reflexivity|exact Hlo]. }
      unfold kept. rewrite Hwr. split; intros G.
      * assert (Ei : ink wrapped = ink (last_line ++ [c_sp] ++ str_join [c_sp] title)).
        { eapply C22_partial; [|exact Ew]. destruct Hlast as [[_ ->]|[_ ->]].
          - apply (links_apart_tail []); [exact Hall|]. cbn [app] in *.
            rewrite <- app_assoc. cbn [app]. exact G.
          - apply (links_apart_tail (label_text label ++ [c_sp])); [exact Hall|].
            rewrite <- app_assoc. exact G. }
        subst r. destruct Hlast as [[-> ->]|[-> ->]]; cbn [app str_join] in *.
        -- rewrite Ei. rewrite <- app_assoc. reflexivity.
        -- rewrite !ink_app. change (c_nl :: wrapped) with ([c_nl] ++ wrapped).
           rewrite ink_app, Ei. reflexivity.
      * assert (Ei : words wrapped = words (last_line ++ [c_sp] ++ str_join [c_sp] title)).
        { apply (wrap_plain_words _ _ _) with (2 := Ew). destruct Hlast as [[_ ->]|[_ ->]].
          - rewrite <- app_assoc. exact G.
          - intros word z a b Hin. apply G. cbn [app]. rewrite words_app_space by reflexivity.
            apply in_app_iff. right. exact Hin. }
        subst r. destruct Hlast as [[-> ->]|[-> ->]]; cbn [app str_join] in *.
        -- rewrite Ei. rewrite <- app_assoc. reflexivity.
        -- rewrite !(words_app_space (label_text label)) by reflexivity. rewrite Ei. reflexivity.
    + right. exists link, first, more. split; [reflexivity|]. apply len_le_longer in Efit.
      assert (Lle : length last_line <= length (written label [link])).
      { unfold written. cbn [str_join]. destruct Hlast as [[_ ->]|[_ ->]]; [lia|].
        rewrite !app_length. lia. }
      clear -Efit Lle. destruct w as [z| |q]; cbn in *; [lia|exact Efit|].
      eapply Qlt_le_trans; [exact Efit|]. rewrite <- Zle_Qle. lia.
  - left. apply bind_ok in Hs. destruct Hs as (wrapped & Ew & Hs). apply ok_inj in Hs.
    eapply Own; [exact Ew|]. symmetry. exact Hs.
Qed.

(** ** Success *)

Lemma word_infix w s : In w (words s) -> exists a b, s = a ++ w ++ b.
Proof.
  revert w. induction s as [|c s IH]; intros w H; [destruct H|].
  destruct (is_space c) eqn:Hc.
  - rewrite words_cons_space in H by exact Hc. destruct (IH _ H) as (a & b & ->). exists (c :: a), b. reflexivity.
  - rewrite (words_take (c :: s)) in H by exact Hc. destruct H as [<-|H].
    + exists [], (lstrip_by not_space (c :: s)). apply take_lstrip_by.
    + cbn [lstrip_by] in H. unfold not_space at 1 in H. rewrite Hc in H. cbn [negb] in H.
      assert (Hin : In w (words s)).
      { clear -H. revert H. generalize (take_lstrip_by not_space s). set (t := take_while not_space s).
        intros E H. destruct (lstrip_by not_space s) as [|d r] eqn:Er; [destruct H|].
        assert (Hd := Er). apply lstrip_by_head in Hd. unfold not_space in Hd. apply negb_false_iff in Hd.
        rewrite words_cons_space in H by exact Hd. rewrite E, words_app_space by exact Hd.
        apply in_app_iff. right. exact H. }
      destruct (IH _ Hin) as (a & b & ->). exists (c :: a), b. reflexivity.
Qed.

Lemma dot_word_incl a b : incl (words a) (words b) -> dot_word a -> dot_word b.
Proof. intros H (w & Hin & Hw). exists w. split; [apply H; exact Hin|exact Hw]. Qed.

(** Formatting a definition fails only when a word begins with a single dot. *)
Theorem C36_succeeds : forall lim w i content label parts,
  Forall one_line content -> defines content label parts -> ~ dot_word (written label parts) ->
  exists r, section_text lim w i LINK_REFERENCE_DEFINITION content r.
Proof.
  intros lim w i content label parts Ho Hdef Hd. unfold section_text. cbn [reformatted].
  unfold fmt_link_reference_definition. rewrite (lrd_parts_spec _ _ _ Ho Hdef). cbn [bind].
  destruct Hdef as (ws & body & rest & -> & Hw & Hl & Hn & ->).
  set (content := (ws ++ c_lbr :: label ++ c_rbr :: c_colon :: body) :: rest) in *.
  destruct (words (str_join [c_sp] (body :: rest))) as [|link title] eqn:Ep; [eexists; reflexivity|].
  cbn [hd tl]. assert (Hws := words_nonspace (str_join [c_sp] (body :: rest))). rewrite Ep in Hws.
  inversion Hws as [|? ? [Hln Hls] Ht]; subst. destruct link as [|c0 link0] eqn:El; [congruence|].
  cbn [nilb]. rewrite <- El in *. fold (label_text label).
  assert (Htw : forall text, incl (words text) (link :: title) -> ~ dot_word text).
  { intros text Hi Hdt. apply Hd. eapply dot_word_incl; [|exact Hdt]. unfold written.
    intros x Hx. apply Hi in Hx. rewrite words_join. cbn [map concat]. apply in_app_iff. right.
    rewrite words_one by assumption. cbn [app]. destruct Hx as [<-|Hx]; [left; reflexivity|right].
    rewrite <- words_join. rewrite words_join_words by exact Ht. exact Hx. }
  assert (Wt : exists wr, wrap (str_join [c_sp] title) w = Ok wr).
  { apply C20_wrap_succeeds. apply Htw. rewrite words_join_words by exact Ht. intros x Hx. right. exact Hx. }
  destruct Wt as (wr & Wt).
  assert (L0 : nth_line content 0 = Ok (ws ++ c_lbr :: label ++ c_rbr :: c_colon :: body)) by reflexivity.
  rewrite L0. cbn [bind]. set (l0 := ws ++ c_lbr :: label ++ c_rbr :: c_colon :: body) in *.
  assert (Tail : forall sep k, nth_error content k <> None -> is_space sep = true ->
    exists r, match words (str_join [c_sp] title) with
     | [] => Ok (label_text label ++ [sep] ++ link)
     | first_word :: _ =>
        line <- nth_line content k ;;
        if contains first_word line then
          let str_lines := splitlines (label_text label ++ [sep] ++ link) in
          let last_line := last str_lines [] in
          if len_le (length first_word + length last_line) w then
            wrapped <- wrap (last_line ++ [c_sp] ++ str_join [c_sp] title) w ;;
            Ok (str_join [c_nl] (removelast str_lines ++ [wrapped]))
          else
            wrapped <- wrap (str_join [c_sp] title) w ;;
            Ok ([c_nl] ++ wrapped)
        else
          wrapped <- wrap (str_join [c_sp] title) w ;;
          Ok ((label_text label ++ [sep] ++ link) ++ [c_nl] ++ wrapped)
     end = Ok r).
  { intros sep k Hk Hsp. destruct (words (str_join [c_sp] title)) as [|first more] eqn:Et; [eexists; reflexivity|].
    unfold nth_line. destruct (nth_error content k) as [line|]; [|congruence]. cbn [bind].
    destruct (contains first line); [|rewrite Wt; eexists; reflexivity]. cbv zeta.
    destruct (len_le _ _); [|rewrite Wt; eexists; reflexivity].
    destruct (wrap (last (splitlines (label_text label ++ [sep] ++ link)) [] ++ [c_sp] ++ str_join [c_sp] title) w)
      as [x|e] eqn:Ew; [eexists; reflexivity|]. exfalso. apply wrap_err in Ew. destruct Ew as [Ew _].
    apply Hd. eapply dot_word_incl; [|exact Ew]. cbn [app]. rewrite words_app_space by reflexivity.
    intros x Hx. unfold written. rewrite words_join. cbn [map concat].
    rewrite (words_one link) by assumption. rewrite <- words_join. apply in_app_iff in Hx. destruct Hx as [Hx|Hx].
    - assert (Hin : In x (words (label_text label ++ sep :: link))).
      { rewrite <- words_splitlines. apply in_concat. exists (words (last (splitlines (label_text label ++ sep :: link)) [])).
        split; [|exact Hx]. apply in_map. destruct (splitlines (label_text label ++ sep :: link)) as [|z zs] eqn:Ez.
        - destruct Hx.
        - destruct (exists_last (l := z :: zs)) as (zz & y & Ey); [discriminate|].
          rewrite Ey, last_last. apply in_app_iff. right. left. reflexivity. }
      cbn [app] in Hin. rewrite words_app_space in Hin by exact Hsp. apply in_app_iff in Hin.
      apply in_app_iff. destruct Hin as [Hin|Hin]; [left; exact Hin|].
      right. rewrite (words_one link) in Hin by assumption. destruct Hin as [<-|[]]. left. reflexivity.
    - apply in_app_iff. right. right. exact Hx. }
  destruct (contains link l0) eqn:Ec.
  - apply (Tail c_sp 0); [discriminate|reflexivity].
  - apply (Tail c_nl 1); [|reflexivity]. unfold content. destruct rest as [|l1 rest]; [|discriminate].
    exfalso. assert (Hin : In link (words body)) by (cbn [str_join] in Ep; rewrite Ep; left; reflexivity).
    apply word_infix in Hin. destruct Hin as (a & b & ->).
    assert (contains link l0 = true); [|congruence]. apply contains_spec.
    exists (ws ++ c_lbr :: label ++ c_rbr :: c_colon :: a), b. unfold l0.
    repeat (rewrite <- app_assoc; cbn [app]). reflexivity.
Qed.

(** A title whose first word does not fit after the link makes label and link disappear. *)
Theorem C36_refuted : exists line out,
  parse_markdown 9 [line] = Ok [(LINK_REFERENCE_DEFINITION, [line])]
  /\ section_text 9 (WInt 20) 0 LINK_REFERENCE_DEFINITION [line] out
  /\ line = lit "[label]: /link 'title'" /\ out = c_nl :: lit "'title'".
Proof.
  exists (lit "[label]: /link 'title'"), (c_nl :: lit "'title'").
  split; [vm_compute; reflexivity|]. split; [vm_compute; reflexivity|]. auto.
Qed.

(** * C37 *)

(** A well formed definition is recognised, with its lines and no others. *)
Theorem C37_recognised : forall lim content rest secs,
  definition_whole content rest ->
  parse_markdown lim (content ++ rest) = Ok secs ->
  exists after, secs = (LINK_REFERENCE_DEFINITION, content) :: after.
Proof.
  intros lim content rest secs Hw H.
  destruct content as [|l content].
  { exfalso. assert (G : forall text head, label_then text head -> head <> [])
      by (intros text head [(l & -> & _)|(l & b & -> & _)]; discriminate).
    destruct Hw as [(l & body & E & _)|[(text & link & head & title & Hh & _ & E & _)|(text & q & t & head & more & Hh & _ & _ & E & _)]];
      [discriminate| |]; symmetry in E; apply app_eq_nil in E; destruct E as [-> _]; exact (G _ _ Hh eq_refl). }
  apply split_lrd_recognises in Hw.
  assert (Hr : recognises lim LINK_REFERENCE_DEFINITION ((l :: content) ++ rest)).
  { exists split_link_reference_definition, (l :: content), rest. split; [cbn; tauto|]. split; [exact Hw|discriminate]. }
  assert (Hs := H). cbn [app] in H. apply parse_markdown_first in H.
  destruct H as (ty & c & after & -> & Hty & Hmin). exists after.
  assert (E : ty = LINK_REFERENCE_DEFINITION).
  { destruct (section_type_eq_dec ty LINK_REFERENCE_DEFINITION) as [->|Hne]; [reflexivity|]. exfalso.
    assert (Ho : ty = PARAGRAPH \/ ty = SETEXT_HEADING).
    { destruct (recognises_exclusive _ _ _ _ Hne Hty Hr) as [Hin|Hin]; cbn in Hin; intuition congruence. }
    apply (Hmin LINK_REFERENCE_DEFINITION); [destruct Ho as [->| ->]; cbn; lia|exact Hr]. }
  subst ty. f_equal. f_equal.
  assert (L := Hs). apply C07_lossless in L. destruct L as [L _]. cbn [map concat snd] in L.
  apply (section_split lim _ []) in Hs. destruct Hs as [Hs _]. cbn [splitter_of] in Hs. rewrite L, Hw in Hs.
  congruence.
Qed.

(** Every definition that is recognised is well formed, apart from titles that are never
    closed. *)
Theorem C37_partial : forall lim lines before content after,
  parse_markdown lim lines = Ok (before ++ (LINK_REFERENCE_DEFINITION, content) :: after) ->
  definition_extent content (concat (map snd after)).
Proof.
  intros lim lines before content after H. apply section_split in H. destruct H as [H Hn].
  cbn [splitter_of] in H. eapply split_lrd_extent; eauto.
Qed.

(** A label and a link on the last line of a document are not recognised. *)
Theorem C37_last_line_refuted : exists line,
  labelled line (lit " /link") /\ parse_markdown 9 [line] = Ok [(PARAGRAPH, [line])].
Proof.
  exists (lit "[link]: /link"). split; [|vm_compute; reflexivity].
  exists [], (lit "link"). split; [reflexivity|]. split; [constructor|]. split; [cbn; lia|].
  split; [|cbn; lia]. vm_compute. repeat constructor; discriminate.
Qed.

(** A title that is not closed takes all lines but the last with it, blank lines and
    headings included. *)
Theorem C37_unclosed_refuted :
  parse_markdown 9 [lit "[link]: /link"; lit "'tis"; lit ""; lit "# Heading"; lit "text"; lit "end"]
  = Ok [(LINK_REFERENCE_DEFINITION,
          [lit "[link]: /link"; lit "'tis"; lit ""; lit "# Heading"; lit "text"]);
        (PARAGRAPH, [lit "end"])].
Proof. vm_compute. reflexivity. Qed.

(** * Examples *)

Lemma labelled_lit ws label body :
  forallb is_space ws = true -> length ws < 4 -> forallb (fun c => negb (N.eqb c c_rbr)) label = true ->
  1 <= length label <= 999 -> labelled (ws ++ c_lbr :: label ++ c_rbr :: c_colon :: body) body.
Proof.
  intros Hw Hk Hl Hn. exists ws, label. split; [reflexivity|]. split; [apply spaces_forallb; exact Hw|].
  split; [exact Hk|]. split; [|exact Hn]. apply Forall_forall. intros c Hc. rewrite forallb_forall in Hl.
  apply Hl in Hc. apply negb_true_iff, N.eqb_neq in Hc. exact Hc.
Qed.

Example C36_nonvacuous :
  let content := [lit " [a b]:"; lit "/url 'The"; lit "title'"] in
  section_shape LINK_REFERENCE_DEFINITION content
  /\ defines content (lit "a b") [lit "/url"; lit "'The"; lit "title'"]
  /\ section_text 9 (WInt 12) 0 LINK_REFERENCE_DEFINITION content
       (lit "[a b]:" ++ [c_nl] ++ lit "/url 'The" ++ [c_nl] ++ lit "title'").
Proof.
  cbv zeta. split; [|split; [|vm_compute; reflexivity]].
  - apply (C10_section_shapes 9 [lit " [a b]:"; lit "/url 'The"; lit "title'"]
      [(LINK_REFERENCE_DEFINITION, [lit " [a b]:"; lit "/url 'The"; lit "title'"])]);
      [vm_compute; reflexivity|left; reflexivity].
  - exists [c_sp], [], [lit "/url 'The"; lit "title'"]. split; [reflexivity|]. split; [repeat constructor|].
    split; [vm_compute; repeat constructor; discriminate|]. split; [cbn; lia|vm_compute; reflexivity].
Qed.

Example C37_nonvacuous :
  definition_whole [lit "[a]: /url"] [lit "[b]: /other"]
  /\ parse_markdown 9 [lit "[a]: /url"; lit "[b]: /other"; []]
     = Ok [(LINK_REFERENCE_DEFINITION, [lit "[a]: /url"]);
           (LINK_REFERENCE_DEFINITION, [lit "[b]: /other"]); (BLANK_LINE, [[]])].
Proof.
  split; [|vm_compute; reflexivity]. right. left.
  exists (lit " /url"), (lit "/url"), [lit "[a]: /url"], [].
  split. { left. eexists. split; [reflexivity|]. apply (labelled_lit [] (lit "a") (lit " /url")); (reflexivity || (cbn; lia)). }
  split; [vm_compute; reflexivity|]. split; [reflexivity|]. left. split; [reflexivity|].
  exists (lit "[b]: /other"), []. split; [reflexivity|]. intros q t E. injection E as <- _. intros [H|H]; discriminate.
Qed.

(** A title over two lines, with an escaped quote in it. *)
Example C37_title_nonvacuous :
  let title := [lit "'a \' b"; lit "c' "] in
  title_lines title
  /\ parse_markdown 9 (lit "[a]: /url" :: title ++ [lit "text"])
     = Ok [(LINK_REFERENCE_DEFINITION, lit "[a]: /url" :: title); (PARAGRAPH, [lit "text"])].
Proof.
  cbv zeta. split; [|vm_compute; reflexivity].
  exists c_squote, (lit "a \' b"), [lit "c' "]. split; [reflexivity|]. split; [left; reflexivity|].
  exists [lit "a \' b"], (lit "c' "). split; [reflexivity|].
  assert (Hq : quotation c_squote) by (left; reflexivity). split.
  - repeat constructor. assert (S := scan_spec c_squote (lit "a \' b") Hq). vm_compute (closing_search _ _ _ _) in S. exact S.
  - assert (S := scan_spec c_squote (lit "c' ") Hq). vm_compute (closing_search _ _ _ _) in S. apply S. reflexivity.
Qed.
