(** Every line of a formatted text, and how wide it is. *)
From Coq Require Import String QArith.
From Verif Require Import Py Regex Utils TextWrap Lines Detectors Formatters Base SpecLines SpecFormat
  SpecParser SpecWrap SpecList SpecQuote SpecErrors SpecWidth
  ProofsLines ProofsParser ProofsShapes ProofsList ProofsPass ProofsErrors
  PropsParser PropsLeaf PropsWrap PropsList PropsQuote PropsChars ProofsLimit PropsLocal ProofsNestedFormat.
Local Open Scope nat_scope.

Lemma alike_rstrip a b : alike a b <-> rstrip a = rstrip b.
Proof.
  split.
  - intros (r & H1 & H2). apply rtrims_rstrip in H1, H2. congruence.
  - intros E. exists (rstrip a). split; apply rtrims_rstrip; [reflexivity|exact E].
Qed.

Lemma alike_refl a : alike a a.
Proof. apply alike_rstrip. reflexivity. Qed.

Lemma alike_trans a b c : alike a b -> alike b c -> alike a c.
Proof. rewrite !alike_rstrip. congruence. Qed.

Lemma rstrip_cut a b : rstrip (a ++ b) = rstrip (a ++ rstrip b).
Proof.
  destruct (rstrip_by_spec is_space b) as (post & Eb & Hp). fold (rstrip b) in Eb.
  rewrite Eb at 1. rewrite app_assoc. apply rstrip_app_spaces. apply spaces_forallb. exact Hp.
Qed.

Lemma rstrip_twice s : rstrip (rstrip s) = rstrip s.
Proof. rewrite <- (app_nil_l (rstrip s)). change [] with (@nil char). rewrite <- rstrip_cut. reflexivity. Qed.

Lemma alike_app p a b : alike a b -> alike (p ++ a) (p ++ b).
Proof. rewrite !alike_rstrip. intros E. rewrite rstrip_cut, E, <- rstrip_cut. reflexivity. Qed.

Lemma laid_here w lines t : fits w (length t) \/ excused w lines t -> laid w lines t.
Proof. intros H. exists [], w, lines, t. split; [constructor|]. split; [apply alike_refl|exact H]. Qed.

Lemma laid_alike w lines a b : alike a b -> laid w lines b -> laid w lines a.
Proof.
  intros H (p & w' & lines' & t & H1 & H2 & H3). exists p, w', lines', t.
  split; [exact H1|]. split; [eapply alike_trans; eassumption|exact H3].
Qed.

Lemma laid_empty w lines : laid w lines [].
Proof.
  apply laid_here. left. destruct w as [z| |q]; cbn; [lia|exact I|].
  destruct (Qlt_le_dec 0 q) as [H|H]; [right; apply Qlt_le_weak; exact H|left; exact H].
Qed.

(** * Leaves *)

Lemma joined_parts lines (P : char -> Prop) : Forall P (str_join [c_nl] lines) -> Forall (Forall P) lines.
Proof.
  induction lines as [|l lines IH]; intros H; [constructor|]. destruct lines as [|l' lines].
  - constructor; [exact H|constructor].
  - cbn [str_join] in H. apply Forall_app in H. destruct H as [H1 H2]. apply Forall_app in H2. constructor; [exact H1|apply IH, H2].
Qed.

Lemma one_line_join lines : Forall one_line lines ->
  Forall (fun c => is_linebreak c = true -> c = c_nl) (str_join [c_nl] lines).
Proof.
  intros H. assert (G : forall l, one_line l -> Forall (fun c => is_linebreak c = true -> c = c_nl) l).
  { intros l Hl. eapply Forall_impl; [|exact Hl]. cbn. congruence. }
  induction H as [|l lines Hl H IH]; [constructor|]. destruct lines as [|l' lines]; [exact (G l Hl)|].
  cbn [str_join]. apply Forall_app. split; [exact (G l Hl)|]. apply Forall_app. split; [|exact IH]. repeat constructor.
Qed.

Lemma no_nl_one_line l : Forall (fun c => is_linebreak c = true -> c = c_nl) l -> Forall (fun c => c <> c_nl) l -> one_line l.
Proof.
  intros H H'. apply Forall_forall. intros c Hc. rewrite Forall_forall in H, H'. specialize (H c Hc). specialize (H' c Hc).
  destruct (is_linebreak c); [exfalso; auto|reflexivity].
Qed.

Lemma setext_laid lim w i text secs c r l :
  parse_markdown lim (splitlines text) = Ok secs -> In (SETEXT_HEADING, c) secs ->
  section_text lim w i SETEXT_HEADING c r -> In l (splitlines (r ++ [c_nl])) ->
  fits w (length l) \/ excused w (splitlines text) l.
Proof.
  intros Hp Hin Hr Hl.
  assert (S : section_of (splitlines text) SETEXT_HEADING c) by (exists lim, secs; auto).
  destruct (C18_setext_heading _ _ _ _ _ _ _ Hp Hin Hr) as (heading & u & ch & k & ws & ws' & wrapped & lines & n & Ec & Hch' & Eu & Hw & Hw' & Ew & (El & Nl & Hnl) & (line & Hli & Hle) & _ & ->).
  destruct (C20_lines_fit _ _ _ Ew) as (lines1 & E1 & Ho1 & Hf).
  assert (Ho : Forall one_line lines).
  { apply one_line_join in Ho1. rewrite <- E1, El in Ho1. apply joined_parts in Ho1. clear -Ho1 Hnl. induction Ho1; constructor; inversion Hnl; subst; auto using no_nl_one_line. }
  assert (Fin : forall x, In x lines -> fits w (length x) \/ solid (joined (str_join [c_sp] (map strip heading))) x).
  { destruct lines1 as [|x1 lines1].
    - cbn in E1. rewrite E1 in El. destruct lines as [|x [|y lines]]; [congruence| |].
      + cbn in El. subst x. intros x [<-|[]]. right. left. intros [].
      + exfalso. cbn [str_join] in El. symmetry in El. apply app_eq_nil in El. destruct El as [_ El]. discriminate.
    - assert (E2 : lines = x1 :: lines1).
      { rewrite <- (splitlines_join lines Nl Ho), <- El, E1. apply splitlines_join; [discriminate|exact Ho1]. }
      subst lines. intros x Hx. rewrite Forall_forall in Hf. apply (Hf x Hx). }
  assert (E3 : splitlines ((wrapped ++ [c_nl] ++ repeat ch n) ++ [c_nl]) = lines ++ [repeat ch n]).
  { rewrite <- app_assoc. cbn [app]. rewrite splitlines_nl_app. rewrite El, splitlines_join by assumption. f_equal.
    change (repeat ch n ++ [c_nl]) with (str_join [c_nl] [repeat ch n] ++ [c_nl]). apply splitlines_join; [discriminate|].
    constructor; [|constructor]. apply Forall_forall. intros y Hy. apply repeat_spec in Hy. subst y.
    destruct Hch' as [<-|[<-|[]]]; reflexivity. }
  rewrite E3 in Hl. apply in_app_iff in Hl. destruct Hl as [Hl|[<-|[]]].
  - destruct (Fin l Hl) as [F|F]; [left; exact F|right]. exists SETEXT_HEADING, c. split; [exact S|]. exists heading, u, l. auto.
  - rewrite repeat_length, <- Hle. destruct (Fin line Hli) as [F|F]; [left; exact F|right].
    exists SETEXT_HEADING, c. split; [exact S|]. exists heading, u, line. split; [exact Ec|]. split; [exact F|]. right. exists ch. auto.
Qed.

Lemma thematic_laid lim w i c r l ls :
  section_shape THEMATIC_BREAK c -> section_text lim w i THEMATIC_BREAK c r -> In l (splitlines (r ++ [c_nl])) ->
  fits w (length l) \/ excused w ls l.
Proof.
  intros (l0 & -> & Hl0) H Hl. left.
  assert (Ft : exists ch, first_char (strip l0) = Ok ch /\ is_linebreak ch = false).
  { destruct Hl0 as (ch & ws & body & -> & Hw & Hn & Hc & Hb & Hk). exists ch. split.
    - apply thematic_first. split; [exists ch, ws, body; auto 8|exists ws, body].
      split; [reflexivity|]. split; [exact Hw|]. destruct Hc as [<-|[<-|[<-|[]]]]; reflexivity.
    - destruct Hc as [<-|[<-|[<-|[]]]]; reflexivity. }
  unfold section_text in H. cbn [reformatted fmt_thematic_break] in H.
  assert (G : exists ch n, is_linebreak ch = false /\ r = repeat ch n /\ fits w n).
  { destruct Ft as (ch & E & Hc). rewrite E in H. destruct w as [z| |q]; cbn [bind] in H.
    - apply ok_inj in H. exists ch, (Z.to_nat z). split; [exact Hc|]. split; [symmetry; exact H|]. cbn. lia.
    - apply ok_inj in H. exists ch, 3. split; [exact Hc|]. split; [symmetry; exact H|]. exact I.
    - discriminate. }
  destruct G as (ch & n & Hc & -> & F).
  change (repeat ch n ++ [c_nl]) with (str_join [c_nl] [repeat ch n] ++ [c_nl]) in Hl.
  rewrite splitlines_join in Hl; [|discriminate|].
  - destruct Hl as [<-|[]]. rewrite repeat_length. exact F.
  - constructor; [|constructor]. apply Forall_forall. intros y Hy. apply repeat_spec in Hy. subst y. exact Hc.
Qed.

(** * Nested text *)

Section Pass.
  Variable lim : nat.
  Hypothesis IH : forall text w t, reformat_pass lim text w = Ok t ->
    forall l, In l (splitlines t) -> laid w (splitlines text) l.

  Lemma nested_laid inner w t l : inner <> [] -> Forall one_line inner ->
    reformat_pass lim (str_join [c_nl] inner ++ [c_nl]) w = Ok t -> In l (splitlines t) -> laid w inner l.
  Proof.
    intros Hn Ho E Hl. apply (IH _ _ _ E) in Hl. rewrite splitlines_join in Hl; assumption.
  Qed.

  Lemma quote_laid lines w i content r l :
    section_of lines BLOCK_QUOTE content -> Forall one_line lines ->
    section_text lim w i BLOCK_QUOTE content r -> In l (splitlines (r ++ [c_nl])) -> laid w lines l.
  Proof.
    intros S Ho H Hl. destruct (section_of_shape _ _ _ S Ho) as [Sh Hc].
    destruct (C30_block_quote lim w i content r Sh H)
      as (ws & l0 & rest & inner & prefix & w' & text & outs & Ec & Hws & Q & Nw & E & F & (-> & Nl & Hnl) & _).
    assert (Hi : inner <> [] /\ Forall one_line inner).
    { destruct (quotes_derived _ _ _ Q) as (mid & D1 & D2). split.
      - subst content. inversion D1; subst. inversion D2; subst. discriminate.
      - eapply derived_one_line; [exact D2|]. eapply derived_one_line; eassumption. }
    assert (Hp : one_line prefix).
    { destruct Q as (? & _ & [(_ & -> & _)|(_ & -> & _)]); repeat constructor. }
    assert (Hout : Forall one_line outs).
    { clear -F Hp. assert (G := splitlines_one_line text). revert G. induction F as [|a b x y Hab F IHf]; intros G; [constructor|].
      inversion G as [|? ? G1 G2]; subst. constructor; [|auto]. apply rtrims_rstrip in Hab. subst b.
      assert (G3 : one_line (prefix ++ a)) by (apply Forall_app; auto).
      destruct (rstrip_by_spec is_space (prefix ++ a)) as (post & Eb & _). fold (rstrip (prefix ++ a)) in Eb.
      unfold one_line in G3. rewrite Eb in G3. apply Forall_app in G3. apply G3. }
    rewrite splitlines_join in Hl by assumption.
    assert (G : exists x, In x (splitlines text) /\ rtrims (prefix ++ x) l).
    { clear -F Hl. induction F as [|a b x y Hab F IHf]; [destruct Hl|]. destruct Hl as [<-|Hl].
      - exists a. split; [left; reflexivity|exact Hab].
      - destruct (IHf Hl) as (x' & H1 & H2). exists x'. split; [right; exact H1|exact H2]. }
    destruct G as (x & Hx & Ht). apply (nested_laid _ _ _ _ (proj1 Hi) (proj2 Hi) E) in Hx.
    destruct Hx as (p & w2 & lines' & t & P & A & V). exists (prefix ++ p), w2, lines', t.
    split; [eapply placed_quote; eassumption|]. split; [|exact V].
    eapply alike_trans; [|rewrite <- app_assoc; apply alike_app; exact A].
    apply alike_rstrip. apply rtrims_rstrip in Ht. subst l. apply rstrip_twice.
  Qed.

  Lemma listed_lines inner w t p n out : inner <> [] -> Forall one_line inner -> one_line p ->
    reformat_pass lim (str_join [c_nl] inner ++ [c_nl]) w = Ok t -> listed p n t out ->
    forall l, In l (splitlines (out ++ [c_nl])) ->
      exists lead x, l = lead ++ x /\ In lead [p ++ [c_sp]; repeat c_sp n] /\ laid w inner x.
  Proof.
    intros Hn Ho Hp E (first & rest & k & Et & Hlast & Hnl & ->) l Hl.
    destruct (pass_lines _ _ _ _ E) as (ls & Els & Nls & Ols).
    assert (G : Forall (fun c => is_linebreak c = true -> c = c_nl) t).
    { rewrite Els. rewrite newline_terminated_join by exact Nls. apply Forall_app. split; [apply one_line_join; exact Ols|repeat constructor]. }
    rewrite Et in G. apply Forall_app in G. destruct G as [G _]. apply joined_parts in G.
    assert (Of : Forall one_line (first :: rest)).
    { clear -G Hnl. revert Hnl. induction G; intros Hnl; constructor; inversion Hnl; subst; auto using no_nl_one_line. }
    assert (Kx : exists k', k = S k').
    { destruct k as [|k']; [exfalso|eauto]. cbn [repeat] in Et. rewrite app_nil_r in Et.
      rewrite Els, newline_terminated_join in Et by exact Nls.
      destruct rest as [|x rest _] using rev_ind.
      - cbn [str_join] in Et. apply Forall_inv in Hnl. rewrite <- Et in Hnl. apply Forall_app in Hnl. destruct Hnl as [_ Hnl].
        apply Forall_inv in Hnl. congruence.
      - rewrite last_last in Hlast. specialize (Hlast ltac:(destruct rest; discriminate)).
        change (first :: rest ++ [x]) with ((first :: rest) ++ [x]) in Et, Hnl.
        rewrite str_join_app in Et by discriminate. cbn [str_join] in Et.
        destruct x as [|c x _] using rev_ind; [congruence|]. rewrite !app_assoc in Et. apply app_inj_tail in Et.
        destruct Et as [_ <-]. apply Forall_app in Hnl. destruct Hnl as [_ Hnl]. apply Forall_inv in Hnl.
        apply Forall_app in Hnl. destruct Hnl as [_ Hnl]. apply Forall_inv in Hnl. congruence. }
    destruct Kx as (k' & ->).
    assert (In1 : forall x, In x (first :: rest) -> laid w inner x).
    { intros x Hx. apply (nested_laid _ _ _ _ Hn Ho E). rewrite Et. cbn [repeat].
      rewrite splitlines_nl_app, splitlines_join by (try discriminate; exact Of). apply in_app_iff. left. exact Hx. }
    rewrite splitlines_join in Hl.
    - destruct Hl as [<-|Hl].
      + exists (p ++ [c_sp]), first. split; [rewrite <- app_assoc; reflexivity|]. split; [left; reflexivity|]. apply In1. left. reflexivity.
      + apply in_map_iff in Hl. destruct Hl as (x & <- & Hx). exists (repeat c_sp n), x. split; [reflexivity|].
        split; [right; left; reflexivity|]. apply In1. right. exact Hx.
    - discriminate.
    - inversion Of as [|? ? O1 O2]; subst. constructor.
      + apply Forall_app. split; [exact Hp|]. constructor; [reflexivity|exact O1].
      + apply Forall_map. eapply Forall_impl; [|exact O2]. cbn. intros y Hy. apply Forall_app. split; [|exact Hy].
        apply Forall_forall. intros c Hc. apply repeat_spec in Hc. subst c. reflexivity.
  Qed.

  Lemma list_laid lines ty w content n prefixes r l :
    section_of lines ty content -> list_type ty -> Forall one_line lines ->
    Forall one_line prefixes ->
    list_layout lim w content n prefixes r -> In l (splitlines (r ++ [c_nl])) ->
    exists entries k entry inner p lead x,
      entries_of content entries /\ length prefixes = length entries
      /\ nth_error entries k = Some entry /\ nth_error prefixes k = Some p
      /\ dedented entry inner /\ l = lead ++ x /\ In lead [p ++ [c_sp]; repeat c_sp n]
      /\ laid (width_sub w (Z.of_nat n)) inner x.
  Proof.
    intros S Ty Ho Hp (entries & inners & texts & outs & Pa & Fs & Fd & Fr & Fl & L & ->) Hl.
    destruct (section_of_shape _ _ _ S Ho) as [Sh Hc].
    assert (Oe : Forall (Forall one_line) entries).
    { destruct Pa as [Ec _]. rewrite <- Ec in Hc. apply (proj1 (Forall_concat _ _)). exact Hc. }
    assert (Nx : outs <> []).
    { intros ->. inversion Fl as [Ecb|]; subst. destruct prefixes as [|p prefixes].
      - destruct entries; [|discriminate]. destruct Pa as [Ec _]. cbn in Ec. subst content.
        destruct Ty as [->| ->]; cbn in Sh; destruct Sh as (? & ? & Sh & _); discriminate.
      - destruct entries as [|e entries]; [discriminate|]. inversion Fd; subst. inversion Fr; subst. discriminate. }
    rewrite <- newline_terminated_join in Hl by exact Nx. rewrite splitlines_newline_terminated_concat in Hl.
    assert (G : exists k entry inner p lead x,
      nth_error entries k = Some entry /\ nth_error prefixes k = Some p
      /\ dedented entry inner /\ l = lead ++ x /\ In lead [p ++ [c_sp]; repeat c_sp n]
      /\ laid (width_sub w (Z.of_nat n)) inner x).
    { clear Pa Fs Hc Sh Nx. revert texts prefixes outs Fr Fl L Hp Hl.
      induction Fd as [|entry inner entries inners Hd Fd IHd]; intros texts prefixes outs Fr Fl L Hp Hl.
      - destruct prefixes; [|discriminate]. inversion Fl; subst. destruct Hl.
      - inversion Fr as [|? text ? texts' Ht Fr']; subst. destruct prefixes as [|p prefixes]; [discriminate|].
        cbn [combine] in Fl. inversion Fl as [|? out ? outs' Hout Fl']; subst.
        inversion Hp as [|? ? Hp1 Hp2]; subst. inversion Oe as [|? ? Oe1 Oe2]; subst.
        cbn [map concat] in Hl. apply in_app_iff in Hl. destruct Hl as [Hl|Hl].
        + assert (Ni : inner <> []) by (destruct Hd as (? & ? & ? & ? & ? & ? & _ & _ & -> & _); discriminate).
          assert (Oi : Forall one_line inner) by (eapply derived_one_line; [apply dedented_derived; exact Hd|exact Oe1]).
          destruct (listed_lines _ _ _ _ _ _ Ni Oi Hp1 Ht Hout l Hl) as (lead & x & E & Hlead & La).
          exists 0, entry, inner, p, lead, x. repeat split; assumption.
        + destruct (IHd Oe2 _ _ _ Fr' Fl' ltac:(cbn in L; lia) Hp2 Hl) as (k & e' & i' & p' & lead & x & G).
          exists (Datatypes.S k), e', i', p', lead, x. exact G. }
    destruct G as (k & entry & inner & p & lead & x & G). exists entries, k, entry, inner, p, lead, x.
    split; [split; assumption|]. split; [exact L|]. exact G.
  Qed.

  Lemma section_laid text secs ty w i content r l :
    parse_markdown lim (splitlines text) = Ok secs -> In (ty, content) secs ->
    section_text lim w i ty content r -> In l (splitlines (r ++ [c_nl])) -> laid w (splitlines text) l.
  Proof.
    intros Hp Hin H Hl.
    assert (S : section_of (splitlines text) ty content) by (exists lim, secs; auto).
    assert (Ho := splitlines_one_line text).
    destruct (section_of_shape _ _ _ S Ho) as [Sh Hc].
    destruct ty.
    - apply laid_here. right. exists ATX_HEADING, content. split; [exact S|]. exists lim, i, r. auto.
    - unfold section_text in H. cbn [reformatted] in H.
      assert (E : r = []) by (destruct Sh as (x & -> & _); cbn in H; injection H as <-; reflexivity).
      subst r. cbn in Hl. destruct Hl as [<-|[]]. apply laid_empty.
    - eapply quote_laid; eassumption.
    - destruct (C29_bullet_list lim w i content r Sh Hc H) as (ws & b & body & rest & prefixes & Ec & Hws & Hb & Hpf & Hly).
      destruct (list_laid _ _ _ _ _ _ _ _ S (or_introl eq_refl) Ho ltac:(eapply Forall_impl; [|exact Hpf]; cbn; intros p ->; destruct Hb as [<-|[<-|[<-|[]]]]; repeat constructor) Hly Hl)
        as (entries & k & entry & inner & p & lead & x & He & _ & Hk & Hpk & Hd & -> & Hlead & (bf & w' & lines' & t & P & A & V)).
      apply nth_error_In in Hpk. rewrite Forall_forall in Hpf. rewrite (Hpf p Hpk) in Hlead.
      exists (lead ++ bf), w', lines', t. split.
      + eapply placed_bullet; try eassumption; [eapply nth_error_In; exact Hk|].
        apply (narrower_sub w 0 2 w). apply narrower_refl.
      + split; [rewrite <- app_assoc; apply alike_app; exact A|exact V].
    - apply laid_here. right. exists FENCED_CODE_BLOCK, content. split; [exact S|]. exists lim, i, r. auto.
    - apply laid_here. right. exists INDENTED_CODE_BLOCK, content. split; [exact S|]. exists lim, i, r. auto.
    - apply laid_here. right. exists LINK_REFERENCE_DEFINITION, content. split; [exact S|]. exists lim, i, r. auto.
    - destruct (C28_ordered_list lim w i content r Sh Hc H) as (ws & ds & body & rest & prefixes & largest & Ec & Hws & Hds & Hpf & Hlg & Hly).
      assert (Op : Forall one_line prefixes).
      { apply Forall_forall. intros p Hpi. apply In_nth_error in Hpi. destruct Hpi as (k & Hk). destruct (Hpf k p Hk) as (num & ((_ & Hd) & _) & ->).
        apply Forall_app. split; [|repeat constructor]. eapply Forall_impl; [|exact Hd]. cbn. intros c Hd'.
        destruct (is_linebreak c) eqn:Eb; [|reflexivity]. exfalso.
        unfold is_digit in Hd'. apply andb_true_iff in Hd'. rewrite !N.leb_le in Hd'.
        apply line_separators_spec in Eb. cbn in Eb. lia. }
      destruct (list_laid _ _ _ _ _ _ _ _ S (or_intror eq_refl) Ho Op Hly Hl)
        as (entries & k & entry & inner & p & lead & x & He & Le & Hk & Hpk & Hd & -> & Hlead & (bf & w' & lines' & t & P & A & V)).
      destruct (Hpf k p Hpk) as (num & Hnum & ->). rewrite Le in Hlg.
      exists (lead ++ bf), w', lines', t. split.
      + eapply placed_number; try eassumption.
        * rewrite <- app_assoc in Hlead. exact Hlead.
        * replace (Z.of_nat (length largest) + 2)%Z with (0 + Z.of_nat (length largest + 2))%Z by lia.
          apply (narrower_sub w 0 _ w). apply narrower_refl.
      + split; [rewrite <- app_assoc; apply alike_app; exact A|exact V].
    - destruct (paragraph_lines _ _ _ _ _ _ H Hl) as (l0 & tail & -> & Ht & V).
      apply laid_alike with l0.
      + apply alike_rstrip. apply rstrip_app_spaces. exact Ht.
      + apply laid_here. destruct V as [V|V]; [left; exact V|right]. exists PARAGRAPH, content. auto.
    - apply laid_here. eapply setext_laid; eassumption.
    - apply laid_here. right. exists TABLE, content. split; [exact S|]. exists lim, i, r. auto.
    - apply laid_here. eapply thematic_laid; eassumption.
  Qed.
End Pass.

Lemma pass_laid lim text w t : reformat_pass lim text w = Ok t ->
  forall l, In l (splitlines t) -> laid w (splitlines text) l.
Proof.
  revert text w t. induction lim as [|lim IH]; intros text w t E l Hl; [discriminate|].
  apply reformat_pass_inv in E. destruct E as (secs & texts & Hp & Ht & ->).
  destruct (separated None (combine (map fst secs) texts)) as [|r0 rs] eqn:Es.
  { cbn in Hl. destruct Hl as [<-|[]]. apply laid_empty. }
  rewrite <- Es in Hl. rewrite finish_pass_join, <- newline_terminated_join in Hl by (rewrite Es; discriminate).
  rewrite splitlines_newline_terminated_concat in Hl. apply in_concat in Hl.
  destruct Hl as (ls & Hls & Hl). apply in_map_iff in Hls. destruct Hls as (r & <- & Hr).
  apply in_separated in Hr. destruct Hr as [->|(ty & Hr)].
  { cbn in Hl. destruct Hl as [<-|[]]. apply laid_empty. }
  destruct (section_texts_in _ _ _ _ _ _ _ Ht Hr) as (c & j & Hc & Hj).
  eapply section_laid; eassumption.
Qed.

(** * The whole text *)

Lemma rstrip_lines ls l : Forall one_line ls -> In l (splitlines (rstrip (newline_terminated ls) ++ [c_nl])) ->
  l = [] \/ exists l', In l' ls /\ alike l l'.
Proof.
  induction ls as [|x ls IH] using rev_ind; intros Ho Hl.
  - cbn in Hl. destruct Hl as [<-|[]]. left. reflexivity.
  - apply Forall_app in Ho. destruct Ho as [Ho Hx]. apply Forall_inv in Hx.
    rewrite newline_terminated_app in Hl. change (newline_terminated [x]) with ((x ++ [c_nl]) ++ []) in Hl.
    rewrite app_nil_r, (app_assoc _ x), rstrip_app_spaces in Hl by repeat constructor.
    destruct (list_eq_dec N.eq_dec (rstrip x) []) as [Eb|Eb].
    + rewrite rstrip_cut, Eb, app_nil_r in Hl.
      destruct (IH Ho Hl) as [->|(l' & H1 & H2)]; [left; reflexivity|right]. exists l'.
      split; [apply in_app_iff; left; exact H1|exact H2].
    + assert (E : rstrip (newline_terminated ls ++ x) = newline_terminated ls ++ rstrip x).
      { apply rstrip_append. exact Eb. }
      rewrite E in Hl. right. destruct ls as [|y ls].
      * cbn [newline_terminated map concat app] in Hl. exists x. split; [left; reflexivity|].
        change (rstrip x ++ [c_nl]) with (str_join [c_nl] [rstrip x] ++ [c_nl]) in Hl.
        rewrite splitlines_join in Hl; [|discriminate|constructor; [apply rstrip_one_line; exact Hx|constructor]].
        destruct Hl as [<-|[]]. apply alike_rstrip. apply rstrip_twice.
      * rewrite newline_terminated_join in Hl by discriminate. rewrite <- !app_assoc in Hl. cbn [app] in Hl.
        rewrite splitlines_nl_app, splitlines_join in Hl by (try discriminate; exact Ho).
        apply in_app_iff in Hl. destruct Hl as [Hl|Hl].
        -- exists l. split; [apply in_app_iff; left; exact Hl|apply alike_refl].
        -- exists x. split; [apply in_app_iff; right; left; reflexivity|].
           change (rstrip x ++ [c_nl]) with (str_join [c_nl] [rstrip x] ++ [c_nl]) in Hl.
           rewrite splitlines_join in Hl; [|discriminate|constructor; [apply rstrip_one_line; exact Hx|constructor]].
           destruct Hl as [<-|[]]. apply alike_rstrip. apply rstrip_twice.
Qed.

Lemma reformat_laid lim text w out : reformat_markdown_text lim text w = Ok out ->
  Forall (laid w (splitlines text)) (splitlines out).
Proof.
  intros E. destruct (reformat_ok_pass _ _ _ _ E) as (t & E1 & _ & ->).
  destruct (pass_lines _ _ _ _ E1) as (ls & -> & _ & Ho). apply Forall_forall. intros l Hl.
  destruct (rstrip_lines _ _ Ho Hl) as [->|(l' & H1 & H2)]; [apply laid_empty|].
  apply (laid_alike _ _ _ l' H2). eapply pass_laid; [exact E1|].
  rewrite splitlines_newline_terminated by exact Ho. exact H1.
Qed.

Lemma placed_within w lines p w' lines' : placed w lines p w' lines' -> within lines lines'.
Proof.
  induction 1 as [| |? ? ? ? ? ? ? entries entry ? ? ? ? ? ? ? ? ? ? (Ec & _) Hin|
    ? ? ? ? ? ? ? entries k entry ? ? ? ? ? ? ? ? ? ? ? ? (Ec & _) Hin]; [constructor|eapply within_quote; eassumption| |].
  - destruct Ec as [Ec _]. apply in_split in Hin. destruct Hin as (a1 & a2 & ->). rewrite concat_app in Ec. cbn [concat] in Ec.
    eapply within_entry; [eassumption|left; reflexivity|symmetry; exact Ec|eassumption|assumption].
  - destruct Ec as [Ec _]. apply nth_error_In, in_split in Hin. destruct Hin as (a1 & a2 & ->). rewrite concat_app in Ec. cbn [concat] in Ec.
    eapply within_entry; [eassumption|right; reflexivity|symmetry; exact Ec|eassumption|assumption].
Qed.

(** What stands before is not longer than what is taken from the width. *)
Lemma placed_room w lines p w' lines' : placed w lines p w' lines' -> quotes_flush lines -> forall z, w = WInt z ->
  exists z', w' = WInt z' /\ (Z.of_nat (length p) <= z - z')%Z.
Proof.
  induction 1 as [w lines|w lines content ws l rest inner prefix w1 p w' lines' S Ec Hws Q Nw P IH
    |w lines content ws b body rest entries entry inner lead w1 p w' lines' S Ec Hws Hb (Pa & _) He Hd Hlead Nw P IH
    |w lines content ws ds body rest entries k entry num largest inner lead w1 p w' lines' S Ec Hws Hds (Pa & _) He Hd Hn Hlg Hlead Nw P IH];
    intros Fq z ->.
  - exists z. split; [reflexivity|]. cbn. lia.
  - destruct w1 as [z1| |]; cbn in Nw; try contradiction.
    destruct (IH (fun ls c W Sc => Fq ls c (within_quote _ _ _ _ _ S Q W) Sc) z1 eq_refl) as (z' & -> & L).
    exists z'. split; [reflexivity|]. rewrite app_length.
    destruct (Fq lines content (within_self _) S) as (l' & rest' & Ef). rewrite Ec in Ef.
    assert (E0 : ws = []).
    { destruct ws as [|x ws]; [reflexivity|]. injection Ef as -> _ _. apply Forall_inv in Hws. discriminate. }
    subst ws. cbn [length] in Nw. lia.
  - destruct w1 as [z1| |]; cbn in Nw; try contradiction.
    apply in_split in He. destruct He as (x & y & ->). destruct Pa as [Pa _]. rewrite concat_app in Pa. cbn [concat] in Pa. symmetry in Pa.
    destruct (IH (fun ls c W Sc => Fq ls c (within_entry _ _ _ _ _ _ _ _ S (or_introl eq_refl) Pa Hd W) Sc) z1 eq_refl) as (z' & -> & L).
    exists z'. split; [reflexivity|]. rewrite app_length.
    assert (El : length lead = 2) by (destruct Hlead as [<-|[<-|[]]]; reflexivity). lia.
  - destruct w1 as [z1| |]; cbn in Nw; try contradiction. assert (Hk := nth_error_Some entries k). rewrite He in Hk.
    assert (Kl : k < length entries) by (apply Hk; discriminate). clear Hk.
    apply nth_error_In, in_split in He. destruct He as (x & y & Ee).
    assert (Pa' := Pa). rewrite Ee in Pa'. destruct Pa' as [Pa' _]. rewrite concat_app in Pa'. cbn [concat] in Pa'. symmetry in Pa'.
    destruct (IH (fun ls c W Sc => Fq ls c (within_entry _ _ _ _ _ _ _ _ S (or_intror eq_refl) Pa' Hd W) Sc) z1 eq_refl) as (z' & -> & L).
    exists z'. split; [reflexivity|]. rewrite app_length.
    assert (El : length lead <= length largest + 2).
    { assert (Dl := decimal_length _ _ _ _ Hn Hlg ltac:(lia)).
      destruct Hlead as [<-|[<-|[]]]; [rewrite app_length; cbn; lia|rewrite repeat_length; lia]. }
    lia.
Qed.

(** * Modest lines *)

Lemma within_derived (P : str -> Prop) lines lines' : (forall l l', derived l l' -> P l -> P l') ->
  within lines lines' -> Forall P lines -> Forall P lines'.
Proof.
  intros HP H.
  assert (F : forall ls ls', Forall2 derived ls ls' -> Forall P ls -> Forall P ls').
  { induction 1; intros G; [constructor|]. inversion G; subst. constructor; eauto. }
  assert (Sec : forall lines ty content, section_of lines ty content -> Forall P lines -> Forall P content).
  { intros ls ty content (lim & secs & Hp & Hin) C. apply parse_markdown_lossless in Hp. destruct Hp as [Hp _]. rewrite <- Hp in C.
    rewrite Forall_concat in C. rewrite Forall_forall in C. apply (C content). apply in_map_iff. exists (ty, content). auto. }
  induction H as [lines|lines content inner prefix lines' Hs Hq H IH
    |lines ty content a entry b inner lines' Hs _ Ec Hd H IH]; intros C; [exact C| |].
  - apply IH. destruct (quotes_derived _ _ _ Hq) as (mid & D1 & D2). eapply F; [exact D2|]. eapply F; [exact D1|]. eapply Sec; eassumption.
  - apply IH. eapply F; [apply dedented_derived; exact Hd|]. apply (Sec _ _ _ Hs) in C. rewrite Ec in C. apply Forall_infix in C. exact C.
Qed.

Lemma modest_derived l l' : derived l l' -> modest l -> modest l'.
Proof.
  intros [(p & ->)|(d & ->)] (H1 & H2 & H3).
  - apply Forall_app in H1. split; [tauto|]. split.
    + intros a ws b -> Hw. apply (H2 (p ++ a) ws b); [rewrite !app_assoc; reflexivity|exact Hw].
    + intros a x b ->. apply (H3 (p ++ a) x b). rewrite <- app_assoc. reflexivity.
  - induction d as [|d IHd]; [split; [exact H1|split; assumption]|]. destruct IHd as (G1 & G2 & G3). cbn [repeat app]. split.
    + constructor; [|exact G1]. cbn. intuition discriminate.
    + split.
      * intros [|y a] ws b E Hw.
        -- destruct ws as [|y ws]; [cbn; lia|]. injection E as <- _. apply Forall_inv in Hw. discriminate.
        -- injection E as _ E. eapply G2; eassumption.
      * intros [|y a] x b E; injection E as E1 E2; [subst x; reflexivity|]. eapply G3; eassumption.
Qed.

Lemma modest_within lines lines' : within lines lines' -> Forall modest lines -> Forall modest lines'.
Proof. apply within_derived. exact modest_derived. Qed.

Lemma modest_section lines ty content : section_of lines ty content -> Forall modest lines -> Forall modest content.
Proof.
  intros (lim & secs & Hp & Hin) C. apply parse_markdown_lossless in Hp. destruct Hp as [Hp _]. rewrite <- Hp in C.
  rewrite Forall_concat in C. rewrite Forall_forall in C. apply (C content). apply in_map_iff. exists (ty, content). auto.
Qed.

Lemma modest_flush lines : Forall modest lines -> quotes_flush lines.
Proof.
  intros H lines' content W S. apply (modest_within _ _ W) in H. apply (modest_section _ _ _ S) in H.
  assert (Sh := section_shape_of _ _ _ S). cbn [section_shape] in Sh. destruct Sh as (l & rest & -> & (ws & body & -> & Hw & _) & _).
  apply Forall_inv in H. destruct H as (_ & _ & H). destruct ws as [|x ws _] using rev_ind; [exists body, rest; reflexivity|].
  exfalso. rewrite <- app_assoc in H. specialize (H ws x body eq_refl). apply Forall_app in Hw. destruct Hw as [_ Hw]. apply Forall_inv in Hw. congruence.
Qed.
