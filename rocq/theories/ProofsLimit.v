(** The recursion limit: a larger limit only turns recursion errors into other results,
    and some limit is large enough. *)
From Verif Require Import Py Regex Utils TextWrap Lines Detectors Formatters Base
  SpecLines SpecFormat SpecParser SpecList SpecQuote SpecLimit ProofsLines ProofsParser
  PropsParser ProofsPass ProofsFilled ProofsList PropsList PropsQuote.

(** * Raising the limit *)

(** [r'] is [r], unless [r] is a recursion error. *)
Definition approx {A} (r r' : res A) : Prop :=
  r' = r \/ exists e, r = Err e /\ exn_base e = RecursionError.

Lemma approx_refl {A} (r : res A) : approx r r.
Proof. left. reflexivity. Qed.

(** The two sides are the same, syntactically. *)
Ltac same := match goal with |- approx ?x ?x => apply approx_refl end.

Lemma approx_rec {A} (r : res A) : approx (Err RecursionError) r.
Proof. right. exists RecursionError. auto. Qed.

Lemma approx_bind {A B} (x x' : res A) (f f' : A -> res B) :
  approx x x' -> (forall a, approx (f a) (f' a)) -> approx (bind x f) (bind x' f').
Proof.
  intros [->|(e & -> & He)] Hf.
  - destruct x as [a|e]; [apply Hf|left; reflexivity].
  - right. exists e. auto.
Qed.

Lemma approx_redirect {A} (x x' : res A) : approx x x' -> approx (with_redirect x) (with_redirect x').
Proof.
  intros [->|(e & -> & He)]; [same|]. right. exists (Redirected e). auto.
Qed.

Lemma approx_pep479 {A} (x x' : res A) : approx x x' -> approx (pep479 x) (pep479 x').
Proof.
  intros [->|(e & -> & He)]; [same|]. right. unfold pep479. eexists. split; [reflexivity|].
  induction e; try discriminate; [reflexivity|]. exact (IHe He).
Qed.

Lemma approx_mapM {A B} (f f' : A -> res B) l :
  (forall a, approx (f a) (f' a)) -> approx (mapM f l) (mapM f' l).
Proof.
  intros H. induction l as [|a l IH]; [left; reflexivity|]. cbn [mapM].
  apply approx_bind; [apply H|]. intros b. apply approx_bind; [exact IH|]. intros bs. same.
Qed.

Ltac approx_step :=
  first
    [ assumption
    | same
    | match goal with H : forall x, approx (?f x) (?g x) |- approx (?f _) (?g _) => apply H end
    | apply approx_bind; [|intros ?]
    | apply approx_redirect
    | match goal with
      | |- approx (match ?x with _ => _ end) _ => destruct x
      | |- approx (if ?x then _ else _) _ => destruct x
      end ].

Section Splitters.
  Variables sbq sbq' : splitter.
  Hypothesis H : forall lines, approx (sbq lines) (sbq' lines).

  Lemma approx_any_splits fs fs' lines :
    Forall2 (fun (f f' : splitter) => forall lines, approx (f lines) (f' lines)) fs fs' ->
    approx (any_splits fs lines) (any_splits fs' lines).
  Proof.
    intros F. induction F as [|f f' fs fs' Hf F IH]; [left; reflexivity|]. cbn [any_splits].
    apply approx_bind; [apply Hf|]. intros [s r]. destruct (nilb s); [exact IH|same].
  Qed.

  Lemma approx_par_continuation lines :
    approx (par_continuation sbq lines) (par_continuation sbq' lines).
  Proof.
    unfold par_continuation. apply approx_bind; [|intros b; same].
    apply approx_any_splits. repeat (constructor; [intros x; repeat approx_step|]). constructor.
  Qed.

  Lemma approx_par_tail tail : approx (par_tail sbq tail) (par_tail sbq' tail).
  Proof.
    induction tail as [|t rest IH]; [left; reflexivity|]. cbn [par_tail].
    apply approx_bind; [apply approx_par_continuation|]. intros b. repeat approx_step.
  Qed.

  Lemma approx_spis lines :
    approx (split_paragraph_ignoring_setext sbq lines) (split_paragraph_ignoring_setext sbq' lines).
  Proof.
    unfold split_paragraph_ignoring_setext. destruct lines as [|l rest]; [same|].
    repeat approx_step. apply approx_par_tail.
  Qed.

  Lemma approx_paragraph lines : approx (split_paragraph sbq lines) (split_paragraph sbq' lines).
  Proof. unfold split_paragraph. apply approx_bind; [apply approx_spis|]. intros [p r]. same. Qed.

  Lemma approx_setext lines : approx (split_setext_heading sbq lines) (split_setext_heading sbq' lines).
  Proof. unfold split_setext_heading. apply approx_bind; [apply approx_spis|]. intros [p r]. same. Qed.

  Lemma approx_bq_continuation lines :
    approx (bq_continuation sbq lines) (bq_continuation sbq' lines).
  Proof.
    unfold bq_continuation. apply approx_bind; [|intros b; same].
    apply approx_any_splits. cbn [map].
    repeat (constructor; [intros x; apply approx_redirect; first [same|apply approx_setext]|]).
    constructor.
  Qed.

  Lemma approx_bq_take first lines :
    approx (bq_take_continuation sbq first lines) (bq_take_continuation sbq' first lines).
  Proof.
    revert first. induction lines as [|l rest IH]; intros first; [left; reflexivity|].
    cbn [bq_take_continuation]. apply approx_bind; [apply approx_bq_continuation|]. intros b.
    destruct b; [|same]. destruct (first && _ && _); [same|].
    apply approx_bind; [apply IH|]. intros [m r]. same.
  Qed.

  Lemma approx_bq_loop ewp ewp' n bq lines :
    (forall x, approx (ewp x) (ewp' x)) ->
    approx (bq_loop sbq ewp n bq lines) (bq_loop sbq' ewp' n bq lines).
  Proof.
    intros He. revert bq lines. induction n as [|n IH]; intros bq lines; destruct lines as [|l rest];
      cbn [bq_loop]; try same.
    destruct (negb (is_explicit_block_quote_line l)); [same|].
    destruct (span is_explicit_block_quote_line (l :: rest)) as [run rem].
    apply approx_bind; [apply He|]. intros b. destruct b; [|same].
    apply approx_bind; [apply approx_bq_take|]. intros [c r]. apply IH.
  Qed.

  Lemma approx_first_split fs fs' lines :
    Forall2 (fun tf tf' : section_type * splitter => fst tf = fst tf'
               /\ forall lines, approx (snd tf lines) (snd tf' lines)) fs fs' ->
    approx (first_split fs lines) (first_split fs' lines).
  Proof.
    intros F. revert lines. induction F as [|[ty f] [ty' f'] fs fs' [E Hf] F IH]; intros lines;
      [left; reflexivity|]. cbn in E, Hf. subst ty'. cbn [first_split].
    apply approx_bind; [apply Hf|]. intros [c r]. destruct (nilb c); [apply IH|same].
  Qed.

  Lemma approx_parse_loop n lines : approx (parse_loop sbq n lines) (parse_loop sbq' n lines).
  Proof.
    revert lines. induction n as [|n IH]; intros [|l rest]; cbn [parse_loop]; try same.
    apply approx_bind.
    - apply approx_first_split. unfold SPLITTERS.
      repeat (constructor; [split; [reflexivity|]; intros x; cbn [snd];
        first [same|apply H|apply approx_paragraph|apply approx_setext]|]). constructor.
    - intros [s r]. apply approx_bind; [apply IH|]. intros secs. same.
  Qed.
End Splitters.

Lemma approx_block_quote lim lim' : lim <= lim' ->
  (forall lines, approx (split_block_quote lim lines) (split_block_quote lim' lines))
  /\ (forall lines, approx (bq_ends_with_paragraph lim lines) (bq_ends_with_paragraph lim' lines)).
Proof.
  revert lim'. induction lim as [|lim IH]; intros lim' L; [split; intros; apply approx_rec|].
  destruct lim' as [|lim']; [lia|]. destruct (IH lim') as [I1 I2]; [lia|]. split; intros lines.
  - cbn [split_block_quote]. apply approx_bq_loop; assumption.
  - cbn [bq_ends_with_paragraph]. apply approx_bind.
    + apply approx_redirect. apply approx_parse_loop. exact I1.
    + intros secs. destruct (rev secs) as [|[ty c] r]; [same|].
      destruct ty; try same. apply I2.
Qed.

Lemma approx_parse lim lim' lines : lim <= lim' ->
  approx (parse_markdown lim lines) (parse_markdown lim' lines).
Proof. intros L. apply approx_parse_loop. apply approx_block_quote. exact L. Qed.

Section Nested.
  Variables nested nested' : list str -> width -> res str.
  Hypothesis H : forall lines w, approx (nested lines w) (nested' lines w).

  Lemma approx_format_entry p i w e :
    approx (format_entry nested p i w e) (format_entry nested' p i w e).
  Proof.
    unfold format_entry. apply approx_bind; [|intros t; same].
    apply approx_redirect, approx_redirect, H.
  Qed.

  Lemma approx_reformatted ty i lines w :
    approx (reformatted nested ty i lines w) (reformatted nested' ty i lines w).
  Proof.
    destruct ty; cbn [reformatted]; try same.
    - unfold fmt_block_quote. apply approx_bind; [same|]. intros l0.
      apply approx_bind; [apply approx_redirect, H|]. intros t. same.
    - unfold fmt_bullet_list. do 4 (apply approx_bind; [same|]; intros ?).
      apply approx_bind; [|intros t; same]. apply approx_mapM. intros e. apply approx_format_entry.
    - unfold fmt_ordered_list. do 4 (apply approx_bind; [same|]; intros ?).
      apply approx_bind; [|intros t; same]. apply approx_mapM. intros [n e]. apply approx_format_entry.
  Qed.
End Nested.

Lemma approx_pass lim lim' text w : lim <= lim' ->
  approx (reformat_pass lim text w) (reformat_pass lim' text w).
Proof.
  revert lim' text w. induction lim as [|lim IH]; intros lim' text w L; [apply approx_rec|].
  destruct lim' as [|lim']; [lia|]. cbn [reformat_pass].
  apply approx_bind; [apply approx_parse; lia|]. intros secs.
  apply approx_bind; [same|]. intros fs.
  apply approx_bind; [|intros outs; same]. apply approx_pep479. apply approx_mapM.
  intros [[ty i] ls]. apply approx_reformatted. intros ls' w'. apply IH. lia.
Qed.

Lemma approx_reformat lim lim' text w : lim <= lim' ->
  approx (reformat_markdown_text lim text w) (reformat_markdown_text lim' text w).
Proof.
  intros L. unfold reformat_markdown_text. apply approx_bind; [apply approx_pass; exact L|]. intros t.
  apply approx_bind; [apply approx_pass; exact L|]. intros t'. same.
Qed.

(** * Enough is enough *)

Lemma nd_ok {A} (a : A) : not_too_deep (Ok a).
Proof. intros e H. discriminate. Qed.

Lemma nd_bind {A B} (x : res A) (f : A -> res B) :
  not_too_deep x -> (forall a, x = Ok a -> not_too_deep (f a)) -> not_too_deep (bind x f).
Proof.
  intros H F e E. apply bind_err in E. destruct E as [E|(a & Ea & E)]; [exact (H e E)|].
  exact (F a Ea e E).
Qed.

Lemma nd_redirect {A} (x : res A) : not_too_deep x -> not_too_deep (with_redirect x).
Proof. intros H e E. destruct x as [a|e']; [discriminate|]. injection E as <-. exact (H e' eq_refl). Qed.

Lemma nd_mapM {A B} (f : A -> res B) l :
  (forall a, In a l -> not_too_deep (f a)) -> not_too_deep (mapM f l).
Proof.
  intros H. induction l as [|a l IH]; [apply nd_ok|]. cbn [mapM].
  apply nd_bind; [apply H; left; reflexivity|]. intros b _.
  apply nd_bind; [apply IH; intros x Hx; apply H; right; exact Hx|]. intros bs _. apply nd_ok.
Qed.

Lemma nd_pep479 {A} (x : res A) : not_too_deep x -> not_too_deep (pep479 x).
Proof.
  intros H e E. destruct x as [a|e']; [discriminate|]. unfold pep479 in E. injection E as <-.
  specialize (H e' eq_refl). induction e'; try discriminate; [exact H|]. exact (IHe' H).
Qed.

(** Everything else than the recursion itself. *)
Ltac nd_leaf :=
  repeat first
    [ match goal with |- not_too_deep (Ok _) => apply nd_ok end
    | match goal with |- not_too_deep (Err _) =>
        let e := fresh in let E := fresh in intros e E; injection E as <-; discriminate end
    | match goal with |- not_too_deep (bind _ _) => apply nd_bind; [|intros ? _] end
    | match goal with
      | |- not_too_deep (match ?x with _ => _ end) => destruct x
      | |- not_too_deep (if ?x then _ else _) => destruct x
      end ].

Lemma nd_one_line p lines : not_too_deep (split_one_line p lines).
Proof. unfold split_one_line. nd_leaf. Qed.
Lemma nd_list_section start lines : not_too_deep (split_list_section start lines).
Proof. unfold split_list_section. nd_leaf. Qed.
Lemma nd_table lines : not_too_deep (split_table lines).
Proof. unfold split_table. nd_leaf. Qed.
Lemma nd_fenced lines : not_too_deep (split_fenced_code_block lines).
Proof. unfold split_fenced_code_block. nd_leaf. Qed.
Lemma nd_indented lines : not_too_deep (split_indented_code_block lines).
Proof. unfold split_indented_code_block. nd_leaf. Qed.
Lemma nd_lrd lines : not_too_deep (split_link_reference_definition lines).
Proof. unfold split_link_reference_definition. nd_leaf. Qed.

Ltac nd_simple :=
  first [apply nd_one_line|apply nd_list_section|apply nd_table|apply nd_fenced|apply nd_indented|apply nd_lrd].

Lemma nd_any_splits fs lines :
  (forall f, In f fs -> not_too_deep (f lines)) -> not_too_deep (any_splits fs lines).
Proof.
  intros H e E. apply any_splits_err in E. destruct E as (f & Hf & E). exact (H f Hf e E).
Qed.

Section Shallow.
  (** Lists of lines on which the block quotes are not nested too deeply. *)
  Variable P : list str -> Prop.
  Hypothesis P_suffix : forall a b, P (a ++ b) -> P b.
  Variable sbq : splitter.
  Hypothesis sbq_lossless : lossless sbq.
  Hypothesis H : forall lines, P lines -> not_too_deep (sbq lines).

  Lemma P_tl l rest : P (l :: rest) -> P rest.
  Proof. apply (P_suffix [l] rest). Qed.

  Lemma nd_par_continuation lines : P lines -> not_too_deep (par_continuation sbq lines).
  Proof.
    intros Hp. unfold par_continuation. apply nd_bind; [|intros b _; nd_leaf].
    apply nd_any_splits. intros f Hf. cbn in Hf.
    repeat destruct Hf as [<-|Hf]; try nd_simple; [apply H; exact Hp|destruct Hf].
  Qed.

  Lemma nd_par_tail tail : P tail -> not_too_deep (par_tail sbq tail).
  Proof.
    induction tail as [|t rest IH]; intros Hp; [apply nd_ok|]. cbn [par_tail].
    apply nd_bind; [apply nd_par_continuation; exact Hp|]. intros b _. destruct b; [|apply nd_ok].
    destruct (endswith _ t); [nd_leaf|]. apply nd_bind; [apply IH, (P_tl t), Hp|].
    intros [m r] _. apply nd_ok.
  Qed.

  (** The first line is not passed on. *)
  Lemma nd_spis lines : P (tl lines) -> not_too_deep (split_paragraph_ignoring_setext sbq lines).
  Proof.
    intros Hp. destruct lines as [|l rest]; cbn [split_paragraph_ignoring_setext]; [nd_leaf|].
    destruct (is_paragraph_start_line l); [|apply nd_ok]. destruct (endswith _ l); [apply nd_ok|].
    apply nd_bind; [apply nd_par_tail; exact Hp|]. intros [m r] _. apply nd_ok.
  Qed.

  Lemma nd_paragraph lines : P (tl lines) -> not_too_deep (split_paragraph sbq lines).
  Proof.
    intros Hp. unfold split_paragraph. apply nd_bind; [apply nd_spis; exact Hp|].
    intros [p r] _. nd_leaf.
  Qed.

  Lemma nd_setext lines : P (tl lines) -> not_too_deep (split_setext_heading sbq lines).
  Proof.
    intros Hp. unfold split_setext_heading. apply nd_bind; [apply nd_spis; exact Hp|].
    intros [p r] _. nd_leaf.
  Qed.

  Lemma nd_bq_continuation lines : P (tl lines) -> not_too_deep (bq_continuation sbq lines).
  Proof.
    intros Hp. unfold bq_continuation. apply nd_bind; [|intros b _; nd_leaf].
    apply nd_any_splits. intros f Hf. apply in_map_iff in Hf. destruct Hf as (g & <- & Hf).
    apply nd_redirect. cbn in Hf.
    repeat destruct Hf as [<-|Hf]; try nd_simple; [apply nd_setext; exact Hp|destruct Hf].
  Qed.

  Lemma nd_bq_take first lines : P (tl lines) -> not_too_deep (bq_take_continuation sbq first lines).
  Proof.
    revert first. induction lines as [|l rest IH]; intros first Hp; [apply nd_ok|].
    cbn [bq_take_continuation]. apply nd_bind; [apply nd_bq_continuation; exact Hp|].
    intros b _. destruct b; [|apply nd_ok]. destruct (first && _ && _); [apply nd_ok|].
    apply nd_bind; [|intros [m r] _; apply nd_ok]. apply IH. destruct rest as [|x rest]; [exact Hp|].
    cbn [tl] in *. apply (P_tl x), Hp.
  Qed.

  Lemma nd_bq_loop ewp n bq lines all :
    all = bq ++ lines -> P (tl lines) ->
    (match bq with [] => True | l :: _ => is_explicit_block_quote_line l = true end) ->
    (forall l rest post, all = (l :: rest) ++ post -> is_explicit_block_quote_line l = true ->
       not_too_deep (ewp (l :: rest))) ->
    not_too_deep (bq_loop sbq ewp n bq lines).
  Proof.
    intros Ha Hp Hb He. revert bq lines Ha Hp Hb. induction n as [|n IH]; intros bq lines Ha Hp Hb.
    - cbn [bq_loop]. destruct lines as [|l rest]; nd_leaf.
    - cbn [bq_loop]. destruct lines as [|l rest]; [apply nd_ok|].
      destruct (is_explicit_block_quote_line l) eqn:El; cbn [negb]; [|apply nd_ok].
      destruct (span is_explicit_block_quote_line (l :: rest)) as [run rem] eqn:Es.
      assert (Hr : exists run', run = l :: run').
      { cbn in Es. rewrite El in Es. destruct (span is_explicit_block_quote_line rest).
        inv Es. eauto. }
      destruct Hr as (run' & ->). apply span_spec in Es. destruct Es as (Es & _ & _).
      cbn [app] in Es. injection Es as Es. cbn [tl] in Hp. rewrite Es in Hp.
      assert (Hh : exists h t, bq ++ l :: run' = h :: t /\ is_explicit_block_quote_line h = true).
      { destruct bq as [|h t]; [exists l, run'; auto|]. exists h, (t ++ l :: run'). auto. }
      destruct Hh as (h & t & Eh & Hh).
      assert (Hrem : P (tl rem)).
      { apply P_suffix in Hp. destruct rem as [|x rem]; [exact Hp|]. apply (P_tl x), Hp. }
      apply nd_bind.
      { rewrite Eh. apply (He h t rem); [|exact Hh]. rewrite <- Eh, Ha, Es, <- app_assoc. reflexivity. }
      intros b _. destruct b; [|apply nd_ok].
      apply nd_bind; [apply nd_bq_take; exact Hrem|]. intros [cont rem'] Ec.
      apply bq_take_continuation_ok in Ec. destruct Ec as [-> _]. apply IH.
      + rewrite Ha, Es, <- !app_assoc. reflexivity.
      + apply P_suffix in Hp. apply P_suffix in Hp. destruct rem' as [|x rem']; [exact Hp|].
        apply (P_tl x), Hp.
      + rewrite Eh. exact Hh.
  Qed.

  Lemma nd_first_split fs lines : Forall (fun tf => lossless (snd tf)) fs ->
    (forall ty f, In (ty, f) fs -> not_too_deep (f lines)) -> not_too_deep (first_split fs lines).
  Proof.
    intros Hl F e E. apply first_split_err in E; [|exact Hl].
    destruct E as [(ty & f & Hin & E)|[-> _]]; [exact (F ty f Hin e E)|discriminate].
  Qed.

  Lemma nd_parse_loop n lines : P lines -> not_too_deep (parse_loop sbq n lines).
  Proof.
    revert lines. induction n as [|n IH]; intros [|l rest] Hp; cbn [parse_loop]; try (nd_leaf; fail).
    apply nd_bind.
    - apply nd_first_split; [apply lossless_SPLITTERS; exact sbq_lossless|].
      intros ty f Hin. cbn in Hin.
      repeat destruct Hin as [E|Hin]; try (injection E as <- <-); try nd_simple.
      + apply H. exact Hp.
      + apply nd_paragraph, (P_tl l), Hp.
      + apply nd_setext, (P_tl l), Hp.
      + destruct Hin.
    - intros [[ty c] rem] E. apply (first_split_ok _ _ _ _ _ (lossless_SPLITTERS _ sbq_lossless)) in E.
      destruct E as (before & f & after & Heq & Hf & _).
      assert (Hl := lossless_SPLITTERS _ sbq_lossless). rewrite Heq in Hl. apply Forall_app in Hl.
      destruct Hl as [_ Hl]. inv Hl. cbn [snd] in *.
      match goal with G : lossless f |- _ => apply G in Hf end. rewrite Hf in Hp.
      apply nd_bind; [apply IH; eapply P_suffix; exact Hp|]. intros secs _. apply nd_ok.
  Qed.
End Shallow.

(** ** Block quotes *)

Lemma size_app a b : size (a ++ b) = size a + size b.
Proof. induction a as [|l a IH]; cbn [app size]; lia. Qed.

Lemma quotable_suffix a b : quotable (a ++ b) ->
  Forall (fun c => is_space c = true \/ c = c_gt) a -> quotable b.
Proof.
  intros H Ha x y -> Hx. specialize (H (a ++ x) y). rewrite <- app_assoc in H.
  specialize (H eq_refl). rewrite !Forall_app in H. apply H. auto.
Qed.

Lemma unmarked_quotable l l' : quotable l -> unmarked l l' -> quotable l' /\ length l' <= length l.
Proof.
  intros H [(n & Hn & ->)|[-> _]]; [|auto]. rewrite app_length. cbn [length]. split; [|lia].
  change (c_gt :: l') with ([c_gt] ++ l') in H. rewrite app_assoc in H.
  eapply quotable_suffix; [exact H|]. apply Forall_app. split; [|repeat constructor; right; reflexivity].
  apply Forall_forall. intros c Hc. apply repeat_spec in Hc. subst c. left. reflexivity.
Qed.

(** After plain spaces the marker is removed. *)
Lemma unmarked_shorter l l' : (forall a b, l = a ++ c_gt :: b -> spaces a -> Forall (fun c => c = c_sp) a) ->
  quote_line l -> unmarked l l' -> length l' < length l.
Proof.
  intros Hp (ws & body & -> & Hw & Hl) [(n & Hn & E)|[-> Hno]].
  - rewrite E, app_length. cbn. lia.
  - exfalso. apply (Hno (length ws) body); [lia|]. f_equal.
    apply Forall_eq_repeat. specialize (Hp ws body eq_refl Hw).
    eapply Forall_impl; [|exact Hp]. intros c ->. reflexivity.
Qed.

Lemma quotable_plain l : quotable l ->
  forall a b, l = a ++ c_gt :: b -> spaces a -> Forall (fun c => c = c_sp) a.
Proof.
  intros H a b E Ha. assert (G : Forall (fun c => is_space c = true \/ c = c_gt) a).
  { eapply Forall_impl; [|exact Ha]. cbn. auto. }
  specialize (H a b E G). unfold spaces in Ha. rewrite Forall_forall in *. intros c Hc. apply H; auto.
Qed.

Lemma strip_size ls : Forall quotable ls ->
  Forall quotable (map strip_quote_marker ls) /\ size (map strip_quote_marker ls) <= size ls.
Proof.
  intros H. induction H as [|l ls Hl H [IH1 IH2]]; [split; [constructor|apply le_n]|]. cbn [map size].
  destruct (unmarked_quotable l _ Hl (strip_quote_marker_spec l)). split; [constructor; assumption|lia].
Qed.

Definition shallow (k : nat) (lines : list str) : Prop := Forall quotable lines /\ size lines <= k.

Lemma shallow_suffix k a b : shallow k (a ++ b) -> shallow k b.
Proof. intros [H L]. apply Forall_app in H. rewrite size_app in L. split; [tauto|lia]. Qed.

Lemma shallow_prefix k a b : shallow k (a ++ b) -> shallow k a.
Proof. intros [H L]. apply Forall_app in H. rewrite size_app in L. split; [tauto|lia]. Qed.

Lemma nd_block_quote lim :
  (forall k lines, shallow k lines -> 2 * k + 2 <= lim -> not_too_deep (split_block_quote lim lines))
  /\ (forall k l rest, shallow k (l :: rest) -> 2 * k + 1 <= lim -> quote_line l ->
        not_too_deep (bq_ends_with_paragraph lim (l :: rest))).
Proof.
  induction lim as [|lim [IH1 IH2]]; [split; intros; lia|]. split.
  - intros k lines Hs Hk. cbn [split_block_quote]. destruct lines as [|x lines]; [apply nd_ok|].
    destruct k as [|k]; [destruct Hs as [_ Hs]; cbn in Hs; lia|].
    assert (Ht : shallow k lines).
    { destruct Hs as [Hs Hz]. inversion Hs; subst. split; [assumption|]. cbn in Hz. lia. }
    apply (nd_bq_loop (shallow k) (shallow_suffix k)) with (all := x :: lines); auto.
    + intros ls Hls. apply (IH1 k); [exact Hls|lia].
    + intros l rest post E Hl. apply quote_spec in Hl. apply (IH2 (S k)); [|lia|exact Hl].
      rewrite E in Hs. eapply shallow_prefix. exact Hs.
  - intros k l rest Hs Hk Hq. cbn [bq_ends_with_paragraph]. cbv zeta.
    destruct k as [|k]; [destruct Hs as [_ Hs]; cbn in Hs; lia|].
    assert (G : shallow k (map strip_quote_marker (l :: rest))).
    { destruct Hs as [Hs Hz]. destruct (strip_size _ Hs) as [G _]. split; [exact G|].
      inversion Hs as [|? ? Hl Hr]; subst. destruct (strip_size _ Hr) as [_ Hz'].
      assert (L := unmarked_shorter _ _ (quotable_plain _ Hl) Hq (strip_quote_marker_spec l)).
      cbn [map size] in *. lia. }
    apply nd_bind.
    + apply nd_redirect. unfold parse_with. apply (nd_parse_loop (shallow k) (shallow_suffix k)); auto.
      * apply block_quote_contract.
      * intros ls Hls. apply (IH1 k); [exact Hls|lia].
    + intros secs E. rewrite with_redirect_ok in E. fold (parse_markdown lim (map strip_quote_marker (l :: rest))) in E.
      destruct (rev secs) as [|[ty content] secs'] eqn:Er; [nd_leaf|].
      destruct ty; try apply nd_ok.
      assert (Hin : In (BLOCK_QUOTE, content) secs).
      { apply (proj2 (in_rev secs _)). rewrite Er. left. reflexivity. }
      assert (Hsh := C10_section_shapes _ _ _ _ _ E Hin). destruct Hsh as (l' & rest' & -> & Hq' & _).
      apply (IH2 k); [|lia|exact Hq'].
      apply parse_markdown_lossless in E. destruct E as [E _]. rewrite <- E in G.
      apply in_split in Hin. destruct Hin as (s1 & s2 & ->).
      rewrite map_app, concat_app in G. apply shallow_suffix in G. cbn [map concat snd] in G.
      apply shallow_prefix in G. exact G.
Qed.

Lemma nd_parse lim lines : Forall quotable lines -> 2 * size lines + 2 <= lim ->
  not_too_deep (parse_markdown lim lines).
Proof.
  intros H L. unfold parse_markdown, parse_with.
  apply (nd_parse_loop (shallow (size lines)) (shallow_suffix _)).
  - apply block_quote_contract.
  - intros ls Hls. apply (proj1 (nd_block_quote lim) (size lines)); assumption.
  - split; [exact H|apply le_n].
Qed.

(** ** Formatting *)

Lemma nd_err {A B} e : not_too_deep (@Err A e) -> not_too_deep (@Err B e).
Proof. intros H e' E. injection E as <-. exact (H e eq_refl). Qed.

Lemma nd_wrap text w : not_too_deep (wrap text w).
Proof. intros e E. apply wrap_err in E. destruct E as [_ ->]. discriminate. Qed.

Lemma nd_first_char s : not_too_deep (first_char s).
Proof. unfold first_char. nd_leaf. Qed.

Lemma nd_nth_line lines i : not_too_deep (nth_line lines i).
Proof. unfold nth_line. nd_leaf. Qed.

Lemma nd_max_list l : not_too_deep (max_list l).
Proof. unfold max_list. nd_leaf. Qed.

Lemma nd_lrd_parts lines : not_too_deep (lrd_parts lines).
Proof. unfold lrd_parts. nd_leaf. Qed.

Lemma nd_first_number l : not_too_deep (first_number l).
Proof. unfold first_number. nd_leaf. Qed.

Lemma nd_check_columns a b c d : not_too_deep (check_columns a b c d).
Proof.
  revert c. induction d as [|x d IH]; intros c; cbn [check_columns]; [apply nd_ok|].
  destruct (length x =? b); [apply IH|nd_leaf].
Qed.

Ltac nd_all :=
  repeat (nd_leaf;
    match goal with
    | |- not_too_deep (wrap _ _) => apply nd_wrap
    | |- not_too_deep (first_char _) => apply nd_first_char
    | |- not_too_deep (nth_line _ _) => apply nd_nth_line
    | |- not_too_deep (max_list _) => apply nd_max_list
    | |- not_too_deep (lrd_parts _) => apply nd_lrd_parts
    | |- not_too_deep (first_number _) => apply nd_first_number
    | |- not_too_deep (check_columns _ _ _ _) => apply nd_check_columns
    | |- _ => idtac
    end).

Lemma nd_repr ty lines : not_too_deep (repr_check ty lines).
Proof. unfold repr_check. nd_all. Qed.

Lemma nd_formatters i last secs : not_too_deep (build_formatters i last secs).
Proof.
  revert i last. induction secs as [|[ty c] secs IH]; intros i last; [apply nd_ok|].
  cbn [build_formatters]. apply nd_bind; [apply nd_repr|]. intros u _.
  apply nd_bind; [apply IH|]. intros fs _. apply nd_ok.
Qed.

Lemma in_formatters i last secs fs ty j c : build_formatters i last secs = Ok fs ->
  In (ty, j, c) fs -> ty = BLANK_LINE \/ In (ty, c) secs.
Proof.
  revert i last fs. induction secs as [|[ty' c'] secs IH]; intros i last fs E Hin.
  - inv E. destruct Hin.
  - cbn [build_formatters] in E. bind_inv E. bind_inv E. apply ok_inj in E. subst fs.
    apply in_app_or in Hin. destruct Hin as [Hin|[Hin|Hin]].
    + left. destruct ty'; try destruct Hin. destruct last as [[]|]; cbn in Hin; intuition congruence.
    + right. left. congruence.
    + destruct (IH _ _ _ E1 Hin) as [G|G]; [left; exact G|right; right; exact G].
Qed.

Lemma nd_split_list lines : not_too_deep (split_list lines).
Proof.
  unfold split_list, list_marker_end_pos. destruct lines as [|l rest]; [nd_leaf|].
  apply nd_bind; [nd_leaf|]. intros max _. apply nd_bind; [|intros st _; apply nd_ok].
  generalize (SL false [] max []) as st. generalize (l :: rest) as ls.
  induction ls as [|x ls IH]; intros st; [apply nd_ok|]. cbn [foldM].
  apply nd_bind; [|intros st' _; apply IH]. unfold split_list_step.
  assert (A : forall es, not_too_deep (append_to_last es x)).
  { induction es as [|e es IHe]; cbn [append_to_last]; [nd_leaf|]. destruct es; [apply nd_ok|].
    apply nd_bind; [exact IHe|]. intros es' _. apply nd_ok. }
  destruct (if is_list_fence x then _ else _) as [c ce].
  destruct (marker_end x); [destruct (negb c && _)|]; try apply nd_ok;
    (apply nd_bind; [apply A|intros; apply nd_ok]).
Qed.

Lemma nd_dedent entries : not_too_deep (dedent_entries entries).
Proof.
  apply nd_mapM. intros e _. unfold dedent_entry, list_marker_end_pos. nd_leaf.
Qed.

(** A line without some of its beginning, or with more markers. *)
Definition derived (l l' : str) : Prop :=
  (exists p, l = p ++ l') \/ (exists d, l' = repeat c_gt d ++ l).

Definition good (l : str) : Prop := one_line l /\ plain_indent l.

Lemma derived_good l l' : derived l l' -> good l -> good l'.
Proof.
  intros [(p & ->)|(d & ->)] [H1 H2]; split.
  - apply Forall_app in H1. tauto.
  - intros a ws b ->. specialize (H2 (p ++ a) ws b). rewrite <- app_assoc in H2. exact (H2 eq_refl).
  - apply Forall_app. split; [|exact H1]. apply Forall_forall. intros c Hc. apply repeat_spec in Hc.
    subst c. reflexivity.
  - intros a ws b E Hw. apply app_eq_app in E. destruct E as (x & [[E E']|[-> ->]]).
    + destruct x as [|c x].
      { cbn [app] in E'. apply (H2 [] ws b); [symmetry; exact E'|exact Hw]. }
      destruct ws as [|y ws]; [constructor|]. exfalso. injection E' as Ec _. subst y.
      inversion Hw as [|? ? Hc _]; subst.
      assert (G : In c (repeat c_gt d)) by (rewrite E; apply in_or_app; right; left; reflexivity).
      apply repeat_spec in G. subst c. discriminate.
    + exact (H2 x ws b eq_refl Hw).
Qed.

Lemma good_quotable l : good l -> quotable l.
Proof.
  intros [_ H] a b E Ha. subst l.
  assert (G : forall u v, a = u ++ v -> Forall (fun c => is_space c = true -> c = c_sp) u).
  { intros u. induction u as [|c u IH] using rev_ind; intros v Ev; [constructor|].
    rewrite <- app_assoc in Ev. apply Forall_app. split; [exact (IH _ Ev)|].
    constructor; [|constructor]. intros Hc.
    assert (T : exists ws b', c :: v ++ c_gt :: b = ws ++ c_gt :: b' /\ spaces ws /\ In c ws).
    { assert (Hv : Forall (fun c => is_space c = true \/ c = c_gt) v).
      { rewrite Ev in Ha. apply Forall_app in Ha. destruct Ha as [_ Ha]. inversion Ha; assumption. }
      clear -Hc Hv. assert (T : exists ws b', v ++ c_gt :: b = ws ++ c_gt :: b' /\ spaces ws).
      { induction Hv as [|d v Hd Hv IH]; [exists [], b; split; [reflexivity|constructor]|].
        destruct Hd as [Hd| ->]; [|exists [], (v ++ c_gt :: b); split; [reflexivity|constructor]].
        destruct IH as (ws & b' & T & Hw). exists (d :: ws), b'. split; [cbn [app]; rewrite T; reflexivity|].
        constructor; assumption. }
      destruct T as (ws & b' & T & Hw). exists (c :: ws), b'. split; [rewrite T; reflexivity|].
      split; [constructor; assumption|left; reflexivity]. }
    destruct T as (ws & b' & T & Hw & Hin).
    assert (P := H u ws b'). rewrite <- T in P. rewrite Ev in P. rewrite <- app_assoc in P.
    specialize (P eq_refl Hw). rewrite Forall_forall in P. auto. }
  apply (G a []). rewrite app_nil_r. reflexivity.
Qed.

Lemma derived_all ls ls' : Forall2 derived ls ls' -> Forall good ls -> Forall good ls'.
Proof.
  intros H. induction H as [|l l' ls ls' Hl H IH]; intros G; [constructor|]. inversion G; subst.
  constructor; [eapply derived_good; eassumption|auto].
Qed.

Lemma unmarked_derived l l' : unmarked l l' -> derived l l'.
Proof.
  intros [(n & _ & ->)|[-> _]]; left.
  - exists (repeat c_sp n ++ [c_gt]). rewrite <- app_assoc. reflexivity.
  - exists []. reflexivity.
Qed.

Lemma unquoted_derived d ls ls' : unquoted d ls ls' -> Forall2 derived ls ls'.
Proof.
  intros H. induction H as [|d l l' d' ls ls' Hq Hd Hu H IH|d l ls ls' Hq H IH]; constructor; auto.
  - apply unmarked_derived. exact Hu.
  - right. eauto.
Qed.

(** The order in which the nested texts get smaller. *)
Definition smaller (a b : list str) : Prop :=
  length a < length b \/ (length a = length b /\ length (hd [] a) < length (hd [] b)).

Lemma infix_smaller inner (entry lines a b : list str) : lines = a ++ entry ++ b ->
  length inner = length entry -> length (hd [] inner) < length (hd [] entry) -> smaller inner lines.
Proof.
  intros -> L Hh. unfold smaller. rewrite !app_length.
  destruct a as [|x a]; [destruct b as [|y b]|]; cbn [length]; [right|left; lia|left; lia].
  rewrite app_nil_r. cbn [app]. split; [lia|exact Hh].
Qed.

Definition quote_inner (lines : list str) : list str :=
  let stripped := map strip_quote_marker (fully_quote 0 lines) in
  if quote_has_space stripped
  then map (fun line => match line with
                        | c :: line' => if N.eqb c c_sp then line' else line
                        | [] => line
                        end) stripped
  else stripped.

Lemma quote_inner_smaller content lines a b : section_shape BLOCK_QUOTE content ->
  Forall good content -> lines = a ++ content ++ b ->
  Forall good (quote_inner content) /\ smaller (quote_inner content) lines /\ quote_inner content <> [].
Proof.
  intros (l & rest & -> & Hq & _) Hg El.
  assert (U : unquoted 0 (l :: rest) (map strip_quote_marker (fully_quote 0 (l :: rest)))).
  { apply unquoted_spec. left. exact Hq. }
  assert (Hl : is_explicit_block_quote_line l = true) by (apply quote_spec; exact Hq).
  unfold quote_inner. revert U. cbn [fully_quote]. rewrite Hl. cbv zeta. cbn [map].
  set (d := _ - _). set (more := map strip_quote_marker (fully_quote d rest)). intros U.
  assert (D := unquoted_derived _ _ _ U). inversion D as [|? ? ? ? _ D']; subst.
  assert (G := derived_all _ _ D Hg).
  assert (S1 : length (strip_quote_marker l) < length l).
  { inversion Hg as [|? ? [_ Hp] _]; subst.
    eapply unmarked_shorter; [|exact Hq|apply strip_quote_marker_spec].
    intros x y E Hx. exact (Hp [] x y E Hx). }
  assert (L : length more = length rest).
  { clear -D'. induction D'; cbn; congruence. }
  destruct (quote_has_space (strip_quote_marker l :: more)).
  - set (f := fun line : str => _).
    assert (F : forall x, exists p, x = p ++ f x).
    { intros x. unfold f. destruct x as [|c x]; [exists []; reflexivity|].
      destruct (N.eqb c c_sp); [exists [c]; reflexivity|exists []; reflexivity]. }
    split; [|split; [|discriminate]].
    + assert (M : forall ls, Forall2 derived ls (map f ls)).
      { clear -F. induction ls as [|x ls IH]; [constructor|]. cbn [map]. constructor; [|exact IH].
        left. apply F. }
      exact (derived_all _ _ (M _) G).
    + eapply infix_smaller; [reflexivity| |]; cbn [map length hd]; [rewrite map_length, L; reflexivity|].
      change (length (f (strip_quote_marker l)) < length l).
      destruct (F (strip_quote_marker l)) as (p & Ep). apply (f_equal (@length _)) in Ep.
      rewrite app_length in Ep. lia.
  - split; [exact G|]. split; [|discriminate].
    eapply infix_smaller; [reflexivity| |]; cbn [map length hd]; [rewrite L; reflexivity|exact S1].
Qed.

Lemma dedented_smaller entry inner lines a b : dedented entry inner -> Forall good entry ->
  lines = a ++ entry ++ b -> Forall good inner /\ smaller inner lines /\ inner <> [].
Proof.
  intros (l & rest & ws & m & body & rest' & -> & (-> & Hw & Hm & Hb) & -> & F) Hg E.
  assert (T : exists p, body = p ++ tl body).
  { destruct body as [|c body]; [exists []; reflexivity|exists [c]; reflexivity]. }
  destruct T as (p & T). split; [|split; [|discriminate]].
  - eapply derived_all; [|exact Hg]. constructor.
    + left. exists (ws ++ m ++ p). rewrite T at 1. rewrite <- !app_assoc. reflexivity.
    + clear -F. induction F as [|x y xs ys (w & -> & _) F IH]; constructor; auto. left. exists w. reflexivity.
  - eapply infix_smaller; [exact E| |]; cbn [length hd].
    + f_equal. clear -F. induction F; cbn; congruence.
    + destruct (marker_head m Hm) as (c & m' & -> & _). rewrite !app_length. cbn [length].
      apply (f_equal (@length _)) in T. rewrite app_length in T. lia.
Qed.

Lemma approx_nd {A} (r r' : res A) : approx r r' -> not_too_deep r -> r' = r.
Proof. intros [->|(e & -> & He)] H; [reflexivity|]. destruct (H e eq_refl He). Qed.

(** One limit for finitely many. *)
Lemma uniform {A} (Q : nat -> A -> Prop) l :
  (forall n m a, n <= m -> Q n a -> Q m a) -> (forall a, In a l -> exists n, Q n a) ->
  exists n, forall a, In a l -> Q n a.
Proof.
  intros M H. induction l as [|a l IH]; [exists 0; intros a []|].
  destruct IH as (n & Hn); [intros x Hx; apply H; right; exact Hx|].
  destruct (H a (or_introl eq_refl)) as (m & Hm). exists (n + m). intros x [<-|Hx].
  - eapply M; [|exact Hm]. lia.
  - eapply M; [|exact (Hn x Hx)]. lia.
Qed.

Notation nested_pass lim := (fun lines w => reformat_pass lim (str_join [c_nl] lines ++ [c_nl]) w).

Definition deep_enough (n : nat) (lines : list str) : Prop :=
  forall text w, splitlines text = lines -> not_too_deep (reformat_pass n text w).

Lemma deep_enough_le n m lines : n <= m -> deep_enough n lines -> deep_enough m lines.
Proof.
  intros L H text w E. rewrite (approx_nd _ _ (approx_pass n m text w L) (H text w E)).
  apply H. exact E.
Qed.

Lemma nested_ok n inner w : deep_enough n inner -> Forall good inner -> inner <> [] ->
  not_too_deep (nested_pass n inner w).
Proof.
  intros H Hg Hn. apply H. apply splitlines_join; [exact Hn|].
  eapply Forall_impl; [|exact Hg]. intros l [Hl _]. exact Hl.
Qed.

Lemma Forall_infix {A} (P : A -> Prop) a b c : Forall P (a ++ b ++ c) -> Forall P b.
Proof. intros H. apply Forall_app in H. destruct H as [_ H]. apply Forall_app in H. tauto. Qed.

Lemma nd_section lines ty content a b :
  Forall good lines -> (forall ls, Forall good ls -> smaller ls lines -> exists n, deep_enough n ls) ->
  ty = BLANK_LINE \/ (section_shape ty content /\ lines = a ++ content ++ b) ->
  exists n, forall i w, not_too_deep (reformatted (nested_pass n) ty i content w).
Proof.
  intros Hg IH H.
  assert (Lists : list_type ty -> exists n, forall w i, not_too_deep (reformatted (nested_pass n) ty i content w)).
  { intros Hty. destruct H as [->|[Hs E]]; [destruct Hty; discriminate|].
    assert (Hc : Forall good content) by (rewrite E in Hg; eapply Forall_infix; exact Hg).
    destruct (split_list content) as [entries|e] eqn:Es.
    2:{ exists 0. intros w i. assert (N := nd_split_list content). rewrite Es in N.
        destruct Hty as [->| ->]; cbn [reformatted]; unfold fmt_bullet_list, fmt_ordered_list;
          rewrite Es; exact (nd_err _ N). }
    destruct (dedent_entries entries) as [inners|e] eqn:Ed.
    2:{ exists 0. intros w i. assert (N := nd_dedent entries). rewrite Ed in N.
        destruct Hty as [->| ->]; cbn [reformatted]; unfold fmt_bullet_list, fmt_ordered_list;
          rewrite Es; cbn [bind]; rewrite Ed; [exact (nd_err _ N)|].
        apply nd_bind; [apply nd_nth_line|]. intros l0 _.
        apply nd_bind; [apply nd_first_number|]. intros k _. exact (nd_err _ N). }
    assert (Hn : Forall no_nl content).
    { eapply Forall_impl; [|exact Hc]. intros l [Hl _]. apply one_line_nl. exact Hl. }
    destruct (split_list_ok _ _ Hn Es) as [[Hcat _] _].
    assert (D : Forall2 dedented entries inners).
    { apply dedent_entries_spec; [|exact Ed]. rewrite <- Hcat in Hn. apply Forall_concat. exact Hn. }
    assert (Inner : forall inner, In inner inners -> Forall good inner /\ smaller inner lines /\ inner <> []).
    { intros inner Hin. assert (G : exists entry, In entry entries /\ dedented entry inner).
      { clear -D Hin. induction D as [|x y xs ys Hxy D IH]; [destruct Hin|]. destruct Hin as [<-|Hin].
        - exists x. split; [left; reflexivity|exact Hxy].
        - destruct (IH Hin) as (z & Hz & Hz'). exists z. split; [right; exact Hz|exact Hz']. }
      destruct G as (entry & He & Hd). apply in_split in He. destruct He as (e1 & e2 & ->).
      rewrite concat_app in Hcat. cbn [concat] in Hcat.
      apply (dedented_smaller entry inner lines (a ++ concat e1) (concat e2 ++ b)); [exact Hd| |].
      - rewrite <- Hcat in Hc. eapply Forall_infix. exact Hc.
      - rewrite E, <- Hcat. rewrite <- !app_assoc. reflexivity. }
    destruct (uniform deep_enough inners deep_enough_le) as (n & Hd).
    { intros inner Hin. destruct (Inner inner Hin) as (G1 & G2 & _). apply IH; assumption. }
    exists n. intros w i.
    assert (Fe : forall p k inner, In inner inners -> not_too_deep (format_entry (nested_pass n) p k w inner)).
    { intros p k inner Hin. destruct (Inner inner Hin) as (G1 & _ & G3). unfold format_entry.
      apply nd_bind; [|intros t _; apply nd_ok]. apply nd_redirect, nd_redirect.
      apply (nested_ok n inner); auto. }
    destruct Hty as [->| ->]; cbn [reformatted]; unfold fmt_bullet_list, fmt_ordered_list;
      rewrite Es; cbn [bind].
    - rewrite Ed. cbn [bind]. apply nd_bind; [apply nd_nth_line|]. intros l0 _.
      apply nd_bind; [apply nd_first_char|]. intros mk _.
      apply nd_bind; [|intros t _; apply nd_ok]. apply nd_mapM. intros inner Hin. apply Fe. exact Hin.
    - apply nd_bind; [apply nd_nth_line|]. intros l0 _.
      apply nd_bind; [apply nd_first_number|]. intros k _. cbv zeta. rewrite Ed. cbn [bind].
      apply nd_bind; [|intros t _; apply nd_ok]. apply nd_mapM. intros [j inner] Hin. apply Fe.
      rewrite enumerate_combine in Hin. eapply in_combine_r. exact Hin. }
  destruct ty; try (exists 0; intros i w; cbn [reformatted]; unfold fmt_atx_heading, fmt_blank_line,
    fmt_fenced_code_block, fmt_indented_code_block, fmt_link_reference_definition, fmt_paragraph,
    fmt_setext_heading, fmt_table, fmt_thematic_break; nd_all; fail).
  - destruct H as [H|[Hs E]]; [discriminate|].
    assert (Hc : Forall good content) by (rewrite E in Hg; eapply Forall_infix; exact Hg).
    destruct (quote_inner_smaller _ _ _ _ Hs Hc E) as (G1 & G2 & G3).
    destruct (IH _ G1 G2) as (n & Hn). exists n. intros i w. cbn [reformatted]. unfold fmt_block_quote.
    apply nd_bind; [apply nd_nth_line|]. intros l0 _. cbv zeta.
    apply nd_bind; [|intros t _; apply nd_ok]. apply nd_redirect.
    apply (nested_ok n (quote_inner content)); assumption.
  - destruct Lists as (n & Hn); [left; reflexivity|]. exists n. auto.
  - destruct Lists as (n & Hn); [right; reflexivity|]. exists n. auto.
Qed.

Lemma nd_pass_step lines : Forall good lines ->
  (forall ls, Forall good ls -> smaller ls lines -> exists n, deep_enough n ls) ->
  exists n, deep_enough n lines.
Proof.
  intros Hg IH. set (N0 := 2 * size lines + 2).
  assert (Hp : not_too_deep (parse_markdown N0 lines)).
  { apply nd_parse; [|apply le_n]. eapply Forall_impl; [|exact Hg]. apply good_quotable. }
  destruct (parse_markdown N0 lines) as [secs|e] eqn:Ep.
  2:{ exists (S N0). intros text w <-. cbn [reformat_pass]. rewrite Ep. exact (nd_err _ Hp). }
  destruct (build_formatters 0 None secs) as [fs|e] eqn:Ef.
  2:{ exists (S N0). intros text w <-. cbn [reformat_pass]. rewrite Ep. cbn [bind]. rewrite Ef.
      cbn [bind]. assert (N := nd_formatters 0 None secs). rewrite Ef in N. exact (nd_err _ N). }
  destruct (uniform (fun n (f : formatter) => let '(ty, i, ls) := f in
      forall w, not_too_deep (reformatted (nested_pass n) ty i ls w)) fs) as (n & Hn).
  - intros n m [[ty i] ls] L H w.
    rewrite (approx_nd (reformatted (nested_pass n) ty i ls w)); [apply H| |apply H].
    apply approx_reformatted. intros ls' w'. apply approx_pass. exact L.
  - intros [[ty i] ls] Hin. apply (in_formatters _ _ _ _ _ _ _ Ef) in Hin.
    assert (G : exists a b, ty = BLANK_LINE \/ (section_shape ty ls /\ lines = a ++ ls ++ b)).
    { destruct Hin as [->|Hin]; [exists [], []; left; reflexivity|].
      assert (Hs := C10_section_shapes _ _ _ _ _ Ep Hin). apply parse_markdown_lossless in Ep.
      destruct Ep as [Ep _]. apply in_split in Hin. destruct Hin as (s1 & s2 & ->).
      rewrite map_app, concat_app in Ep. cbn [map concat snd] in Ep. eauto. }
    destruct G as (a & b & G). destruct (nd_section lines ty ls a b Hg IH G) as (n & Hn). eauto.
  - exists (S (N0 + n)). intros text w <-. cbn [reformat_pass].
    rewrite (approx_nd _ _ (approx_parse N0 (N0 + n) (splitlines text) ltac:(lia))) by (rewrite Ep; exact Hp).
    rewrite Ep. cbn [bind]. rewrite Ef. cbn [bind].
    apply nd_bind; [|intros outs _; apply nd_ok]. apply nd_pep479, nd_mapM. intros [[ty i] ls] Hin.
    specialize (Hn _ Hin). cbn in Hn.
    rewrite (approx_nd (reformatted (nested_pass n) ty i ls w)); [apply Hn| |apply Hn].
    apply approx_reformatted. intros ls' w'. apply approx_pass. lia.
Qed.

Lemma nd_pass lines : Forall good lines -> exists n, deep_enough n lines.
Proof.
  remember (length lines) as n eqn:En. revert lines En.
  induction n as [n IHn] using lt_wf_ind. intros lines En.
  remember (length (hd [] lines)) as k eqn:Ek. revert lines En Ek.
  induction k as [k IHk] using lt_wf_ind. intros lines En Ek Hg.
  apply nd_pass_step; [exact Hg|]. intros ls Hls [L|[L1 L2]].
  - eapply IHn; [|reflexivity|exact Hls]. lia.
  - eapply IHk; [| |reflexivity|exact Hls]; lia.
Qed.
