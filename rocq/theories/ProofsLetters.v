(** Formatting keeps the letters of a text. *)
From Coq Require Import String.
From Verif Require Import Py Regex Utils TextWrap Lines Detectors Formatters Base SpecLines SpecFormat
  SpecParser SpecWrap SpecList SpecQuote SpecTable SpecDefinition SpecErrors SpecLetters
  ProofsLines ProofsParser ProofsShapes ProofsTokens ProofsPieces ProofsProse ProofsPass ProofsErrors
  PropsParser PropsLeaf PropsWrap PropsTable PropsList PropsQuote PropsDefinition
  PropsChars ProofsLimit.

(** * Letters *)

Lemma letters_app a b : letters (a ++ b) = letters a ++ letters b.
Proof. apply filter_app. Qed.

Lemma letters_of_ink s : letters (ink s) = letters s.
Proof.
  unfold letters, ink. induction s as [|c s IH]; [reflexivity|]. cbn [filter].
  destruct (not_space c) eqn:E; cbn [filter]; [rewrite IH; reflexivity|].
  unfold not_space in E. unfold letter at 2. rewrite E. exact IH.
Qed.

Lemma letters_ink a b : ink a = ink b -> letters a = letters b.
Proof. intros E. rewrite <- (letters_of_ink a), E. apply letters_of_ink. Qed.

Lemma letters_spaces ws : spaces ws -> letters ws = [].
Proof. intros H. rewrite <- letters_of_ink, ink_spaces by exact H. reflexivity. Qed.

Lemma letters_repeat c n : letter c = false -> letters (repeat c n) = [].
Proof. intros H. induction n as [|n IH]; [reflexivity|]. cbn. rewrite H. exact IH. Qed.

Lemma letters_none s : Forall (fun c => letter c = false) s -> letters s = [].
Proof. intros H. induction H as [|c s Hc H IH]; [reflexivity|]. cbn. rewrite Hc. exact IH. Qed.

Lemma letters_strip s : letters (strip s) = letters s.
Proof. apply letters_ink, ink_strip. Qed.
Lemma letters_rstrip s : letters (rstrip s) = letters s.
Proof. apply letters_ink, ink_rstrip. Qed.

Lemma letters_concat ls : letters (concat ls) = concat (map letters ls).
Proof. induction ls as [|l ls IH]; [reflexivity|]. cbn. rewrite letters_app, IH. reflexivity. Qed.

Lemma letters_join sep ls : letters sep = [] -> letters (str_join sep ls) = letters (concat ls).
Proof.
  intros H. induction ls as [|l ls IH]; [reflexivity|]. destruct ls as [|l' ls].
  - cbn. rewrite app_nil_r. reflexivity.
  - rewrite str_join_cons by discriminate. cbn [concat]. rewrite !letters_app, H, IH. cbn [concat].
    rewrite letters_app. reflexivity.
Qed.

Lemma letters_splitlines text : letters (concat (splitlines text)) = letters text.
Proof.
  apply letters_ink. rewrite <- (ink_joined text). unfold joined. symmetry. apply ink_join_strip.
Qed.

Lemma letters_trims s r : trims s r -> letters r = letters s.
Proof.
  intros ((ws & ws' & -> & H1 & H2) & _). rewrite !letters_app, (letters_spaces ws), (letters_spaces ws') by assumption.
  rewrite app_nil_r. reflexivity.
Qed.
Lemma letters_rtrims s r : rtrims s r -> letters r = letters s.
Proof.
  intros ((ws & -> & H) & _). rewrite letters_app, (letters_spaces ws), app_nil_r by exact H. reflexivity.
Qed.

Lemma letters_Forall2 (R : str -> str -> Prop) ls ls' :
  (forall a b, R a b -> letters b = letters a) -> Forall2 R ls ls' ->
  letters (concat ls') = letters (concat ls).
Proof.
  intros H F. induction F as [|a b ls ls' Hab F IH]; [reflexivity|]. cbn [concat].
  rewrite !letters_app, IH, (H a b Hab). reflexivity.
Qed.

Lemma letters_digits ds : digits ds -> letters ds = [].
Proof.
  intros [_ H]. apply letters_none. eapply Forall_impl; [|exact H]. cbn. intros c Hc.
  unfold letter. apply andb_false_iff. right. unfold is_digit in Hc.
  apply andb_true_iff in Hc. rewrite !N.leb_le in Hc.
  assert (G : In c (lit "0123456789")).
  { assert (c = 48 \/ c = 49 \/ c = 50 \/ c = 51 \/ c = 52 \/ c = 53 \/ c = 54 \/ c = 55
            \/ c = 56 \/ c = 57)%N as G by lia. cbn. intuition. }
  apply negb_false_iff, existsb_exists. exists c. split; [|apply N.eqb_refl].
  change drawn with (lit "0123456789" ++ lit ".>-=_*+"). apply in_app_iff. auto.
Qed.

(** * Sections without other texts in them *)

Lemma section_text_det lim w i ty content r r' :
  section_text lim w i ty content r -> section_text lim w i ty content r' -> r = r'.
Proof. unfold section_text. congruence. Qed.

Lemma letters_atx lim w i content r :
  section_shape ATX_HEADING content -> section_text lim w i ATX_HEADING content r ->
  letters r = letters (concat content).
Proof.
  intros (l & -> & Hl) H. apply atx_line_heading in Hl. destruct Hl as (level & text & Hl).
  assert (G := C17_atx_heading lim w i l level text Hl). cbv zeta in G. destruct G as (G & _).
  rewrite (section_text_det _ _ _ _ _ _ _ H G). cbn [concat]. rewrite app_nil_r.
  destruct Hl as (ws & body & -> & Hw & _ & _ & _ & Ht).
  rewrite !letters_app, (letters_trims _ _ Ht), (letters_spaces ws Hw). reflexivity.
Qed.

Lemma letters_blank lim w i content r :
  section_shape BLANK_LINE content -> section_text lim w i BLANK_LINE content r ->
  letters r = letters (concat content).
Proof.
  intros (l & -> & Hl) H. unfold section_text in H. cbn in H. injection H as <-. cbn [concat].
  rewrite app_nil_r, (letters_spaces l Hl). reflexivity.
Qed.

Lemma letters_map_rstrip ls : letters (concat (map rstrip ls)) = letters (concat ls).
Proof.
  rewrite !letters_concat, map_map. f_equal. apply map_ext. apply letters_rstrip.
Qed.

Lemma letters_indented lim w i content r :
  section_text lim w i INDENTED_CODE_BLOCK content r -> letters r = letters (concat content).
Proof.
  intros H. unfold section_text in H. cbn in H. injection H as <-.
  rewrite letters_join by reflexivity. apply letters_map_rstrip.
Qed.

Lemma letters_fenced lim w i content r :
  whole w FENCED_CODE_BLOCK content -> Forall one_line content ->
  section_text lim w i FENCED_CODE_BLOCK content r -> letters r = letters (concat content).
Proof.
  intros (l & body & close & fence & -> & Ho & Hc) Hl H.
  destruct (C15_fenced_code_partial lim w i l body close fence Ho Hc Hl)
    as (r' & Hr & ws & info & info' & body' & -> & Hw & Ht & Hb & (E & _ & _)).
  rewrite (section_text_det _ _ _ _ _ _ _ H Hr), E. rewrite letters_join by reflexivity.
  cbn [concat]. rewrite !concat_app. cbn [concat]. rewrite !letters_app.
  rewrite (letters_Forall2 rtrims body body' letters_rtrims Hb), (letters_trims _ _ Ht), (letters_spaces ws Hw).
  destruct Hc as (w1 & w2 & -> & H1 & H2). rewrite !letters_app, (letters_spaces w1 H1), (letters_spaces w2 H2).
  change (letters []) with (@nil char). rewrite !app_nil_r. cbn [app]. rewrite <- ?app_assoc. reflexivity.
Qed.

Lemma letters_thematic lim w i content r :
  section_shape THEMATIC_BREAK content -> section_text lim w i THEMATIC_BREAK content r ->
  letters r = letters (concat content).
Proof.
  intros (l & -> & Hl) H. cbn [concat]. rewrite app_nil_r.
  destruct Hl as (c & ws & body & -> & Hw & Hn & Hc & Hb & Hk).
  assert (Ec : letter c = false) by (destruct Hc as [<-|[<-|[<-|[]]]]; reflexivity).
  assert (Es : is_space c = false) by (destruct Hc as [<-|[<-|[<-|[]]]]; reflexivity).
  assert (Th : thematic (ws ++ c :: body) c).
  { split; [exists c, ws, body; auto 8|exists ws, body; auto]. }
  assert (E : exists n, r = repeat c n).
  { unfold section_text in H. cbn [reformatted fmt_thematic_break] in H.
    rewrite (thematic_first _ _ Th) in H. cbn [bind] in H.
    destruct w as [z| |q]; try discriminate; apply ok_inj in H; [exists (Z.to_nat z)|exists 3]; symmetry; exact H. }
  destruct E as (n & ->). rewrite (letters_repeat c n Ec).
  change (ws ++ c :: body) with (ws ++ [c] ++ body). rewrite !letters_app, (letters_spaces ws Hw).
  cbn [letters filter]. rewrite Ec. cbn [app]. symmetry. apply letters_none.
  eapply Forall_impl; [|exact Hb]. cbn. intros x [->|Hx]; [exact Ec|]. unfold letter. rewrite Hx. reflexivity.
Qed.

Lemma links_apart_strip s : links_apart s -> links_apart (strip s).
Proof.
  intros H a z close b z' close' c E Hz Hz'.
  assert (T : trims s (strip s)) by (apply trims_strip; reflexivity).
  destruct T as ((ws & ws' & Es & _ & _) & _). rewrite E in Es.
  apply (H (ws ++ a) z close b z' close' (c ++ ws')); try assumption.
  rewrite Es. rewrite <- !app_assoc. reflexivity.
Qed.

Lemma one_line_join ls : Forall one_line ls -> one_line (str_join [c_sp] (map strip ls)).
Proof.
  intros H. apply Forall_str_join; [repeat constructor|]. rewrite Forall_map.
  eapply Forall_impl; [|exact H]. intros l. apply Forall_strip.
Qed.

Lemma letters_wrap ls w out :
  Forall one_line ls -> links_apart (str_join [c_sp] (map strip ls)) ->
  wrap (str_join [c_sp] (map strip ls)) w = Ok out -> letters out = letters (concat ls).
Proof.
  intros Ho H E. apply letters_ink. rewrite <- ink_join_strip. eapply C22_partial; [|exact E].
  rewrite join_one by (apply one_line_join; exact Ho). apply links_apart_strip. exact H.
Qed.

Lemma letters_paragraph lim w i content r :
  whole w PARAGRAPH content -> Forall one_line content ->
  section_text lim w i PARAGRAPH content r -> letters r = letters (concat content).
Proof.
  intros Hl Ho H. unfold section_text in H. cbn [reformatted] in H. unfold fmt_paragraph in H.
  bind_inv H. apply letters_wrap in E; [|exact Ho|exact Hl].
  destruct (rev content); [discriminate|]. injection H as <-. destruct (endswith _ _); [|exact E].
  rewrite letters_app, E. apply app_nil_r.
Qed.

Lemma letters_setext lim w i content r :
  section_shape SETEXT_HEADING content -> whole w SETEXT_HEADING content -> Forall one_line content ->
  section_text lim w i SETEXT_HEADING content r -> letters r = letters (concat content).
Proof.
  intros (l & rest & u & -> & _ & _ & Hu) Hl Ho H. unfold section_text in H. cbn [reformatted] in H.
  unfold fmt_setext_heading in H. cbn [whole] in Hl.
  change (l :: rest ++ [u]) with ((l :: rest) ++ [u]) in *.
  rewrite removelast_last in *. destruct (length _ <? 2); [discriminate|]. rewrite last_last in H.
  apply Forall_app in Ho. destruct Ho as [Ho _].
  bind_inv H. bind_inv H. bind_inv H. injection H as <-.
  apply letters_wrap in E; [|exact Ho|exact Hl]. rewrite concat_app, !letters_app, E. f_equal. cbn [concat].
  rewrite app_nil_r. destruct Hu as (c & n & ws & ws' & -> & Hw & Hw' & _ & Hc).
  assert (Ec : letter c = false) by (destruct Hc as [<-|[<-|[]]]; reflexivity).
  rewrite !letters_app, (letters_spaces ws Hw), (letters_spaces ws' Hw'), letters_repeat by exact Ec.
  change (letters [c_nl]) with (@nil char). cbn [app].
  assert (Es : is_space c = false) by (destruct Hc as [<-|[<-|[]]]; reflexivity).
  change (repeat c (S n)) with ([c] ++ repeat c n) in E1. rewrite <- app_assoc in E1. cbn [app] in E1.
  destruct (strip_app_lead ws c (repeat c n ++ ws') Hw Es) as (s' & Es' & _).
  rewrite Es' in E1. injection E1 as <-. apply (letters_repeat c a0 Ec).
Qed.

Lemma letters_definition lim w i content r :
  section_shape LINK_REFERENCE_DEFINITION content -> whole w LINK_REFERENCE_DEFINITION content ->
  Forall one_line content ->
  section_text lim w i LINK_REFERENCE_DEFINITION content r -> letters r = letters (concat content).
Proof.
  intros Sh Hw Ho H. destruct (C36_partial lim w i content r Sh Ho H) as (label & parts & D & K).
  destruct (Hw label parts D) as [Hl Hp].
  assert (E : ink r = ink (written label parts)).
  { destruct K as [[K _]|(link & first & more & -> & L)]; [apply K; exact Hl|].
    destruct Hp as [Hp|Hp]; [cbn in Hp; lia|]. rewrite Hp in L. destruct L. }
  apply letters_ink. rewrite E. unfold written, label_text.
  destruct D as (ws & body & rest & -> & Hs & _ & _ & ->).
  cbn [concat]. rewrite <- app_assoc. rewrite ink_app, (ink_spaces ws Hs). cbn [app].
  assert (J : forall ls, ink (str_join [c_sp] ls) = ink (concat ls)).
  { clear. induction ls as [|l ls IH]; [reflexivity|]. destruct ls as [|l' ls].
    - cbn. rewrite app_nil_r. reflexivity.
    - rewrite str_join_cons by discriminate. cbn [concat]. rewrite !ink_app, IH. cbn [concat].
      rewrite ink_app. reflexivity. }
  rewrite J. cbn [concat]. rewrite ink_app. rewrite <- (ink_words (str_join [c_sp] (body :: rest))) at 1.
  assert (I : forall s, ink (ink s) = ink s).
  { clear. intros s. unfold ink. induction s as [|c s IH]; [reflexivity|]. cbn [filter].
    destruct (not_space c) eqn:E; cbn [filter]; [rewrite E, IH; reflexivity|exact IH]. }
  rewrite I, J. cbn [concat].
  change (c_lbr :: (label ++ c_rbr :: c_colon :: body) ++ concat rest)
    with ([c_lbr] ++ (label ++ [c_rbr; c_colon] ++ body) ++ concat rest).
  change (c_lbr :: label ++ [c_rbr; c_colon]) with ([c_lbr] ++ label ++ [c_rbr; c_colon]).
  rewrite !ink_app. rewrite <- !app_assoc. reflexivity.
Qed.

Lemma letters_join_bar cells : letters (str_join [c_bar] cells) = str_join [c_bar] (map letters cells).
Proof.
  induction cells as [|c cells IH]; [reflexivity|]. destruct cells as [|c' cells]; [reflexivity|].
  cbn [map] in *. rewrite !str_join_cons by discriminate. rewrite !letters_app, IH. reflexivity.
Qed.

Lemma letters_table_row cells :
  letters (table_row cells) = [c_bar] ++ str_join [c_bar] (map letters cells) ++ [c_bar].
Proof. unfold table_row. rewrite !letters_app, letters_join_bar. reflexivity. Qed.

Lemma letters_cells ws cells ws' : spaces ws -> spaces ws' ->
  letters (ws ++ [c_bar] ++ str_join [c_bar] cells ++ [c_bar] ++ ws')
  = [c_bar] ++ str_join [c_bar] (map letters cells) ++ [c_bar].
Proof.
  intros H H'. rewrite !letters_app, letters_join_bar, (letters_spaces ws H), (letters_spaces ws' H').
  reflexivity.
Qed.

Lemma letters_rep_sp n : letters (rep c_sp n) = [].
Proof. apply letters_repeat. reflexivity. Qed.

Lemma letters_aligned a w t :
  letters match a with
          | ACenter => center_align t w
          | ALeft => left_align t w
          | ARight => right_align t w
          | ANone => left_align t w
          end = letters t.
Proof.
  destruct a; unfold center_align, left_align, right_align; rewrite ?letters_app, ?letters_rep_sp, ?app_nil_r; reflexivity.
Qed.

Lemma letters_header_cell c wa : letters (header_cell (c, wa)) = letters c.
Proof.
  destruct wa as [n a]. unfold header_cell. rewrite !letters_app. cbn [app].
  transitivity (letters (strip c)); [|apply letters_strip].
  destruct a; unfold center_align, left_align, right_align; rewrite ?letters_app, ?letters_rep_sp, ?app_nil_r; reflexivity.
Qed.
Lemma letters_body_cell c wa : letters (body_cell (c, wa)) = letters c.
Proof.
  destruct wa as [n a]. unfold body_cell. rewrite !letters_app.
  transitivity (letters (strip c)); [|apply letters_strip].
  destruct a; unfold center_align, left_align, right_align; rewrite ?letters_app, ?letters_rep_sp, ?app_nil_r; reflexivity.
Qed.

Lemma map_zip_letters (f : str * (nat * alignment) -> str) cells wa :
  length wa = length cells -> (forall c x, letters (f (c, x)) = letters c) ->
  map letters (map f (zip2 cells wa)) = map letters cells.
Proof.
  intros L H. revert wa L. induction cells as [|c cells IH]; intros [|x wa] L; try discriminate; [reflexivity|].
  cbn. rewrite H, IH by (cbn in L; lia). reflexivity.
Qed.

Lemma letters_divider n d : divider d -> letters (divider_cell (n, divider_alignment d)) = letters d.
Proof.
  intros (ws & l & k & r & ws' & -> & Hw & Hw' & Hk & Hl & Hr).
  assert (E : strip (ws ++ l ++ repeat c_dash k ++ r ++ ws') = l ++ repeat c_dash k ++ r).
  { symmetry. apply trims_strip. split; [exists ws, ws'; rewrite <- !app_assoc; auto|].
    destruct k as [|k]; [lia|]. split.
    - intros x r' G. destruct Hl as [<-|[<-|[]]]; cbn in G; injection G as <- _; reflexivity.
    - intros r' x G. destruct Hr as [<-|[<-|[]]].
      + rewrite app_nil_r in G. cbn [repeat] in G.
        rewrite repeat_cons, app_assoc in G. apply app_inj_tail in G. destruct G as [_ <-]. reflexivity.
      + rewrite !app_assoc in G. apply app_inj_tail in G. destruct G as [_ <-]. reflexivity. }
  unfold divider_alignment. rewrite E, !letters_app, (letters_spaces ws Hw), (letters_spaces ws' Hw').
  rewrite (letters_repeat c_dash k) by reflexivity. rewrite app_nil_r. cbn [app]. clear E Hw Hw'.
  assert (D : letters (rep c_dash n) = []) by (apply letters_repeat; reflexivity).
  assert (S1 : startswith [c_colon] (l ++ repeat c_dash k ++ r) = true <-> l = [c_colon]).
  { destruct k as [|k]; [lia|]. destruct Hl as [<-|[<-|[]]]; cbn; split; intros G; try discriminate; reflexivity. }
  assert (S2 : endswith [c_colon] (l ++ repeat c_dash k ++ r) = true <-> r = [c_colon]).
  { rewrite endswith_spec. destruct k as [|k]; [lia|]. destruct Hr as [<-|[<-|[]]].
    - split; [|discriminate]. intros (p & G). exfalso. cbn [repeat] in G. rewrite app_nil_r in G.
      rewrite repeat_cons, app_assoc in G. apply app_inj_tail in G. destruct G as [_ G]. discriminate.
    - split; [reflexivity|]. intros _. exists (l ++ repeat c_dash (S k)). rewrite <- app_assoc. reflexivity. }
  destruct (startswith _ _) eqn:E1; destruct (endswith _ _) eqn:E2; cbn [andb]; unfold divider_cell;
    rewrite !letters_app, D.
  - rewrite (proj1 S1 eq_refl), (proj1 S2 eq_refl). reflexivity.
  - rewrite (proj1 S1 eq_refl). destruct Hr as [<-|[<-|[]]]; [reflexivity|]. destruct S2 as [_ S2]. discriminate (S2 eq_refl).
  - rewrite (proj1 S2 eq_refl). destruct Hl as [<-|[<-|[]]]; [reflexivity|]. destruct S1 as [_ S1]. discriminate (S1 eq_refl).
  - destruct Hl as [<-|[<-|[]]]; [|destruct S1 as [_ S1]; discriminate (S1 eq_refl)].
    destruct Hr as [<-|[<-|[]]]; [reflexivity|]. destruct S2 as [_ S2]. discriminate (S2 eq_refl).
Qed.

Lemma letters_table lim w i content r :
  whole w TABLE content -> section_text lim w i TABLE content r -> letters r = letters (concat content).
Proof.
  intros (hs & ds & bss & Wf & Hd) H. unfold section_text in H. cbn [reformatted] in H.
  rewrite (well_formed_text i content hs ds bss Wf) in H. apply ok_inj in H. subst r.
  destruct Wf as [(header & div & body & -> & Hh & Hdiv & Hb) L1 L2].
  assert (Lw := out_wa_length hs ds bss L1 L2). assert (Lo := out_widths_length hs bss L2).
  rewrite letters_join by reflexivity. cbn [concat]. rewrite !letters_app, !letters_table_row.
  rewrite (map_zip_letters header_cell hs _ Lw letters_header_cell).
  destruct Hh as (ws & ws' & -> & S1 & S2 & _). rewrite letters_cells by assumption.
  f_equal. f_equal.
  - destruct Hdiv as (w1 & w2 & -> & S3 & S4 & _). rewrite letters_cells by assumption.
    do 3 f_equal. unfold out_wa. clear -Hd Lo L1. rewrite <- L1 in Lo. clear L1. revert Lo. generalize (out_widths hs bss). clear hs bss.
    induction Hd as [|d ds Hd Hds IH]; intros [|n ns] L; try discriminate; [reflexivity|].
    cbn [map zip2]. rewrite letters_divider by exact Hd. f_equal. apply IH. cbn in L. lia.
  - revert L2. generalize (out_wa hs ds bss) Lw. clear -Hb. intros wa Lw L2.
    induction Hb as [|bs line bss body Hx Hb IH]; [reflexivity|]. inversion L2; subst.
    cbn [map concat]. rewrite !letters_app, IH by assumption. f_equal. rewrite letters_table_row.
    rewrite map_zip_letters; [|congruence|apply letters_body_cell].
    destruct Hx as (w1 & w2 & -> & S1 & S2 & _). rewrite letters_cells by assumption. reflexivity.
Qed.

(** * Block quotes and lists *)

Lemma letters_unmarked l l' : unmarked l l' -> letters l' = letters l.
Proof.
  intros [(n & _ & ->)|[-> _]]; [|reflexivity].
  rewrite letters_app, (letters_repeat c_sp n) by reflexivity. reflexivity.
Qed.

Lemma letters_unquoted d ls ls' : unquoted d ls ls' -> letters (concat ls') = letters (concat ls).
Proof.
  intros H. induction H as [d|d l l' d' ls ls' Hq Hd Hu H IH|d l ls ls' Hq H IH]; [reflexivity|..];
    cbn [concat]; rewrite !letters_app, IH.
  - rewrite (letters_unmarked _ _ Hu). reflexivity.
  - rewrite (letters_repeat c_gt d) by reflexivity. reflexivity.
Qed.

Lemma letters_quotes content inner prefix :
  quotes content inner prefix -> letters (concat inner) = letters (concat content) /\ letters prefix = [].
Proof.
  intros (stripped & U & H). apply letters_unquoted in U. rewrite <- U.
  destruct H as [(_ & -> & F)|(_ & -> & ->)]; [|split; reflexivity]. split; [|reflexivity].
  apply (letters_Forall2 unspaced); [|exact F]. intros a b [->|[-> _]]; reflexivity.
Qed.

Lemma letters_marker m : marker m -> letters m = [].
Proof.
  intros [(b & -> & Hb)|(ds & -> & Hd)].
  - destruct Hb as [<-|[<-|[<-|[]]]]; reflexivity.
  - rewrite letters_app, (letters_digits ds Hd). reflexivity.
Qed.

Lemma letters_dedented entry inner : dedented entry inner -> letters (concat inner) = letters (concat entry).
Proof.
  intros (l & rest & ws & m & body & rest' & -> & (-> & Hw & Hm & Hb) & -> & F). cbn [concat].
  rewrite !letters_app, (letters_spaces ws Hw), (letters_marker m Hm). cbn [app]. f_equal.
  - destruct Hb as [->|(r & ->)]; reflexivity.
  - eapply letters_Forall2; [|exact F]. intros a b (w & -> & Hs & _).
    rewrite letters_app, (letters_spaces w Hs). reflexivity.
Qed.

Lemma letters_listed prefix n text out :
  letters prefix = [] -> listed prefix n text out -> letters out = letters text.
Proof.
  intros Hp (first & rest & k & -> & _ & _ & ->). rewrite letters_app, !letters_join by reflexivity.
  rewrite (letters_repeat c_nl k) by reflexivity. rewrite app_nil_r. cbn [concat]. rewrite !letters_app, Hp.
  cbn [app]. change (letters [c_sp]) with (@nil char). cbn [app]. f_equal.
  induction rest as [|l rest IH]; [reflexivity|]. cbn [map concat].
  rewrite !letters_app, IH, (letters_repeat c_sp n) by reflexivity. reflexivity.
Qed.

Lemma whole_narrow w w' ty content : (w = WInf -> w' = WInf) -> whole w ty content -> whole w' ty content.
Proof.
  intros Hw H. destruct ty; try exact H. intros label parts D. destruct (H label parts D) as [H1 [H2|H2]]; auto.
Qed.

Lemma all_whole_narrow w w' lines : (w = WInf -> w' = WInf) -> all_whole w lines -> all_whole w' lines.
Proof. intros Hw H ls ty content W S. eapply whole_narrow; [exact Hw|]. eapply H; eassumption. Qed.

Section Pass.
  Variable lim : nat.
  Hypothesis IH : forall text w t, all_whole w (splitlines text) ->
    reformat_pass lim text w = Ok t -> letters t = letters text.

  Lemma nested_letters inner w t : inner <> [] -> Forall one_line inner -> all_whole w inner ->
    reformat_pass lim (str_join [c_nl] inner ++ [c_nl]) w = Ok t -> letters t = letters (concat inner).
  Proof.
    intros Hn Ho H E. apply IH in E; [|rewrite splitlines_join; assumption].
    rewrite E, letters_app, letters_join by reflexivity. apply app_nil_r.
  Qed.

  Lemma letters_quote lines w i content r :
    section_of lines BLOCK_QUOTE content -> Forall one_line lines -> all_whole w lines ->
    section_text lim w i BLOCK_QUOTE content r -> letters r = letters (concat content).
  Proof.
    intros S Ho Hw H. destruct (section_of_shape _ _ _ S Ho) as [Sh Hc].
    destruct (C30_block_quote lim w i content r Sh H)
      as (ws & l & rest & inner & prefix & w' & text & outs & Ec & _ & Q & Nw & E & F & (-> & _ & _) & _).
    destruct (letters_quotes _ _ _ Q) as [<- Hp].
    apply nested_letters in E.
    - rewrite letters_join by reflexivity. rewrite <- E, <- (letters_splitlines text).
      eapply letters_Forall2; [|exact F]. intros a b Hab. rewrite (letters_rtrims _ _ Hab), letters_app, Hp. reflexivity.
    - destruct (quotes_derived _ _ _ Q) as (mid & D1 & D2). subst content.
      inversion D1; subst. inversion D2; subst. discriminate.
    - destruct (quotes_derived _ _ _ Q) as (mid & D1 & D2).
      eapply derived_one_line; [exact D2|]. eapply derived_one_line; eassumption.
    - apply (all_whole_narrow w).
      + intros ->. destruct w'; cbn in Nw; tauto.
      + intros ls ty c W Sc. apply (Hw ls ty c); [|exact Sc]. eapply within_quote; eassumption.
  Qed.

  Lemma letters_list lines ty w content n prefixes r :
    section_of lines ty content -> list_type ty -> Forall one_line lines -> all_whole w lines ->
    Forall (fun p => letters p = []) prefixes ->
    list_layout lim w content n prefixes r -> letters r = letters (concat content).
  Proof.
    intros S Ty Ho Hw Hp (entries & inners & texts & outs & (Ec & _) & _ & Fd & Fr & Fl & L & ->).
    rewrite letters_join by reflexivity. destruct (section_of_shape _ _ _ S Ho) as [_ Hc]. rewrite <- Ec.
    assert (W : Forall (fun e => exists a b, content = a ++ e ++ b) entries).
    { apply Forall_forall. intros e He. apply in_split in He. destruct He as (a & b & ->).
      exists (concat a), (concat b). rewrite <- Ec, concat_app. reflexivity. }
    clear Ec. revert texts prefixes outs Fr Fl L Hp W.
    induction Fd as [|entry inner entries inners Hd Fd IHd]; intros texts prefixes outs Fr Fl L Hp W.
    - destruct prefixes; [|discriminate]. inversion Fl; subst. reflexivity.
    - inversion Fr as [|? text ? texts' Ht Fr']; subst. destruct prefixes as [|p prefixes]; [discriminate|].
      cbn [combine] in Fl. inversion Fl as [|? out ? outs' Hout Fl']; subst.
      inversion Hp as [|? ? Hp1 Hp2]; subst. inversion W as [|? ? (a & b & Ea) W2]; subst.
      cbn [concat]. rewrite concat_app, !letters_app. f_equal; [|eapply IHd; eauto].
      rewrite (letters_listed p n text out Hp1 Hout), <- (letters_dedented _ _ Hd).
      apply nested_letters in Ht; [exact Ht|..].
      + destruct Hd as (? & ? & ? & ? & ? & ? & _ & _ & -> & _). discriminate.
      + apply Forall_infix in Hc. eapply derived_one_line; [|exact Hc]. apply dedented_derived. exact Hd.
      + apply (all_whole_narrow w); [intros ->; reflexivity|].
        intros ls ty' c Wn Sc. apply (Hw ls ty' c); [|exact Sc]. eapply within_entry; [exact S|exact Ty|reflexivity|exact Hd|exact Wn].
  Qed.

  Lemma letters_section lines ty w i content r :
    section_of lines ty content -> Forall one_line lines -> all_whole w lines ->
    section_text lim w i ty content r -> letters r = letters (concat content).
  Proof.
    intros S Ho Hw H. destruct (section_of_shape _ _ _ S Ho) as [Sh Hc].
    assert (Wh : whole w ty content) by (eapply Hw; [constructor|exact S]).
    destruct ty.
    - eapply letters_atx; eassumption.
    - eapply letters_blank; eassumption.
    - eapply letters_quote; eassumption.
    - destruct (C29_bullet_list lim w i content r Sh Hc H) as (ws & b & body & rest & prefixes & _ & _ & Hb & Hp & Hl).
      eapply letters_list; try eassumption; [left; reflexivity|]. eapply Forall_impl; [|exact Hp].
      cbn. intros p ->. destruct Hb as [<-|[<-|[<-|[]]]]; reflexivity.
    - eapply letters_fenced; eassumption.
    - eapply letters_indented; eassumption.
    - eapply letters_definition; eassumption.
    - destruct (C28_ordered_list lim w i content r Sh Hc H) as (ws & ds & body & rest & prefixes & largest & _ & _ & _ & Hp & _ & Hl).
      eapply letters_list; try eassumption; [right; reflexivity|]. apply Forall_forall. intros p Hin.
      apply In_nth_error in Hin. destruct Hin as (k & Hk). destruct (Hp k p Hk) as (num & (Hd & _) & ->).
      rewrite letters_app, (letters_digits num Hd). reflexivity.
    - eapply letters_paragraph; eassumption.
    - eapply letters_setext; eassumption.
    - eapply letters_table; eassumption.
    - eapply letters_thematic; eassumption.
  Qed.
End Pass.

Lemma letters_separated last texts :
  letters (concat (separated last texts)) = letters (concat (map snd texts)).
Proof.
  revert last. induction texts as [|[ty r] texts IH]; intros last; [reflexivity|]. cbn [separated map snd concat].
  rewrite concat_app. cbn [concat]. rewrite !letters_app, IH.
  replace (letters (concat match last with
                           | Some BLOCK_QUOTE => match ty with SETEXT_HEADING => [[]] | _ => [] end
                           | _ => [] end)) with (@nil char); [reflexivity|].
  destruct last as [[]|]; try reflexivity; destruct ty; reflexivity.
Qed.

(** * A pass *)

Lemma letters_pass lim text w t :
  all_whole w (splitlines text) -> reformat_pass lim text w = Ok t -> letters t = letters text.
Proof.
  revert text w t. induction lim as [|lim IH]; intros text w t Hw E; [discriminate|].
  apply reformat_pass_inv in E. destruct E as (secs & texts & Hp & Ht & ->).
  rewrite finish_pass_join, letters_app, letters_join by reflexivity. rewrite letters_separated.
  change (letters [c_nl]) with (@nil char). rewrite app_nil_r.
  rewrite <- (letters_splitlines text). assert (Ho := splitlines_one_line text).
  assert (C := Hp). apply parse_markdown_lossless in C. destruct C as [C _]. rewrite <- C.
  assert (S : forall ty c, In (ty, c) secs -> section_of (splitlines text) ty c).
  { intros ty c Hin. exists lim, secs. auto. }
  clear C Hp. revert Ht S. generalize 0 as i. revert texts.
  induction secs as [|[ty c] secs IHs]; intros texts i Ht S; inversion Ht as [|? ? ? ? r outs Hr Ht']; subst; [reflexivity|].
  cbn [map fst snd combine concat]. rewrite concat_app, !letters_app. f_equal.
  - eapply letters_section; [exact IH|apply S; left; reflexivity|exact Ho|exact Hw|exact Hr].
  - eapply IHs; [exact Ht'|]. intros ty' c' Hin. apply S. right. exact Hin.
Qed.

Lemma letters_reformat lim text w out :
  all_whole w (splitlines text) -> reformat_markdown_text lim text w = Ok out -> letters out = letters text.
Proof.
  intros Hw E. destruct (reformat_ok_pass _ _ _ _ E) as (t & E1 & _ & ->).
  rewrite letters_app, letters_rstrip, (letters_pass _ _ _ _ Hw E1). apply app_nil_r.
Qed.

(** * Quiet lines *)

Lemma around l T u (z v : str) : l ++ c_sp :: T = u ++ z ++ v -> ~ In c_sp z ->
  (exists v1, l = u ++ z ++ v1 /\ v = v1 ++ c_sp :: T)
  \/ (exists u2, u = l ++ c_sp :: u2 /\ T = u2 ++ z ++ v).
Proof.
  intros E Hz. apply app_eq_app in E. destruct E as (k & [[-> E]|[-> E]]).
  - left. apply app_eq_app in E. destruct E as (j & [[-> E]|[-> ->]]).
    + destruct j as [|x j].
      * exists []. rewrite !app_nil_r. cbn in E. auto.
      * exfalso. injection E as <- _. apply Hz. apply in_app_iff. right. left. reflexivity.
    + exists j. split; reflexivity.
  - destruct k as [|x k].
    + left. destruct z as [|x z]; [|exfalso; injection E as <- _; apply Hz; left; reflexivity].
      exists []. rewrite app_nil_r. cbn in *. rewrite app_nil_r. auto.
    + right. injection E as <- E. exists k. auto.
Qed.

Lemma joint_no_space z close : In (z, close) joints -> ~ In c_sp z.
Proof. intros [E|[E|[]]]; injection E as <- _; intros [G|[G|[]]]; discriminate. Qed.

Lemma joints_opened ls a z close b : Forall enclosed ls -> In (z, close) joints ->
  str_join [c_sp] ls = a ++ z ++ b -> In c_lbr a.
Proof.
  intros H Hz. revert a b. induction H as [|l ls Hl H IH]; intros a b E.
  - destruct Hz as [Ez|[Ez|[]]]; injection Ez as <- _; destruct a; discriminate.
  - destruct ls as [|l' ls]; [apply (proj2 Hl _ _ _ _ E Hz)|].
    rewrite str_join_cons in E by discriminate.
    destruct (around l (str_join [c_sp] (l' :: ls)) a z b E (joint_no_space _ _ Hz)) as [(v1 & El & _)|(u2 & -> & ET)].
    + apply (proj2 Hl _ _ _ _ El Hz).
    + apply in_app_iff. right. right. exact (IH _ _ ET).
Qed.

Lemma enclosed_join ls : Forall enclosed ls -> links_apart (str_join [c_sp] ls).
Proof.
  intros H. induction H as [|l ls Hl H IH]; intros a z close b z' close' c E Hz Hz'.
  - exfalso. destruct Hz as [Ez|[Ez|[]]]; injection Ez as <- _; destruct a; discriminate.
  - destruct ls as [|l' ls]; [exact (proj1 Hl a z close b z' close' c E Hz Hz')|].
    rewrite str_join_cons in E by discriminate. set (T := str_join [c_sp] (l' :: ls)) in *.
    destruct (around l T a z (b ++ z' ++ c) E (joint_no_space _ _ Hz)) as [(v1 & El & Ev)|(u2 & -> & ET)].
    + symmetry in Ev. destruct (around v1 T b z' c Ev (joint_no_space _ _ Hz')) as [(v2 & -> & _)|(u2 & -> & ET)].
      * exact (proj1 Hl a z close b z' close' v2 El Hz Hz').
      * destruct (proj2 Hl _ _ _ _ El Hz) as [_ (b1 & b2 & ->)].
        assert (Hin := joints_opened _ _ _ _ _ H Hz' ET). apply in_split in Hin. destruct Hin as (b3 & b4 & ->).
        exists b1, (b2 ++ [c_sp] ++ b3), b4. split; [rewrite <- !app_assoc; reflexivity|].
        right. exists c_sp. split; [|reflexivity]. apply in_app_iff. right. left. reflexivity.
    + exact (IH u2 z close b z' close' c ET Hz Hz').
Qed.

(** Removing characters other than a bracket from the front, or whitespace from the end. *)
Lemma enclosed_part p l q : enclosed (p ++ l ++ q) -> ~ In c_lbr p -> spaces q -> enclosed l.
Proof.
  intros [H1 H2] Hp Hq. split.
  - intros a z close b z' close' c E Hz Hz'. apply (H1 (p ++ a) z close b z' close' (c ++ q)); auto.
    rewrite E. rewrite <- !app_assoc. reflexivity.
  - intros a z close b E Hz. destruct (H2 (p ++ a) z close (b ++ q)) as [G1 (b1 & b2 & G2)]; [|exact Hz|].
    { rewrite E. rewrite <- !app_assoc. reflexivity. }
    split; [apply in_app_iff in G1; tauto|].
    assert (C : exists x, close = [x] /\ is_space x = false).
    { destruct Hz as [Ez|[Ez|[]]]; injection Ez as _ <-; eexists; split; reflexivity. }
    destruct C as (x & -> & Hx).
    assert (Hin : In x (b ++ q)) by (rewrite G2; apply in_app_iff; right; left; reflexivity).
    apply in_app_iff in Hin. destruct Hin as [Hin|Hin].
    + apply in_split in Hin. destruct Hin as (c1 & c2 & ->). exists c1, c2. reflexivity.
    + exfalso. unfold spaces in Hq. rewrite Forall_forall in Hq. apply Hq in Hin. congruence.
Qed.

Lemma enclosed_lead d l : enclosed l -> enclosed (repeat c_gt d ++ l).
Proof.
  assert (N : forall z close, In (z, close) joints -> Forall (fun c => c <> c_gt) z /\ z <> []).
  { intros z close [E|[E|[]]]; injection E as <- _; (split; [repeat constructor; discriminate|discriminate]). }
  intros [H1 H2]. split.
  - intros a z close b z' close' c E Hz Hz'. destruct (N z close Hz) as [N1 N2].
    destruct (lead_infix d l a z (b ++ z' ++ c) E N1 N2) as (a' & -> & E').
    exact (H1 a' z close b z' close' c E' Hz Hz').
  - intros a z close b E Hz. destruct (N z close Hz) as [N1 N2].
    destruct (lead_infix d l a z b E N1 N2) as (a' & -> & E').
    destruct (H2 a' z close b E' Hz) as [G1 G2]. split; [apply in_app_iff; auto|exact G2].
Qed.

Lemma quiet_part p l q : quiet (p ++ l ++ q) -> ~ In c_lbr p -> spaces q -> quiet l.
Proof.
  intros [H1 H2] Hp Hq. split; [eapply enclosed_part; eassumption|]. intros z a b Hz ->.
  apply (H2 z (p ++ a) (b ++ q) Hz). rewrite <- !app_assoc. reflexivity.
Qed.

Lemma quiet_suffix p l : quiet (p ++ l) -> ~ In c_lbr p -> quiet l.
Proof. intros H Hp. apply (quiet_part p l []); [rewrite app_nil_r; exact H|exact Hp|constructor]. Qed.

Lemma quiet_lead d l : quiet l -> quiet (repeat c_gt d ++ l).
Proof.
  intros [H1 H2]. split; [apply enclosed_lead; exact H1|]. intros z a b Hz E.
  destruct (lead_infix d l a z b E) as (a' & _ & E').
  - destruct Hz as [<-|[<-|[<-|[<-|[]]]]]; repeat constructor; discriminate.
  - destruct Hz as [<-|[<-|[<-|[<-|[]]]]]; discriminate.
  - exact (H2 z a' b Hz E').
Qed.

Lemma no_bracket_spaces ws : spaces ws -> ~ In c_lbr ws.
Proof. intros H Hin. unfold spaces in H. rewrite Forall_forall in H. apply H in Hin. discriminate. Qed.

Lemma no_bracket_repeat c n : c <> c_lbr -> ~ In c_lbr (repeat c n).
Proof. intros H Hin. apply repeat_spec in Hin. congruence. Qed.

Lemma no_bracket_marker m : marker m -> ~ In c_lbr m.
Proof.
  intros [(b & -> & Hb)|(ds & -> & _ & Hd)] Hin.
  - destruct Hb as [<-|[<-|[<-|[]]]]; destruct Hin as [E|[]]; discriminate.
  - apply in_app_iff in Hin. destruct Hin as [Hin|[E|[]]]; [|discriminate].
    rewrite Forall_forall in Hd. apply Hd in Hin. discriminate.
Qed.

Lemma quiet_strip l : quiet l -> quiet (strip l).
Proof.
  intros H. assert (T : trims l (strip l)) by (apply trims_strip; reflexivity).
  destruct T as ((ws & ws' & E & H1 & H2) & _). rewrite E in H. eapply quiet_part; [exact H| |exact H2].
  apply no_bracket_spaces. exact H1.
Qed.

Lemma quiet_unquoted d ls ls' : unquoted d ls ls' -> Forall quiet ls -> Forall quiet ls'.
Proof.
  intros U. induction U as [d|d l l' d' ls ls' Hq Hd Hu U IH|d l ls ls' Hq U IH]; intros C; [constructor|..];
    inversion C as [|? ? C1 C2]; subst; constructor; auto.
  - destruct Hu as [(n & _ & ->)|[-> _]]; [|exact C1]. apply (quiet_suffix (repeat c_sp n ++ [c_gt])).
    + rewrite <- app_assoc. exact C1.
    + intros Hin. apply in_app_iff in Hin. destruct Hin as [Hin|[E|[]]]; [|discriminate].
      apply (no_bracket_repeat c_sp n); [discriminate|exact Hin].
  - apply quiet_lead. exact C1.
Qed.

Lemma quiet_quotes content inner prefix : quotes content inner prefix -> Forall quiet content -> Forall quiet inner.
Proof.
  intros (mid & U & H) C. assert (Cm := quiet_unquoted _ _ _ U C).
  destruct H as [(_ & _ & F)|(_ & _ & ->)]; [|exact Cm].
  clear -F Cm. induction F as [|x y xs ys Hx F IH]; [constructor|]. inversion Cm as [|? ? G1 G2]; subst.
  constructor; [|auto]. destruct Hx as [->|[-> _]]; [|exact G1]. apply (quiet_suffix [c_sp]); [exact G1|].
  intros [E|[]]. discriminate.
Qed.

Lemma quiet_dedented entry inner : dedented entry inner -> Forall quiet entry -> Forall quiet inner.
Proof.
  intros (l & rest & ws & m & body & rest' & -> & (-> & Hw & Hm & Hb) & -> & F) C.
  inversion C as [|? ? C1 C2]; subst. constructor.
  - assert (B : exists p, body = p ++ tl body /\ ~ In c_lbr p).
    { destruct Hb as [->|(r & ->)]; [exists []|exists [c_sp]]; (split; [reflexivity|]); [intros []|intros [E|[]]; discriminate]. }
    destruct B as (p & B & Hp). apply (quiet_suffix (ws ++ m ++ p)).
    + rewrite B in C1. rewrite <- !app_assoc. exact C1.
    + intros Hin. apply in_app_iff in Hin. destruct Hin as [Hin|Hin]; [exact (no_bracket_spaces _ Hw Hin)|].
      apply in_app_iff in Hin. destruct Hin as [Hin|Hin]; [exact (no_bracket_marker _ Hm Hin)|auto].
  - clear -F C2. induction F as [|x y xs ys (w & -> & Hs & _) F IH]; [constructor|].
    inversion C2 as [|? ? G1 G2]; subst. constructor; [|auto].
    apply (quiet_suffix w); [exact G1|]. apply no_bracket_spaces. exact Hs.
Qed.

Lemma quiet_section lines ty content : section_of lines ty content -> Forall quiet lines -> Forall quiet content.
Proof.
  intros (lim & secs & Hp & Hin) C. apply parse_markdown_lossless in Hp. destruct Hp as [Hp _]. rewrite <- Hp in C.
  rewrite Forall_concat in C. rewrite Forall_forall in C. apply (C content).
  apply in_map_iff. exists (ty, content). auto.
Qed.

Lemma quiet_within lines lines' : within lines lines' -> Forall quiet lines -> Forall quiet lines'.
Proof.
  intros H. induction H as [lines|lines content inner prefix lines' Hs Hq H IH
    |lines ty content a entry b inner lines' Hs _ Ec Hd H IH]; intros C; [exact C| |].
  - apply IH. eapply quiet_quotes; [exact Hq|]. eapply quiet_section; eassumption.
  - apply IH. eapply quiet_dedented; [exact Hd|]. apply (quiet_section _ _ _ Hs) in C. rewrite Ec in C.
    apply Forall_infix in C. exact C.
Qed.

Lemma quiet_apart ls : Forall quiet ls -> links_apart (str_join [c_sp] (map strip ls)).
Proof.
  intros H. apply enclosed_join. rewrite Forall_map. eapply Forall_impl; [|exact H].
  intros l Hl. exact (proj1 (quiet_strip l Hl)).
Qed.

Lemma quiet_whole w lines : Forall quiet lines -> all_whole w lines.
Proof.
  intros H ls ty content W S. apply (quiet_within _ _ W) in H. assert (Sh := section_shape_of _ _ _ S).
  assert (Hn : content <> []).
  { destruct S as (lim & secs & Hp & Hin). apply parse_markdown_lossless in Hp. destruct Hp as [_ Hp].
    rewrite Forall_forall in Hp. exact (Hp _ Hin). }
  apply (quiet_section _ _ _ S) in H. destruct ty; cbn [whole]; auto.
  - exfalso. destruct Sh as (l & rest & fence & -> & (ws & c & n & info & -> & _ & Hc & Hlen & _) & _).
    inversion H as [|? ? [_ Q] _]; subst. destruct n as [|[|[|n]]]; try lia.
    destruct Hc as [<-|[<-|[]]].
    + apply (Q (lit "```") ws (repeat c_bt n ++ info)); [cbn; auto|reflexivity].
    + apply (Q (lit "~~~") ws (repeat c_tilde n ++ info)); [cbn; auto|reflexivity].
  - exfalso. destruct Sh as (l & rest & -> & (ws & label & body & -> & _)).
    inversion H as [|? ? [_ Q] _]; subst. apply (Q (lit "]:") (ws ++ c_lbr :: label) body); [cbn; auto|].
    rewrite <- app_assoc. reflexivity.
  - apply quiet_apart. exact H.
  - apply quiet_apart. apply Forall_removelast. exact H.
  - exfalso. destruct content as [|l rest]; [congruence|]. inversion Sh as [|? ? (ws & body & -> & _) _]; subst.
    inversion H as [|? ? [_ Q] _]; subst. apply (Q (lit "|") ws body); [cbn; auto|reflexivity].
Qed.
