(** Documents with lists and block quotes: formatting. *)
From Coq Require Import String.
From Verif Require Import Py Regex Utils TextWrap Lines Detectors Formatters Base
  SpecLines SpecParser ProofsLines ProofsRegex ProofsParser ProofsShapes ProofsKinds
  SpecFormat ProofsPass ProofsForward PropsLeaf SpecTable ProofsTable PropsTable
  SpecWrap ProofsWrap ProofsTokens ProofsPieces ProofsFilled PropsWrap
  SpecDefinition ProofsDefinition PropsDefinition SpecList ProofsList PropsList SpecQuote PropsQuote
  SpecLimit ProofsLimit ProofsPlain SpecErrors ProofsErrors SpecNested SpecDocument SpecContent SpecRender ProofsRender ProofsDocument ProofsNested.

(** * Numbers *)

Definition pow10 (n : nat) : N := N.pow 10 (N.of_nat n).

Lemma pow10_S n : pow10 (S n) = (10 * pow10 n)%N.
Proof. unfold pow10. rewrite Nat2N.inj_succ, N.pow_succ_r'. reflexivity. Qed.

Lemma pow10_mono a b : a <= b -> (pow10 a <= pow10 b)%N.
Proof. intros H. unfold pow10. apply N.pow_le_mono_r; lia. Qed.

Lemma digits_val_snoc s c : digits_val (s ++ [c]) = (digits_val s * 10 + (c - 48))%N.
Proof. unfold digits_val. rewrite fold_left_app. reflexivity. Qed.

Lemma digit_range c : is_digit c = true -> (48 <= c <= 57)%N.
Proof. unfold is_digit. intros H. apply Bool.andb_true_iff in H. destruct H as [H1 H2]. apply N.leb_le in H1, H2. lia. Qed.

Lemma digits_val_upper s : Forall (fun c => is_digit c = true) s -> (digits_val s < pow10 (length s))%N.
Proof.
  induction s as [|c s IH] using rev_ind; intros H; [reflexivity|].
  apply Forall_app in H. destruct H as [H1 H2]. apply Forall_inv in H2. apply digit_range in H2. specialize (IH H1).
  rewrite digits_val_snoc, app_length, Nat.add_comm. cbn [length Nat.add]. rewrite pow10_S. lia.
Qed.

Lemma digits_val_lower d s : Forall (fun c => is_digit c = true) (d :: s) -> d <> 48%N ->
  (pow10 (length s) <= digits_val (d :: s))%N.
Proof.
  intros H Hd. inversion H as [|? ? H1 H2]; subst. apply digit_range in H1. clear H.
  induction s as [|c s IH] using rev_ind.
  - unfold digits_val, pow10. cbn. lia.
  - apply Forall_app in H2. destruct H2 as [H2 _]. specialize (IH H2).
    change (d :: s ++ [c]) with ((d :: s) ++ [c]). rewrite digits_val_snoc, app_length, Nat.add_comm.
    cbn [length Nat.add]. rewrite pow10_S. lia.
Qed.

(** Larger numbers are not shorter. *)
Lemma decimal_length a b da db : decimal a da -> decimal b db -> (a <= b)%N -> length da <= length db.
Proof.
  intros ((_ & Ha) & Ea & Za) ((Hn & Hb) & Eb & _) L.
  destruct da as [|d da]; [cbn; lia|]. destruct (N.eq_dec d 48) as [->|Hd].
  - rewrite (Za da eq_refl). destruct db; [congruence|]. cbn. lia.
  - assert (G1 := digits_val_lower d da Ha Hd). assert (G2 := digits_val_upper db Hb). rewrite Ea in G1. rewrite Eb in G2.
    destruct (Nat.le_gt_cases (length (d :: da)) (length db)) as [K|K]; [exact K|]. exfalso.
    cbn [length] in K. assert (G3 := pow10_mono (length db) (length da) ltac:(lia)). lia.
Qed.

(** * Reformatting nested text *)

Lemma join_lines (lss : list (list str)) : Forall (fun ls => ls <> []) lss ->
  str_join [c_nl] (map (str_join [c_nl]) lss) = str_join [c_nl] (concat lss).
Proof.
  induction 1 as [|ls lss H H' IH]; [reflexivity|]. cbn [map concat]. destruct lss as [|ls' lss].
  - cbn [map concat]. rewrite app_nil_r. reflexivity.
  - cbn [map] in *. rewrite str_join_cons by discriminate. rewrite IH.
    destruct (concat (ls' :: lss)) as [|x y] eqn:E.
    + cbn [concat] in E. apply app_eq_nil in E. destruct E as [-> E]. inversion H'. congruence.
    + rewrite str_join_app by (assumption || discriminate). reflexivity.
Qed.

Lemma uniform2 {A B} (Q : nat -> A -> B -> Prop) l l' :
  Forall2 (fun a b => exists N, forall lim, N <= lim -> Q lim a b) l l' ->
  exists N, forall lim, N <= lim -> Forall2 (Q lim) l l'.
Proof.
  induction 1 as [|a b l l' (N1 & H1) _ (N2 & H2)]; [exists 0; constructor|].
  exists (N1 + N2). intros lim L. constructor; [apply H1|apply H2]; lia.
Qed.

Lemma narrower_trans w a b w1 w2 : narrower w a w1 -> narrower w1 b w2 -> narrower w (a + b) w2.
Proof.
  unfold narrower. destruct w, w1, w2; cbn; try tauto; intros H1 H2.
  - lia.
  - rewrite H2, H1, inject_Z_plus. ring.
Qed.

Lemma narrower_same w a w1 w2 : narrower w a w1 -> narrower w a w2 -> narrower w1 0 w2.
Proof.
  unfold narrower. destruct w, w1, w2; cbn; try tauto; intros H1 H2.
  - lia.
  - rewrite H2, H1. ring.
Qed.

Definition widths (inner : width -> list tree -> list section -> Prop) : Prop :=
  forall w w' ts secs, narrower w 0 w' -> inner w ts secs -> inner w' ts secs.

Record reformats (inner : width -> list section -> Prop) (w : width) (secs secs' : list section) : Prop := {
  reformats_inner : inner w secs';
  reformats_ne : lines_of secs' <> [];
  reformats_similar : Forall2 similar secs secs';
  reformats_good : Forall good (lines_of secs');
  reformats_tidy : Forall tidy (lines_of secs');
  reformats_steady : Forall steady (lines_of secs) -> Forall unlabelled (lines_of secs');
  reformats_flush : flush (lines_of secs) -> flush (lines_of secs');
  reformats_ink : Forall entry_section secs -> Forall (fun s => in_ink (snd s)) secs';
  reformats_pass : exists N, forall lim, N <= lim ->
    reformat_pass lim (document secs) w = Ok (document secs')
    /\ reformat_pass lim (document secs') w = Ok (document secs')
}.

Definition formats (inner : width -> list tree -> list section -> Prop) : Prop :=
  forall w ts secs, inner w ts secs -> secs <> [] -> Forall good (lines_of secs) ->
  exists secs', reformats (fun w => inner w ts) w secs secs' /\ lines_of secs' = rendering w ts.

(** ** Indentation *)

(** Text after a short number is indented beyond it. *)
Definition shifts (inner : width -> list tree -> list section -> Prop) : Prop :=
  forall w ts secs d, d <= 3 -> inner w ts secs -> Forall entry_section secs ->
  Forall (fun s => in_ink (snd s)) secs -> plainly ts ->
  exists secs', inner w ts secs' /\ Forall entry_section secs' /\ lines_of secs' = shifted d (lines_of secs).

Lemma shifted_good d lines : Forall good lines -> Forall good (shifted d lines).
Proof.
  intros H. destruct H as [|l rest Hl H]; [constructor|]. cbn [shifted]. constructor; [exact Hl|]. apply Forall_map.
  eapply Forall_impl; [|exact H]. clear. intros x [Ho Hi]. split.
  - apply Forall_app. split; [|exact Ho]. apply Forall_forall. intros c Hc. apply repeat_spec in Hc. subst c. reflexivity.
  - revert Hi. clear Ho. induction d as [|d IH]; [auto|]. intros Hi. specialize (IH Hi). cbn [repeat app].
    intros a ws b E Hw. destruct a as [|c a]; cbn [app] in E.
    + destruct ws as [|c ws]; cbn [app] in E; [discriminate|]. injection E as <- E. constructor; [reflexivity|].
      apply (IH [] ws b); [exact E|exact (Forall_inv_tail Hw)].
    + injection E as _ E. exact (IH a ws b E Hw).
Qed.

(** ** Widths *)

Lemma beside_sub w n : beside w n = width_sub w (Z.of_nat n).
Proof. destruct w; reflexivity. Qed.

Lemma fit_width w w' n : narrower w 0 w' -> fit w n = fit w' n.
Proof.
  intros H. apply Bool.eq_iff_eq_true. rewrite !fit_spec. destruct w as [z| |q], w' as [z'| |q']; cbn in *; try contradiction.
  - subst z'. rewrite Z.sub_0_r. reflexivity.
  - tauto.
  - assert (E : (q' == q)%Q) by (rewrite H; unfold inject_Z; ring). rewrite E. reflexivity.
Qed.

Lemma fill_width w w' line ps : narrower w 0 w' -> fill w line ps = fill w' line ps.
Proof.
  intros H. revert line. induction ps as [|p ps IH]; intros line; [reflexivity|]. cbn [fill].
  rewrite (fit_width w w' _ H), !IH. reflexivity.
Qed.

Lemma leaf_width w w' p : narrower w 0 w' -> leaf_lines w p = leaf_lines w' p.
Proof.
  intros H. assert (P : forall ps, paragraph w ps = paragraph w' ps).
  { intros [|q ps]; [reflexivity|]. apply fill_width. exact H. }
  destruct p; try reflexivity; cbn [leaf_lines]; rewrite ?P; try reflexivity.
  destruct w, w'; cbn in H; try contradiction; try reflexivity. subst. rewrite Z.sub_0_r. reflexivity.
Qed.

(** Induction over trees. *)
Section Trees.
  Variable P : tree -> Prop.
  Hypothesis leaf_case : forall p, P (Leaf p).
  Hypothesis quote_case : forall p ts, Forall P ts -> P (Quote p ts).
  Hypothesis bullets_case : forall b tss, Forall (Forall P) tss -> P (Bullets b tss).
  Hypothesis numbered_case : forall n tss, Forall (Forall P) tss -> P (Numbered n tss).

  Fixpoint trees (t : tree) : P t :=
    let list := fix list ts : Forall P ts :=
      match ts with [] => Forall_nil _ | t :: ts => Forall_cons _ (trees t) (list ts) end in
    let lists := fix lists tss : Forall (Forall P) tss :=
      match tss with [] => Forall_nil _ | ts :: tss => Forall_cons _ (list ts) (lists tss) end in
    match t with
    | Leaf p => leaf_case p
    | Quote p ts => quote_case p ts (list ts)
    | Bullets b tss => bullets_case b tss (lists tss)
    | Numbered n tss => numbered_case n tss (lists tss)
    end.
End Trees.

Lemma beside_width w w' n : narrower w 0 w' -> narrower (beside w n) 0 (beside w' n).
Proof.
  destruct w as [z| |q], w' as [z'| |q']; cbn; try tauto; intros H; [lia|]. rewrite H. unfold inject_Z. ring.
Qed.

Lemma tree_width t : forall w w', narrower w 0 w' -> tree_lines w t = tree_lines w' t.
Proof.
  assert (M : forall ts, Forall (fun t => forall w w', narrower w 0 w' -> tree_lines w t = tree_lines w' t) ts ->
            forall w w', narrower w 0 w' -> map (tree_lines w) ts = map (tree_lines w') ts).
  { intros ts F w w' H. induction F as [|x xs Ht _ IH]; [reflexivity|]. cbn [map]. rewrite IH, (Ht w w' H). reflexivity. }
  induction t as [p|p ts F|b tss F|n tss F] using trees; intros w w' H; cbn [tree_lines].
  - apply leaf_width. exact H.
  - rewrite (M ts F _ _ (beside_width w w' _ H)). reflexivity.
  - f_equal. induction F as [|ts tss Ht _ IH]; [reflexivity|]. cbn [map]. rewrite IH, (M ts Ht _ _ (beside_width w w' _ H)). reflexivity.
  - cbv zeta. f_equal. set (k := length _). clearbody k.
    induction F as [|ts tss Ht _ IH]; [reflexivity|]. cbn [map]. rewrite IH, (M ts Ht _ _ (beside_width w w' _ H)). reflexivity.
Qed.

Lemma rendering_width w n a b ts : narrower w n a -> narrower w n b -> rendering a ts = rendering b ts.
Proof.
  intros Ha Hb. assert (H := narrower_same _ _ _ _ Ha Hb). unfold rendering. f_equal. apply map_ext. intros t.
  apply tree_width. exact H.
Qed.

(** Formatting nested text, with what is left of the recursion limit. *)
Definition nest (lim : nat) (lines : list str) (w : width) : res str :=
  reformat_pass lim (str_join [c_nl] lines ++ [c_nl]) w.

Lemma similar_types secs secs' : Forall2 similar secs secs' -> map fst secs' = map fst secs.
Proof. induction 1 as [|s s' secs secs' (E & _) _ IH]; [reflexivity|]. cbn [map]. congruence. Qed.

Lemma similar_entry secs secs' : Forall2 similar secs secs' -> Forall entry_section secs -> Forall entry_section secs'.
Proof.
  induction 1 as [|s s' secs secs' (E & _) _ IH]; intros H; [constructor|]. inversion H; subst. constructor; [|auto].
  unfold entry_section in *. rewrite <- E. assumption.
Qed.

Lemma good_no_nl ls : Forall good ls -> Forall no_nl ls.
Proof. intros H. eapply Forall_impl; [|exact H]. intros l [Hl _]. apply one_line_nl. exact Hl. Qed.

Lemma entry_line_ne l : entry_line l -> l <> [].
Proof. intros (H & _) ->. apply H. constructor. Qed.

(** The lines of the text of an entry are ends of the lines of the entry. *)
Lemma entry_suffixes ws m inner ls : entry ws m inner ls -> Forall2 (fun l x => exists p, x = p ++ l) inner ls.
Proof.
  intros (l & rest & rest' & -> & -> & _ & _ & H & _). constructor.
  - exists (ws ++ m ++ [c_sp]). rewrite <- !app_assoc. reflexivity.
  - induction H as [|x x' rest rest' (u & -> & _) _ IH]; constructor; [eauto|exact IH].
Qed.

Lemma suffixes_good inner ls : Forall2 (fun l x : str => exists p, x = p ++ l) inner ls -> Forall good ls -> Forall good inner.
Proof.
  induction 1 as [|l x inner ls (p & ->) _ IH]; intros H; [constructor|]. inversion H; subst. constructor; [|auto].
  eapply derived_good; [left; exists p; reflexivity|assumption].
Qed.

Lemma suffix_steady p l : steady (p ++ l) -> steady l.
Proof.
  intros H [(q & ->)|(q & ws & -> & Hw)]; apply H.
  - left. exists (p ++ q). rewrite app_assoc. reflexivity.
  - right. exists (p ++ q), ws. rewrite app_assoc. auto.
Qed.

Lemma suffixes_steady inner ls : Forall2 (fun l x : str => exists p, x = p ++ l) inner ls -> Forall steady ls -> Forall steady inner.
Proof.
  induction 1 as [|l x inner ls (p & ->) _ IH]; intros H; [constructor|]. inversion H; subst. constructor; [|auto].
  eapply suffix_steady. eassumption.
Qed.

(** ** The lines of entries in the output *)

Lemma marker_one_line m : marker m -> one_line m.
Proof.
  intros [(b & -> & Hb)|(ds & -> & _ & Hd)].
  - constructor; [|constructor]. cbn in Hb. intuition (subst; reflexivity).
  - apply Forall_app. split; [|constructor; [reflexivity|constructor]]. eapply Forall_impl; [|exact Hd].
    intros c Hc. apply digit_range in Hc. unfold is_linebreak. cbn.
    repeat (apply Bool.orb_false_iff; split); try (apply N.eqb_neq; lia); try (apply Bool.andb_false_iff; rewrite !N.leb_gt; lia).
Qed.

Lemma hang_lines (P : str -> Prop) n m lines :
  (forall p l, (forall q, p <> q ++ [c_rbr]) -> one_line p -> P l -> l <> [] -> P (p ++ l)) ->
  marker m -> Forall P lines -> Forall (fun l => l <> []) lines -> Forall P (hang n m lines).
Proof.
  intros HP Hm H Hn. destruct lines as [|l rest]; [constructor|]. inversion H; subst. inversion Hn; subst. cbn [hang].
  constructor.
  - replace (m ++ c_sp :: l) with ((m ++ [c_sp]) ++ l) by (rewrite <- app_assoc; reflexivity).
    apply HP; auto.
    + intros q E. apply app_inj_tail in E. destruct E as [_ E]. discriminate.
    + apply Forall_app. split; [apply marker_one_line; exact Hm|constructor; [reflexivity|constructor]].
  - apply Forall_map. rewrite Forall_forall in *. intros x Hx. apply HP; auto.
    + intros q E. assert (G : In c_rbr (repeat c_sp n)) by (rewrite E; apply in_or_app; right; left; reflexivity).
      apply repeat_spec in G. discriminate.
    + apply Forall_forall. intros c Hc. apply repeat_spec in Hc. subst c. reflexivity.
Qed.

Definition hung (n : nat) (ms : list str) (secss : list (list section)) : list (list str) :=
  map (fun '(m, secs) => hang n m (lines_of secs)) (combine ms secss).

Lemma hung_concat (P : str -> Prop) n ms secss :
  (forall p l, (forall q, p <> q ++ [c_rbr]) -> one_line p -> P l -> l <> [] -> P (p ++ l)) ->
  Forall marker ms -> Forall (fun secs => Forall P (lines_of secs) /\ Forall (fun l => l <> []) (lines_of secs)) secss ->
  Forall P (concat (hung n ms secss)).
Proof.
  intros HP Hm Hs. unfold hung. revert secss Hs. induction Hm as [|m ms Hm _ IH]; intros secss Hs; [constructor|].
  destruct Hs as [|secs secss [H1 H2] Hs]; [constructor|]. cbn [combine map concat].
  apply Forall_app. split; [|apply IH; exact Hs]. apply hang_lines; assumption.
Qed.

(** ** Quotes *)

Lemma fully_quote_marked d ls : Forall quote_line ls -> fully_quote d ls = ls.
Proof.
  intros H. revert d. induction H as [|l ls Hl _ IH]; intros d; [reflexivity|]. cbn [fully_quote].
  rewrite (proj2 (quote_spec l) Hl). f_equal. apply IH.
Qed.

Lemma strip_quote_marker_spaces k body : k <= 3 -> strip_quote_marker (repeat c_sp k ++ c_gt :: body) = body.
Proof.
  intros Hk. destruct (strip_quote_marker_spec (repeat c_sp k ++ c_gt :: body)) as [(n & _ & E)|[_ H]].
  - apply first_char_unique in E; try apply spaces_repeat; try reflexivity. symmetry. apply E.
  - exfalso. exact (H k body Hk eq_refl).
Qed.

(** The lines of a quote without the [>]. *)
Definition unmarkedly (p l' x : str) : Prop :=
  (p = lit ">" /\ x = l') \/ (p = lit "> " /\ (x = c_sp :: l' \/ (l' = [] /\ x = []))).

Lemma quoted_unmarked p l' l : In p [lit ">"; lit "> "] -> quoted p l' l -> unmarkedly p l' (strip_quote_marker l).
Proof.
  intros Hp (k & Hk & H). destruct Hp as [<-|[<-|[]]].
  - left. split; [reflexivity|]. destruct H as [->|[-> ->]]; apply (strip_quote_marker_spaces k _ Hk).
  - right. split; [reflexivity|]. destruct H as [->|[-> ->]].
    + left. apply (strip_quote_marker_spaces k (c_sp :: l') Hk).
    + right. split; [reflexivity|]. apply (strip_quote_marker_spaces k [] Hk).
Qed.

Lemma get_indent_0 c t : is_space c = false -> get_indent (c :: t) = 0.
Proof. intros H. unfold get_indent, lstrip. rewrite lstrip_by_id by exact H. lia. Qed.

Lemma get_indent_1 c t : is_space c = false -> get_indent (c_sp :: c :: t) = 1.
Proof.
  intros H. unfold get_indent, lstrip. change (c_sp :: c :: t) with ([c_sp] ++ c :: t).
  rewrite lstrip_by_app by reflexivity. rewrite lstrip_by_id by exact H. cbn [app length]. lia.
Qed.

Lemma not_blank c t : is_space c = false -> blank (c :: t) = false.
Proof. intros H. apply Bool.not_true_is_false. intros E. apply blank_iff in E. apply Forall_inv in E. congruence. Qed.

Lemma not_blank_sp c t : is_space c = false -> blank (c_sp :: c :: t) = false.
Proof. intros H. apply Bool.not_true_is_false. intros E. apply blank_iff, Forall_inv_tail, Forall_inv in E. congruence. Qed.

Lemma no_space_flush ls : flush ls -> quote_has_space ls = false.
Proof.
  intros (blanks & c & t & rest & -> & Hb & Hc). induction Hb as [|b blanks Hb _ IH]; cbn [app quote_has_space].
  - rewrite not_blank, get_indent_0 by exact Hc. reflexivity.
  - rewrite (proj2 (blank_iff b) Hb). exact IH.
Qed.

Lemma has_space_flush ls xs : flush ls ->
  Forall2 (fun l' x => x = c_sp :: l' \/ (l' = [] /\ x = [])) ls xs -> quote_has_space xs = true.
Proof.
  intros (blanks & c & t & rest & -> & Hb & Hc). revert xs. induction Hb as [|b blanks Hb _ IH]; intros xs F;
    cbn [app] in F; inversion F as [|? x ? xs' Hx F']; subst; cbn [quote_has_space].
  - destruct Hx as [->|[E _]]; [|discriminate]. rewrite not_blank_sp, get_indent_1 by exact Hc. reflexivity.
  - assert (G : blank x = true).
    { apply blank_iff. destruct Hx as [->|[_ ->]]; [constructor; [reflexivity|exact Hb]|constructor]. }
    rewrite G. apply IH. exact F'.
Qed.

Definition quote_width (w : width) (p : str) : width :=
  if length p =? 2 then width_sub (width_sub (width_sub w 0) 1) 1 else width_sub (width_sub w 0) 1.

Lemma quote_width_narrower w p : In p [lit ">"; lit "> "] -> narrower w (Z.of_nat (length p)) (quote_width w p).
Proof.
  intros [<-|[<-|[]]]; unfold quote_width.
  - apply (narrower_sub w 0 1), (narrower_sub w 0 0), narrower_refl.
  - apply (narrower_sub w 1 1), (narrower_sub w 0 1), (narrower_sub w 0 0), narrower_refl.
Qed.

Lemma quote_text lim w p lines ls out :
  quoting p lines ls -> nest lim lines (quote_width w p) = Ok out ->
  fmt_block_quote (nest lim) ls w = Ok (str_join [c_nl] (map (fun l => strip (p ++ l)) (splitlines out))).
Proof.
  intros Hq E. assert (L := quoting_lines _ _ _ Hq). destruct Hq as (Hp & Hf & F & (t & rest & El) & _).
  unfold fmt_block_quote. rewrite fully_quote_marked by exact L. rewrite El at 1. cbn [nth_line nth_error bind].
  replace (lstrip (c_gt :: t)) with (c_gt :: t) by (unfold lstrip; rewrite lstrip_by_id by reflexivity; reflexivity).
  rewrite Z.sub_diag. cbn [Z.to_nat rep repeat app].
  assert (U : Forall2 (unmarkedly p) lines (map strip_quote_marker ls)).
  { clear -F Hp. induction F as [|l' l lines ls H _ IH]; [constructor|]. cbn [map]. constructor; [|exact IH].
    apply quoted_unmarked; assumption. }
  set (xs := map strip_quote_marker ls) in *. clearbody xs. destruct Hp as [<-|[<-|[]]].
  - assert (xs = lines) as ->.
    { clear -U. induction U as [|l' x lines xs H _ IH]; [reflexivity|]. destruct H as [[_ ->]|[G _]]; [|discriminate].
      rewrite IH. reflexivity. }
    rewrite no_space_flush by exact Hf. cbv zeta. unfold quote_width in E. cbn [length lit Nat.eqb] in E.
    change (nest lim lines (width_sub (width_sub w 0) 1) = Ok out) in E. rewrite E. reflexivity.
  - assert (V : Forall2 (fun l' x => x = c_sp :: l' \/ (l' = [] /\ x = [])) lines xs).
    { clear -U. induction U as [|l' x lines xs H _ IH]; constructor; [|exact IH].
      destruct H as [[G _]|[_ H]]; [discriminate|exact H]. }
    rewrite (has_space_flush _ _ Hf V). cbv zeta.
    assert (M : map (fun line => match line with c :: line' => if N.eqb c c_sp then line' else line | [] => line end) xs = lines).
    { clear -V. induction V as [|l' x lines xs H _ IH]; [reflexivity|]. cbn [map]. rewrite IH.
      destruct H as [->|[-> ->]]; reflexivity. }
    rewrite M. change (nest lim lines (width_sub (width_sub (width_sub w 0) 1) 1) = Ok out) in E. rewrite E. reflexivity.
Qed.

(** A line of a quote in the output. *)
Lemma requote p l : In p [lit ">"; lit "> "] -> tidy l ->
  (l <> [] /\ strip (p ++ l) = p ++ l) \/ (l = [] /\ strip (p ++ l) = [c_gt]).
Proof.
  intros Hp Ht. destruct l as [|c l].
  - right. split; [reflexivity|]. destruct Hp as [<-|[<-|[]]]; reflexivity.
  - left. split; [discriminate|]. rewrite strip_quoted by exact Hp. apply tidy_id. apply tidy_app; [exact Ht|discriminate].
Qed.

Section Format.
  Variable inner : width -> list tree -> list section -> Prop.
  Hypothesis inner_ok : inner_lines inner.
  Hypothesis inner_widths : widths inner.
  Hypothesis inner_formats : formats inner.
  Hypothesis inner_shifts : shifts inner.

  (** ** List entries *)

  Lemma nest_document lim secs w : lines_of secs <> [] -> nest lim (lines_of secs) w = reformat_pass lim (document secs) w.
  Proof. intros H. unfold nest, document. fold (lines_of secs). rewrite newline_terminated_join by exact H. reflexivity. Qed.

  (** The text of an entry fits the marker [m] and the indentation [n]. *)
  Definition fitting (n : nat) (m : str) (ts : list tree) : Prop :=
    length m + 1 <= n /\ (length m + 1 = n \/ (n <= length m + 4 /\ plainly ts)).

  Lemma document_lines secs secs' : lines_of secs = lines_of secs' -> document secs = document secs'.
  Proof. unfold document. fold (lines_of secs) (lines_of secs'). intros ->. reflexivity. Qed.

  Lemma entry_formats w n m ts secs secs' :
    reformats (fun w => inner w ts) (width_sub w (Z.of_nat n)) secs secs' ->
    lines_of secs' = rendering (width_sub w (Z.of_nat n)) ts -> lines_of secs <> [] -> Forall entry_section secs -> fitting n m ts ->
    exists secs'', inner (width_sub w (Z.of_nat n)) ts secs'' /\ Forall entry_section secs''
      /\ lines_of secs'' = shifted (n - (length m + 1)) (lines_of secs')
      /\ exists N, forall lim, N <= lim ->
        format_entry (nest lim) m n w (lines_of secs) = Ok (str_join [c_nl] (hang n m (lines_of secs')))
        /\ format_entry (nest lim) m n w (lines_of secs'') = Ok (str_join [c_nl] (hang n m (lines_of secs'))).
  Proof.
    intros R Er Hn He [Hm Hf]. assert (Hn' := reformats_ne _ _ _ _ R). destruct (reformats_pass _ _ _ _ R) as (N & HN).
    assert (He' : Forall entry_section secs') by (eapply similar_entry; [exact (reformats_similar _ _ _ _ R)|exact He]).
    assert (Ho : Forall no_nl (lines_of secs')) by (apply good_no_nl, (reformats_good _ _ _ _ R)).
    assert (Hne : Forall (fun l => l <> []) (lines_of secs')).
    { eapply Forall_impl; [apply entry_line_ne|]. eapply inner_ok; [exact (reformats_inner _ _ _ _ R)|exact He']. }
    assert (S : exists secs'', inner (width_sub w (Z.of_nat n)) ts secs'' /\ Forall entry_section secs''
      /\ lines_of secs'' = shifted (n - (length m + 1)) (lines_of secs')
      /\ exists N, forall lim, N <= lim -> reformat_pass lim (document secs'') (width_sub w (Z.of_nat n)) = Ok (document secs')).
    { destruct Hf as [Hf|[Hf Hp]].
      - exists secs'. split; [exact (reformats_inner _ _ _ _ R)|]. split; [exact He'|]. rewrite <- Hf, Nat.sub_diag, shifted_0.
        split; [reflexivity|]. exists N. intros lim L. rewrite Hf. apply HN. exact L.
      - destruct (inner_shifts _ ts secs' (n - (length m + 1)) ltac:(lia) (reformats_inner _ _ _ _ R) He' (reformats_ink _ _ _ _ R He) Hp)
          as (secs'' & I & E & El).
        exists secs''. do 3 (split; [assumption|]). destruct (inner_formats _ ts secs'' I) as (secs3 & R3 & E3).
        + intros ->. cbn in El. destruct (lines_of secs'); [congruence|discriminate].
        + rewrite El. apply shifted_good. exact (reformats_good _ _ _ _ R).
        + destruct (reformats_pass _ _ _ _ R3) as (N3 & HN3). exists N3. intros lim L. destruct (HN3 lim L) as [P _]. rewrite P. f_equal.
          apply document_lines. congruence. }
    destruct S as (secs'' & I & E & El & N' & HN'). exists secs''. do 3 (split; [assumption|]). exists (N + N'). intros lim L.
    assert (Hn'' : lines_of secs'' <> []) by (rewrite El; destruct (lines_of secs'); [congruence|discriminate]).
    split; apply format_entry_lines; auto; rewrite nest_document by assumption; [rewrite (proj1 (HN lim ltac:(lia)))|rewrite (HN' lim) by lia]; reflexivity.
  Qed.

  Definition within_list (w : width) (n : nat) (ts : list tree) (secs : list section) : Prop :=
    forall w', narrower w (Z.of_nat n) w' -> inner w' ts secs.

  Lemma sub_narrower w n : narrower w n (width_sub w n).
  Proof. apply (narrower_sub w 0 n w). apply narrower_refl. Qed.

  (** The entries [secss''] are those of [secss'] as they are found after the markers [ms]. *)
  Definition found (n : nat) : list str -> list (list section) -> list (list section) -> Prop :=
    fun ms secss' secss'' => Forall2 (fun '(m, secs') secs'' => length m + 1 <= n
      /\ lines_of secs'' = shifted (n - (length m + 1)) (lines_of secs')) (combine ms secss') secss''.

  Lemma listing_hung w n ms tss secss secss'' k : length ms = length secss -> Forall marker ms -> found n ms secss secss'' ->
    Forall2 (fun ts secs => inner (width_sub w (Z.of_nat n)) ts secs /\ Forall entry_section secs) tss secss'' ->
    Forall (fun secs => lines_of secs <> []) secss ->
    listing (within_list w n) k ms (hung n ms secss) secss'' tss.
  Proof.
    unfold found. revert tss secss secss'' k. induction ms as [|m ms IH]; intros tss [|secs secss] secss'' k L Hm Hf Hs Hn; try discriminate.
    { inversion Hf; subst. inversion Hs; constructor. }
    unfold hung. cbn [combine map] in *. fold (hung n ms secss). inversion Hm; subst. inversion Hn; subst.
    inversion Hf as [|? secs'' ? secss0 Hle Hf']; subst. destruct Hle as [Hl El]. inversion Hs as [|ts ? tss' ? (H1' & H2') H4']; subst.
    apply (listing_next _ k [] m).
    - cbn. lia.
    - rewrite El. apply hang_entry; assumption.
    - intros w' Hw. eapply inner_widths; [|exact H1']. eapply narrower_same; [apply sub_narrower|exact Hw].
    - assumption.
    - apply IH; auto.
  Qed.

  (** The entries of a list, reformatted. *)
  Lemma list_formats w n k ms es secss tss ms' : listing (within_list w n) k ms es secss tss -> Forall good (concat es) ->
    Forall2 (fitting n) ms' tss ->
    exists secss' secss'', length secss' = length secss /\ length secss'' = length secss
    /\ map lines_of secss' = map (rendering (width_sub w (Z.of_nat n))) tss
    /\ found n ms' secss' secss''
    /\ Forall2 (fun ts secs => inner (width_sub w (Z.of_nat n)) ts secs /\ Forall entry_section secs) tss secss''
    /\ Forall (fun secs => lines_of secs <> []) secss'
    /\ Forall (fun secs => Forall one_line (lines_of secs) /\ Forall tidy (lines_of secs)
                 /\ Forall (fun l => l <> []) (lines_of secs)) secss'
    /\ (Forall steady (concat es) -> Forall (fun secs => Forall unlabelled (lines_of secs)) secss')
    /\ exists N, forall lim, N <= lim ->
         Forall2 (fun '(m, x) out => format_entry (nest lim) m n w x = Ok out)
                 (combine ms' (map lines_of secss)) (map (str_join [c_nl]) (hung n ms' secss'))
         /\ Forall2 (fun '(m, x) out => format_entry (nest lim) m n w x = Ok out)
                 (combine ms' (map lines_of secss'')) (map (str_join [c_nl]) (hung n ms' secss')).
  Proof.
    intros H. revert ms'. induction H as [|k ws m ts secs e ms es secss tss _ He Hs Hes _ IH]; intros ms' Hg Hf.
    { inversion Hf; subst. exists [], []. do 7 (split; [constructor|]). split; [intros _; constructor|]. exists 0. intros lim _. split; constructor. }
    inversion Hf as [|m1 ts1 ms1 tss1 Hf1 Hf2]; subst. cbn [concat] in Hg. apply Forall_app in Hg. destruct Hg as [Hg1 Hg2].
    destruct (IH ms1 Hg2 Hf2) as (secss' & secss'' & L1 & L2 & Er & Fo & I & Ne & T & St & N & HN).
    assert (Hne : lines_of secs <> []) by (destruct He as (l & r & r' & E & _); rewrite E; discriminate).
    destruct (inner_formats (width_sub w (Z.of_nat n)) ts secs) as (secs' & R & El).
    { apply Hs, sub_narrower. }
    { intros ->. apply Hne. reflexivity. }
    { eapply suffixes_good; [eapply entry_suffixes; exact He|exact Hg1]. }
    destruct (entry_formats w n m1 ts secs secs' R El Hne Hes Hf1) as (secs'' & I1 & I2 & Es & N1 & HN1).
    assert (He' : Forall entry_section secs') by (eapply similar_entry; [exact (reformats_similar _ _ _ _ R)|exact Hes]).
    exists (secs' :: secss'), (secs'' :: secss''). split; [cbn; congruence|]. split; [cbn; congruence|].
    split; [cbn [map]; congruence|]. split; [|split; [|split; [|split; [|split]]]].
    - constructor; [|exact Fo]. split; [apply Hf1|exact Es].
    - constructor; auto.
    - constructor; [exact (reformats_ne _ _ _ _ R)|exact Ne].
    - constructor; [|exact T]. split; [|split; [exact (reformats_tidy _ _ _ _ R)|]].
      + eapply Forall_impl; [|exact (reformats_good _ _ _ _ R)]. intros l [Hl _]. exact Hl.
      + eapply Forall_impl; [apply entry_line_ne|]. eapply inner_ok; [exact (reformats_inner _ _ _ _ R)|exact He'].
    - cbn [concat]. intros Hst. apply Forall_app in Hst. destruct Hst as [Hs1 Hs2]. constructor; [|apply St; exact Hs2].
      apply (reformats_steady _ _ _ _ R). eapply suffixes_steady; [eapply entry_suffixes; exact He|exact Hs1].
    - exists (N + N1). intros lim L. destruct (HN lim ltac:(lia)) as [V1 V2]. destruct (HN1 lim ltac:(lia)) as [U1 U2].
      unfold hung. cbn [combine map]. split; constructor; assumption.
  Qed.

  (** ** Sections *)

  Record nformatted (w : width) (t : tree) (ty : section_type) (ls ls' : list str) : Prop := {
    nformatted_block : nblock inner w t ty ls';
    nformatted_one_line : Forall one_line ls';
    nformatted_text : exists N, forall lim, N <= lim -> forall i,
      section_text lim w i ty ls (str_join [c_nl] ls') /\ section_text lim w i ty ls' (str_join [c_nl] ls');
    nformatted_similar : similar (ty, ls) (ty, ls');
    nformatted_ink : ty <> BLANK_LINE -> ty <> INDENTED_CODE_BLOCK -> in_ink ls';
    nformatted_tidy : Forall tidy ls';
    nformatted_steady : Forall steady ls -> Forall unlabelled ls';
    nformatted_lines : ls' = tree_lines w t
  }.

  Lemma hung_ne n ms secss : Forall (fun secs => lines_of secs <> []) secss -> Forall (fun ls => ls <> []) (hung n ms secss).
  Proof.
    intros H. unfold hung. apply Forall_map. apply Forall_forall. intros [m secs] Hin. apply in_combine_r in Hin.
    rewrite Forall_forall in H. specialize (H secs Hin). destruct (lines_of secs); [congruence|discriminate].
  Qed.

  (** The first line of a list. *)
  Lemma listing_first P k m ms es secss tss : listing P k (m :: ms) es secss tss ->
    exists ws l more, concat es = (ws ++ m ++ c_sp :: l) :: more /\ spaces ws.
  Proof.
    intros H. inversion H as [|n' ws m' ts secs e ms' es' secss' tss' Hn He Hs Hes Hr]; subst.
    destruct He as (l & r & r' & E & -> & Hw & Hm & _). exists ws, l, (r ++ concat es'). split; [reflexivity|exact Hw].
  Qed.

  Lemma within_text w n : entry_text (within_list w n).
  Proof. apply entry_text_narrower. exact inner_ok. Qed.

  Lemma bullet_text lim w b k ms es secss tss outs :
    In b [c_star; c_plus; c_dash] -> listing (within_list w 2) k ([b] :: ms) es secss tss -> Forall no_nl (concat es) ->
    Forall2 (fun '(m, x) out => format_entry (nest lim) m 2 w x = Ok out)
            (combine (repeat [b] (length secss)) (map lines_of secss)) outs ->
    fmt_bullet_list (nest lim) (concat es) w = Ok (str_join [c_nl] outs).
  Proof.
    intros Hb H Hn Ho. destruct (split_list_entries _ _ _ _ _ _ _ (within_text w 2) H Hn) as [E1 E2].
    destruct (listing_first _ _ _ _ _ _ _ H) as (ws & l & more & E & Hw).
    unfold fmt_bullet_list. rewrite E1. cbn [bind]. rewrite E2. cbn [bind]. rewrite E. cbn [nth_line nth_error bind].
    unfold lstrip. rewrite lstrip_by_app by (apply spaces_forallb; exact Hw). cbn [app].
    rewrite lstrip_by_id by (cbn in Hb; intuition (subst; reflexivity)). cbn [first_char bind].
    assert (G : mapM (format_entry (nest lim) [b] 2 w) (map lines_of secss) = Ok outs).
    { apply mapM_ok. clear -Ho. remember (length secss) as n eqn:En. assert (L : length (map lines_of secss) = n) by (rewrite map_length; lia).
      clear En. revert n L outs Ho. induction (map lines_of secss) as [|x xs IH]; intros n L outs Ho.
      - destruct n; [|discriminate]. inversion Ho. constructor.
      - destruct n; [discriminate|]. cbn [repeat combine] in Ho. inversion Ho; subst. constructor; [assumption|].
        eapply IH; [|eassumption]. cbn in L. lia. }
    rewrite G. reflexivity.
  Qed.

  Lemma similar_list ty ls ls' : ty <> INDENTED_CODE_BLOCK ->
    (forall x, is_digit x = false -> begins x ls' -> begins x ls) -> similar (ty, ls) (ty, ls').
  Proof. intros H G. split; [reflexivity|]. split; [exact G|]. intros E. cbn in E. congruence. Qed.

  Lemma bullets_hung b secss tss w' : map lines_of secss = map (rendering w') tss ->
    concat (hung 2 (repeat [b] (length secss)) secss) = concat (map (fun ts => hanging 2 [b] (rendering w' ts)) tss).
  Proof.
    revert tss. induction secss as [|secs secss IH]; intros [|ts tss] E; try discriminate; [reflexivity|].
    cbn [map] in E. injection E as E1 E2. unfold hung. cbn [length repeat combine map concat]. fold (hung 2 (repeat [b] (length secss)) secss).
    rewrite (IH tss E2), E1. destruct (rendering w' ts); reflexivity.
  Qed.

  Lemma bullet_formats w t ls : nblock inner w t BULLET_LIST ls -> Forall good ls ->
    exists ls', nformatted w t BULLET_LIST ls ls'.
  Proof.
    intros (b & tss & ms & -> & Hb & He) Hg. apply entries_listing in He. destruct He as (es & secss & -> & He).
    change (listing (within_list w 2) 3 ([b] :: ms) es secss tss) in He.
    destruct (listing_length _ _ _ _ _ _ He) as [L1 L2]. cbn [length] in L1, L2. assert (L3 := listing_trees _ _ _ _ _ _ He).
    set (ms' := repeat [b] (length secss)). assert (Lm : length ms' = length secss) by apply repeat_length.
    assert (Mk : Forall marker ms').
    { apply Forall_forall. intros m Hm. apply repeat_spec in Hm. subst m. left. eauto. }
    assert (Mn : Forall2 (fitting 2) ms' tss).
    { unfold ms'. rewrite <- L3. clear. induction tss as [|ts tss IH]; cbn [length repeat]; constructor; [|exact IH].
      split; [cbn; lia|]. left. reflexivity. }
    destruct (list_formats _ _ _ _ _ _ _ _ He Hg Mn) as (secss' & secss'' & L & L' & Er & Fo & I & Ne & T & St & N & HN).
    assert (He' : listing (within_list w 2) 3 ms' (hung 2 ms' secss') secss'' tss) by (apply listing_hung; [lia|exact Mk|exact Fo|exact I|exact Ne]).
    assert (Em : ms' = [b] :: repeat [b] (length ms)) by (unfold ms'; rewrite L2; reflexivity).
    assert (Hh : Forall (fun ls => ls <> []) (hung 2 ms' secss')) by (apply hung_ne; exact Ne).
    assert (O : Forall one_line (concat (hung 2 ms' secss'))).
    { apply hung_concat; [intros p l _ Hp Hl _; apply Forall_app; auto|exact Mk|].
      eapply Forall_impl; [|exact T]. cbn. tauto. }
    exists (concat (hung 2 ms' secss')). constructor.
    - exists b, tss, (repeat [b] (length ms)). split; [reflexivity|]. split; [exact Hb|]. rewrite <- Em. apply listing_entries in He'. exact He'.
    - exact O.
    - exists N. intros lim Hl i. destruct (HN lim Hl) as [H1 H2]. rewrite <- join_lines by exact Hh.
      unfold section_text. cbn [reformatted]. fold (nest lim). split.
      + eapply bullet_text; [exact Hb|exact He|apply good_no_nl; exact Hg|exact H1].
      + rewrite Em in He'. eapply bullet_text; [exact Hb|rewrite Em; exact He'| |].
        * eapply Forall_impl; [|exact O]. apply one_line_nl.
        * rewrite L'. exact H2.
    - apply similar_list; [discriminate|]. intros x _ Hx.
      rewrite Em in He'. destruct (listing_first _ _ _ _ _ _ _ He) as (ws & l & more & E & Hw).
      rewrite Em in Hx. destruct (listing_first _ _ _ _ _ _ _ He') as (ws' & l' & more' & E' & Hw').
      rewrite E' in Hx. rewrite E. cbn [app] in *.
      assert (Hs : is_space b = false) by (cbn in Hb; intuition (subst; reflexivity)).
      apply begins_unique in Hx; auto. subst x. apply begins_of; assumption.
    - intros _ _. rewrite Em. unfold hung. destruct secss' as [|secs secss']; [cbn in L; lia|].
      cbn [combine map concat]. inversion Ne as [|? ? I1 _]; subst. destruct (lines_of secs) as [|l0 r0]; [congruence|].
      cbn [hang app]. exists b, (c_sp :: l0). eexists. split; [reflexivity|]. cbn in Hb. intuition (subst; reflexivity).
    - apply hung_concat; [intros p l _ _ Hl Hn; apply tidy_app; assumption|exact Mk|]. eapply Forall_impl; [|exact T]. cbn. tauto.
    - intros Hs. specialize (St Hs). apply hung_concat; [intros p l Hp _ Hl Hn; apply unlabelled_app; assumption|exact Mk|].
      rewrite Forall_forall in *. intros secs Hin. split; [apply St; exact Hin|apply T; exact Hin].
    - unfold ms'. rewrite <- L. apply (bullets_hung b secss' tss (width_sub w 2)). exact Er.
  Qed.

  (** ** Numbered lists *)

  Definition numerals (start : N) {A} (l : list A) : list str := map (fun x => dec (fst x) ++ [c_dot]) (enumerate start l).

  Lemma numerals_cons {A} start (a : A) l : numerals start (a :: l) = (dec start ++ [c_dot]) :: numerals (start + 1) l.
  Proof. reflexivity. Qed.

  Lemma numerals_length {A} start (l : list A) : length (numerals start l) = length l.
  Proof. unfold numerals. rewrite map_length. apply enumerate_length. Qed.

  Lemma numerals_same {A B} start (l : list A) (l' : list B) : length l = length l' -> numerals start l = numerals start l'.
  Proof.
    revert start l'. induction l as [|a l IH]; intros start [|b l'] E; try discriminate; [reflexivity|].
    rewrite !numerals_cons. f_equal. apply IH. cbn in E. lia.
  Qed.

  Lemma dec_digits n : digits (dec n) /\ digits_val (dec n) = n.
  Proof. destruct (dec_decimal n) as (H & E & _). auto. Qed.

  Lemma numerals_marker {A} start (l : list A) : Forall marker (numerals start l).
  Proof.
    revert start. induction l as [|a l IH]; intros start; [constructor|]. rewrite numerals_cons. constructor; [|apply IH].
    right. exists (dec start). split; [reflexivity|apply dec_digits].
  Qed.

  Lemma numerals_width a (l : list (list tree)) first last n :
    decimal a first -> decimal (a + N.of_nat n) last ->
    length first = length last \/ length last <= length first + 3 /\ Forall plainly l -> length l <= S n ->
    Forall2 (fitting (length last + 2)) (numerals a l) l.
  Proof.
    intros Hf Hl Hn Hlen.
    assert (G : forall k (l : list (list tree)), (a <= k)%N -> (k + N.of_nat (length l) <= a + N.of_nat n + 1)%N ->
              length first = length last \/ length last <= length first + 3 /\ Forall plainly l ->
              Forall2 (fitting (length last + 2)) (numerals k l) l).
    { clear l Hlen Hn. intros k l. revert k. induction l as [|x l IH]; intros k H1 H2 Hn; [constructor|].
      rewrite numerals_cons. cbn [length] in H2. constructor.
      2: { apply IH; [lia|lia|]. destruct Hn as [Hn|[Hn Hp]]; [left; exact Hn|right; split; [exact Hn|exact (Forall_inv_tail Hp)]]. }
      unfold fitting. rewrite app_length. cbn [length].
      assert (D := dec_decimal k). assert (D1 := decimal_length _ _ _ _ Hf D ltac:(lia)).
      assert (D2 := decimal_length _ _ _ _ D Hl ltac:(lia)). split; [lia|].
      destruct Hn as [Hn|[Hn Hp]]; [left; lia|right]. split; [lia|exact (Forall_inv Hp)]. }
    apply G; [lia|lia|exact Hn].
  Qed.

  Lemma ordered_text lim w ds k ms es secss tss outs n :
    digits ds -> listing (within_list w n) k ((ds ++ [c_dot]) :: ms) es secss tss -> Forall no_nl (concat es) ->
    n = length (dec (digits_val ds + N.of_nat (length ms))) + 2 ->
    Forall2 (fun '(m, x) out => format_entry (nest lim) m n w x = Ok out)
            (combine (numerals (digits_val ds) secss) (map lines_of secss)) outs ->
    fmt_ordered_list (nest lim) (concat es) w = Ok (str_join [c_nl] outs).
  Proof.
    intros Hd H Hn En Ho. destruct (split_list_entries _ _ _ _ _ _ _ (within_text w n) H Hn) as [E1 E2].
    destruct (listing_first _ _ _ _ _ _ _ H) as (ws & l & more & E & Hw).
    destruct (listing_length _ _ _ _ _ _ H) as [L1 L2]. cbn [length] in L1, L2.
    unfold fmt_ordered_list. rewrite E1. cbn [bind]. rewrite E. cbn [nth_line nth_error bind].
    assert (Ef : first_number (ws ++ (ds ++ [c_dot]) ++ c_sp :: l) = Ok (digits_val ds)).
    { unfold first_number, lstrip. rewrite lstrip_by_app by (apply spaces_forallb; exact Hw). rewrite <- app_assoc. cbn [app].
      destruct Hd as [Hdn Hdd]. rewrite lstrip_by_id.
      - rewrite take_digits by (assumption || reflexivity). destruct ds; [congruence|reflexivity].
      - destruct ds as [|d ds]; [congruence|]. cbn [app]. apply digit_not_space. exact (Forall_inv Hdd). }
    rewrite Ef. cbn [bind]. rewrite E2. cbn [bind].
    replace (digits_val ds + N.of_nat (length es) - 1)%N with (digits_val ds + N.of_nat (length ms))%N by lia.
    rewrite <- En.
    assert (G : mapM (fun '(k, entry) => format_entry (nest lim) (dec k ++ [c_dot]) n w entry)
                     (enumerate (digits_val ds) (map lines_of secss)) = Ok outs).
    { apply mapM_ok. clear -Ho. revert Ho. generalize (digits_val ds) as a. revert outs.
      induction secss as [|secs secss IH]; intros outs a Ho; [inversion Ho; constructor|].
      rewrite numerals_cons in Ho. cbn [map combine] in Ho. inversion Ho; subst. cbn [map enumerate].
      constructor; [assumption|]. apply IH. assumption. }
    rewrite G. reflexivity.
  Qed.

  Lemma numbers_hung n a secss tss w' : map lines_of secss = map (rendering w') tss ->
    concat (hung n (numerals a secss) secss) = numbering n a (map (rendering w') tss).
  Proof.
    revert a tss. induction secss as [|secs secss IH]; intros a [|ts tss] E; try discriminate; [reflexivity|].
    cbn [map] in E. injection E as E1 E2. rewrite numerals_cons. unfold hung. cbn [combine map concat]. fold (hung n (numerals (a + 1) secss) secss).
    rewrite (IH _ tss E2), E1. cbn [map numbering]. reflexivity.
  Qed.

  Lemma ordered_formats w t ls : nblock inner w t ORDERED_LIST ls -> Forall good ls ->
    exists ls', nformatted w t ORDERED_LIST ls ls'.
  Proof.
    intros (ds & tss & ms & first & last & -> & Hds & Hf & Hl & Hfl & He) Hg. apply entries_listing in He. destruct He as (es & secss & -> & He).
    set (n := length last + 2). assert (Ez : (Z.of_nat (length last) + 2)%Z = Z.of_nat n) by (unfold n; lia).
    rewrite Ez in He. change (listing (within_list w n) 3 ((ds ++ [c_dot]) :: ms) es secss tss) in He.
    destruct (listing_length _ _ _ _ _ _ He) as [L1 L2]. cbn [length] in L1, L2. assert (L3 := listing_trees _ _ _ _ _ _ He).
    set (a := digits_val ds) in *.
    assert (En : n = length (dec (a + N.of_nat (length ms))) + 2).
    { unfold n. f_equal. assert (D := dec_decimal (a + N.of_nat (length ms))).
      apply Nat.le_antisymm; eapply decimal_length; eauto; lia. }
    set (ms' := numerals a secss). assert (Lm : length ms' = length secss) by apply numerals_length.
    assert (Mk : Forall marker ms') by apply numerals_marker.
    assert (Mn : Forall2 (fitting n) ms' tss).
    { unfold ms'. rewrite (numerals_same a secss tss) by lia. eapply numerals_width; eauto. lia. }
    destruct (list_formats _ _ _ _ _ _ _ _ He Hg Mn) as (secss' & secss'' & L & L' & Er & Fo & I & Ne & T & St & N & HN).
    assert (He' : listing (within_list w n) 3 ms' (hung n ms' secss') secss'' tss) by (apply listing_hung; [lia|exact Mk|exact Fo|exact I|exact Ne]).
    assert (Em : exists rest, ms' = (dec a ++ [c_dot]) :: rest /\ length rest = length ms).
    { destruct secss as [|secs secss]; [discriminate|]. unfold ms'. rewrite numerals_cons. eexists. split; [reflexivity|].
      rewrite numerals_length. cbn in L2. lia. }
    destruct Em as (rest & Em & Lr).
    assert (Hh : Forall (fun ls => ls <> []) (hung n ms' secss')) by (apply hung_ne; exact Ne).
    assert (O : Forall one_line (concat (hung n ms' secss'))).
    { apply hung_concat; [intros p l _ Hp Hl' _; apply Forall_app; auto|exact Mk|].
      eapply Forall_impl; [|exact T]. cbn. tauto. }
    destruct (dec_digits a) as [Da Ea].
    exists (concat (hung n ms' secss')). constructor.
    - exists (dec a), tss, rest, first, last. rewrite Ea, Lr. split; [reflexivity|]. repeat (split; [assumption|]). rewrite <- Em, Ez.
      apply listing_entries in He'. exact He'.
    - exact O.
    - exists N. intros lim Hlim i. destruct (HN lim Hlim) as [H1 H2]. rewrite <- join_lines by exact Hh.
      unfold section_text. cbn [reformatted]. fold (nest lim). split.
      + eapply ordered_text; [exact Hds|exact He|apply good_no_nl; exact Hg|exact En|exact H1].
      + rewrite Em in He'. eapply ordered_text; [exact Da|rewrite Em; exact He'| | |].
        * eapply Forall_impl; [|exact O]. apply one_line_nl.
        * rewrite Ea, Lr. exact En.
        * rewrite Ea, (numerals_same a secss'' secss) by lia. exact H2.
    - apply similar_list; [discriminate|]. intros x Hxd Hx. exfalso.
      rewrite Em in He', Hx. destruct (listing_first _ _ _ _ _ _ _ He') as (ws' & l' & more' & E' & Hw').
      rewrite E' in Hx. destruct Da as [Dn Dd]. destruct (dec a) as [|d dd]; [congruence|]. cbn [app] in Hx.
      apply Forall_inv in Dd. apply begins_unique in Hx; auto; [subst x; congruence|]. apply digit_not_space. exact Dd.
    - intros _ _. rewrite Em. unfold hung. destruct secss' as [|secs secss']; [cbn in L; lia|].
      cbn [combine map concat]. inversion Ne as [|? ? I1 _]; subst. destruct (lines_of secs) as [|l0 r0]; [congruence|].
      destruct Da as [Dn Dd]. destruct (dec a) as [|d dd]; [congruence|]. cbn [hang app].
      exists d. eexists. eexists. split; [reflexivity|]. apply digit_not_space. exact (Forall_inv Dd).
    - apply hung_concat; [intros p l _ _ Hl' Hn; apply tidy_app; assumption|exact Mk|]. eapply Forall_impl; [|exact T]. cbn. tauto.
    - intros Hs. specialize (St Hs). apply hung_concat; [intros p l Hp _ Hl' Hn; apply unlabelled_app; assumption|exact Mk|].
      rewrite Forall_forall in *. intros secs Hin. split; [apply St; exact Hin|apply T; exact Hin].
    - unfold ms'. assert (Ert := Er). rewrite (numerals_same a secss secss') by lia. rewrite (numbers_hung n a secss' tss _ Er). cbn [tree_lines].
      assert (Lt : length tss = S (length ms)) by (apply (f_equal (@length _)) in Ert; rewrite !map_length in Ert; lia).
      replace (a + N.of_nat (length tss) - 1)%N with (a + N.of_nat (length ms))%N by lia.
      rewrite app_length. cbn [length]. rewrite <- En, beside_sub. reflexivity.
  Qed.

  Lemma tidy_quote_lines p lines : In p [lit ">"; lit "> "] -> Forall tidy lines ->
    map (fun l => strip (p ++ l)) lines = quote_lines p lines.
  Proof.
    intros Hp H. apply map_ext_in. intros l Hl. rewrite Forall_forall in H.
    destruct (requote p l Hp (H l Hl)) as [[Hn ->]|[-> ->]]; [destruct l; [congruence|reflexivity]|reflexivity].
  Qed.

  Definition gt_first (ls : list str) : Prop := exists t rest, ls = (c_gt :: t) :: rest.

  Lemma quote_formats w t ls : nblock inner w t BLOCK_QUOTE ls -> Forall good ls ->
    exists ls', nformatted w t BLOCK_QUOTE ls ls'.
  Proof.
    intros (ts & p & secs & -> & Hq & Hs) Hg. fold (lines_of secs) in Hq. assert (Hq' := Hq).
    destruct Hq' as (Hp & Hf & F & (t & rest & El) & Hst).
    assert (Hi : inner (quote_width w p) ts secs) by (apply Hs, quote_width_narrower; exact Hp).
    assert (Suf : Forall2 (fun l x : str => exists q, x = q ++ l) (lines_of secs) ls).
    { clear -F. induction F as [|l' l lines ls (k & _ & H) _ IH]; constructor; [|exact IH].
      destruct H as [->|[-> ->]]; [exists (repeat c_sp k ++ p); rewrite app_assoc|exists (repeat c_sp k ++ [c_gt]); rewrite app_nil_r]; reflexivity. }
    assert (Hne : lines_of secs <> []) by (rewrite El in F; inversion F; discriminate).
    destruct (inner_formats _ ts secs Hi) as (secs' & R & Er).
    { intros ->. apply Hne. reflexivity. }
    { eapply suffixes_good; [exact Suf|exact Hg]. }
    assert (Un : Forall unlabelled (lines_of secs')).
    { apply (reformats_steady _ _ _ _ R). eapply suffixes_steady; [exact Suf|exact Hst]. }
    assert (Ti := reformats_tidy _ _ _ _ R). assert (Go := reformats_good _ _ _ _ R). assert (Hne' := reformats_ne _ _ _ _ R).
    set (ls' := map (fun l => strip (p ++ l)) (lines_of secs')).
    assert (Tl : Forall (fun l => exists l0, In l0 (lines_of secs') /\ ((l0 <> [] /\ l = p ++ l0) \/ (l0 = [] /\ l = [c_gt]))) ls').
    { apply Forall_map, Forall_forall. intros l Hl. exists l. split; [exact Hl|]. rewrite Forall_forall in Ti.
      apply requote; auto. }
    assert (Tidy : Forall tidy ls').
    { eapply Forall_impl; [|exact Tl]. intros l (l0 & Hl0 & [[H ->]|[_ ->]]).
      - apply tidy_app; [|exact H]. rewrite Forall_forall in Ti. auto.
      - apply (tidy_snoc [] c_gt). reflexivity. }
    assert (Unl : Forall unlabelled ls').
    { eapply Forall_impl; [|exact Tl]. intros l (l0 & Hl0 & [[H ->]|[_ ->]]).
      - apply unlabelled_app; [rewrite Forall_forall in Un; auto| |exact H].
        intros a E. destruct Hp as [<-|[<-|[]]].
        + change (lit ">") with ([] ++ [c_gt]) in E. apply app_inj_tail in E. destruct E as [_ E]. discriminate.
        + change (lit "> ") with ([c_gt] ++ [c_sp]) in E. apply app_inj_tail in E. destruct E as [_ E]. discriminate.
      - apply (unlabelled_last [] c_gt). discriminate. }
    assert (Hq' : quoting p (lines_of secs') ls').
    { split; [exact Hp|]. split; [apply (reformats_flush _ _ _ _ R); exact Hf|]. split; [|split].
      - unfold ls'. clear -Ti Hp. induction Ti as [|l lines Hl _ IH]; cbn [map]; constructor; [|exact IH].
        exists 0. split; [lia|]. cbn [repeat app]. destruct (requote p l Hp Hl) as [[_ ->]|[-> ->]]; auto.
      - unfold ls' in *. destruct (lines_of secs') as [|l lines]; [congruence|]. cbn [map] in *. apply Forall_inv in Ti.
        destruct (requote p l Hp Ti) as [[_ ->]|[_ ->]]; [|exists [], (map (fun l => strip (p ++ l)) lines); reflexivity].
        destruct Hp as [<-|[<-|[]]]; cbn [app]; eexists; eexists; reflexivity.
      - rewrite Forall_forall in *. intros l Hl. apply tidy_steady; auto. }
    assert (Hg' : gt_first ls').
    { destruct Hq' as (_ & _ & _ & (t' & rest' & E) & _). exists t', rest'. exact E. }
    exists ls'. constructor.
    - exists ts, p, secs'. split; [reflexivity|]. split; [exact Hq'|]. intros w' Hw. eapply inner_widths; [|exact (reformats_inner _ _ _ _ R)].
      eapply narrower_same; [apply quote_width_narrower; exact Hp|exact Hw].
    - eapply Forall_impl; [|exact Tl]. intros l (l0 & Hl0 & H). rewrite Forall_forall in Go. destruct (Go l0 Hl0) as [Ho _].
      destruct H as [[_ ->]|[_ ->]]; [|constructor; [reflexivity|constructor]]. apply Forall_app. split; [|exact Ho].
      destruct Hp as [<-|[<-|[]]]; repeat constructor.
    - destruct (reformats_pass _ _ _ _ R) as (N & HN). exists N. intros lim L i. destruct (HN lim L) as [P1 P2].
      assert (Sp : splitlines (document secs') = lines_of secs').
      { unfold document. fold (lines_of secs'). apply splitlines_newline_terminated.
        eapply Forall_impl; [|exact Go]. intros l [Hl _]. exact Hl. }
      unfold section_text. cbn [reformatted]. fold (nest lim). unfold ls' at 1 3. rewrite <- Sp. split.
      + eapply quote_text; [exact Hq|]. rewrite nest_document by exact Hne. exact P1.
      + eapply quote_text; [exact Hq'|]. rewrite nest_document by exact Hne'. exact P2.
    - apply similar_list; [discriminate|]. intros x _ Hx. destruct Hg' as (t' & rest' & E). rewrite E in Hx.
      apply (begins_unique x [] c_gt) in Hx; [|constructor|reflexivity]. subst x. rewrite El.
      apply (begins_of [] c_gt); [constructor|reflexivity].
    - intros _ _. destruct Hg' as (t' & rest' & E). rewrite E. exists c_gt, t', rest'. auto.
    - exact Tidy.
    - intros _. exact Unl.
    - unfold ls'. rewrite tidy_quote_lines by assumption. rewrite Er. cbn [tree_lines]. f_equal.
      apply (rendering_width w (Z.of_nat (length p))); [apply quote_width_narrower; exact Hp|].
      rewrite beside_sub. apply sub_narrower.
  Qed.

  (** ** Other sections *)

  Definition leaf (ty : section_type) : Prop := ~ In ty [BLOCK_QUOTE; BULLET_LIST; ORDERED_LIST].

  Lemma leaf_text lim lim' w i ty ls r : leaf ty -> section_text lim w i ty ls r -> section_text lim' w i ty ls r.
  Proof. intros H. unfold section_text. destruct ty; try (exfalso; apply H; cbn; tauto); exact (fun x => x). Qed.

  Lemma leaf_formats w t ty ls ls' : leaf ty -> formatted 0 w ty ls ls' -> nblock inner w t ty ls' -> Forall tidy ls' ->
    (exists p, t = Leaf p /\ content ty ls p) -> nformatted w t ty ls ls'.
  Proof.
    intros Hl H Hb Ht (p & -> & Hp). constructor.
    - exact Hb.
    - exact (formatted_one_line _ _ _ _ _ H).
    - exists 0. intros lim _ i. split; eapply (leaf_text 0 lim); try exact Hl.
      + apply (formatted_text _ _ _ _ _ H).
      + apply (formatted_stable _ _ _ _ _ H).
    - apply (formatted_similar 0 w (ty, ls) (ty, ls')). split; [reflexivity|exact H].
    - exact (formatted_ink _ _ _ _ _ H).
    - exact Ht.
    - exact (formatted_steady _ _ _ _ _ H).
    - destruct (formatted_lines _ _ _ _ _ H) as (p' & Hp' & ->). rewrite (content_unique _ _ _ _ Hp Hp'). reflexivity.
  Qed.

  Lemma titled_heading l : atx_line l -> titled l ->
    exists n text, atx_heading l n text /\ text <> [] /\ tidy text.
  Proof.
    intros (u & b & E & Hu & Lu) (ws & n & body & -> & Hw & Hn & Hb & Hs). exists n, (strip body). split; [|split].
    - exists ws, body. split; [reflexivity|]. split; [exact Hw|]. split.
      + destruct n as [|n]; [lia|]. cbn [repeat app] in E. apply first_char_unique in E; try assumption; try reflexivity.
        destruct E as (-> & _). exact Lu.
      + split; [exact Hn|]. split; [exact Hb|]. apply trims_strip. reflexivity.
    - intros E0. apply Hs. apply blank_iff. unfold blank. rewrite E0. reflexivity.
    - apply tidy_strip.
  Qed.

  Lemma content_kept w ty ls ls' (t : tree) : formatted 0 w ty ls ls' ->
    (exists p, t = Leaf p /\ content ty ls p) -> exists p, t = Leaf p /\ content ty ls' p.
  Proof. intros G (p & E & H). exists p. split; [exact E|]. apply (formatted_content _ _ _ _ _ G). exact H. Qed.

  Lemma nblock_formats w t ty ls : nblock inner w t ty ls -> Forall good ls -> exists ls', nformatted w t ty ls ls'.
  Proof.
    intros H Hg. assert (Ho : Forall one_line ls) by (eapply Forall_impl; [|exact Hg]; intros l [Hl _]; exact Hl).
    destruct ty; try (apply quote_formats; assumption); try (apply bullet_formats; assumption);
      try (apply ordered_formats; assumption); cbn [nblock] in H; destruct H as (H & Hp & Ht & Hw);
      try (destruct (block_formats 0 w _ ls H Ho) as (ls' & G); [discriminate|]; exists ls';
           apply leaf_formats; [cbn; unfold leaf; cbn; intuition discriminate|exact G|
             cbn [nblock]; split; [exact (formatted_block _ _ _ _ _ G)|]; split; [exact (content_kept _ _ _ _ _ G Hp)|];
               split; discriminate|
             apply (formatted_tidy _ _ _ _ _ G); discriminate|exact Hp]; fail).
    - specialize (Ht eq_refl). destruct H as (l & -> & H). apply Forall_inv in Ht, Ho.
      destruct (titled_heading l H Ht) as (n & text & A & Hn & Hti).
      assert (G := format_atx_heading 0 w l n text A Ho).
      exists [repeat c_hash n ++ [c_sp] ++ text]. apply leaf_formats.
      + unfold leaf. cbn. intuition discriminate.
      + exact G.
      + cbn [nblock]. split; [exact (formatted_block _ _ _ _ _ G)|]. split; [exact (content_kept _ _ _ _ _ G Hp)|].
        split; [intros _|discriminate]. constructor; [|constructor].
        exists [], n, ([c_sp] ++ text). split; [reflexivity|]. split; [constructor|].
        split; [destruct A as (ws & body & _ & _ & _ & A & _); exact A|]. split; [discriminate|].
        intros E. destruct text as [|c text _] using rev_ind; [congruence|].
        assert (Hc := Hti text c eq_refl). apply Forall_app in E. destruct E as [_ E]. apply Forall_app in E. destruct E as [_ E].
        apply Forall_inv in E. congruence.
      + constructor; [|constructor]. rewrite app_assoc. apply tidy_app; assumption.
      + exact Hp.
    - destruct (block_formats 0 w _ ls H Ho) as (ls' & G); [auto|]. exists ls'.
      apply leaf_formats; [unfold leaf; cbn; intuition discriminate|exact G| |apply (formatted_tidy _ _ _ _ _ G); discriminate|exact Hp].
      cbn [nblock]. split; [exact (formatted_block _ _ _ _ _ G)|]. split; [exact (content_kept _ _ _ _ _ G Hp)|]. split; [discriminate|exact Hw].
  Qed.

  (** ** Documents *)

  Lemma nends_similar ty ls ls' next next' : similar (ty, ls) (ty, ls') -> Forall2 similar next next' ->
    nends ty ls next -> nends ty ls' next'.
  Proof.
    intros Hs F H.
    assert (T : forall ty' ls'' r, next' = (ty', ls'') :: r -> exists ls0 r0, next = (ty', ls0) :: r0).
    { intros ty' ls'' r ->. inversion F as [|[ty0 ls0] ? r0 ? (E & _) _]; subst. cbn in E. subst ty0. eauto. }
    destruct ty; try (eapply ends_before_similar; eassumption).
    all: intros ty' ls'' r E; destruct (T ty' ls'' r E) as (ls0 & r0 & E'); exact (H ty' ls0 r0 E').
  Qed.

  Definition nsection (w : width) (s s' : section) : Prop :=
    fst s = fst s' /\ exists t, nformatted w t (fst s) (snd s) (snd s').

  Lemma nsection_similar w secs secs' : Forall2 (nsection w) secs secs' -> Forall2 similar secs secs'.
  Proof.
    induction 1 as [|[ty ls] [ty' ls'] secs secs' (E & t & H) _ IH]; constructor; [|exact IH]. cbn in E. subst ty'.
    exact (nformatted_similar _ _ _ _ _ H).
  Qed.

  Lemma doc_formatted w ts secs : doc inner w ts secs -> Forall good (lines_of secs) ->
    exists secs', doc inner w ts secs' /\ Forall2 (nsection w) secs secs' /\ lines_of secs' = rendering w ts.
  Proof.
    induction 1 as [|t ts ty ls next Hb Ho He H IH]; intros Hg; [exists []; repeat constructor|].
    rewrite lines_of_cons in Hg. apply Forall_app in Hg. destruct Hg as [Hg1 Hg2].
    destruct (IH Hg2) as (next' & D & F & El). destruct (nblock_formats w t ty ls Hb Hg1) as (ls' & G).
    exists ((ty, ls') :: next'). split; [|split].
    - constructor; [exact (nformatted_block _ _ _ _ _ G)|exact (nformatted_one_line _ _ _ _ _ G)| |exact D].
      eapply nends_similar; [exact (nformatted_similar _ _ _ _ _ G)|eapply nsection_similar; exact F|exact He].
    - constructor; [|exact F]. split; [reflexivity|exists t; exact G].
    - rewrite lines_of_cons, El, (nformatted_lines _ _ _ _ _ G). reflexivity.
  Qed.

  Lemma nsection_texts w secs secs' : Forall2 (nsection w) secs secs' ->
    exists N, forall lim, N <= lim -> forall i,
      section_texts lim w i secs (map (fun s => str_join [c_nl] (snd s)) secs')
      /\ section_texts lim w i secs' (map (fun s => str_join [c_nl] (snd s)) secs').
  Proof.
    induction 1 as [|[ty ls] [ty' ls'] secs secs' (E & t & H) _ (N2 & IH)].
    - exists 0. intros lim _ i. split; constructor.
    - cbn [fst snd] in *. subst ty'. destruct (nformatted_text _ _ _ _ _ H) as (N1 & HN). exists (N1 + N2). intros lim L i.
      cbn [map snd]. destruct (HN lim ltac:(lia) i). split; constructor; auto; apply IH; lia.
  Qed.

  Lemma repr_headed ty ls : headed (ty, ls) -> In ty [BLOCK_QUOTE; BULLET_LIST; ORDERED_LIST] -> repr_check ty ls = Ok tt.
  Proof.
    intros (l & more & E & H) Ht. cbn [snd fst] in *. subst ls.
    destruct Ht as [<-|[<-|[<-|[]]]]; cbn [repr_check nth_line nth_error bind].
    - reflexivity.
    - destruct H as [(ws & b & body & -> & Hw & _ & Hb) _]. unfold lstrip. rewrite lstrip_by_app by (apply spaces_forallb; exact Hw).
      rewrite lstrip_by_id by (cbn in Hb; intuition (subst; reflexivity)). reflexivity.
    - destruct H as (ws & ds & body & -> & Hw & _ & Hn & Hd). unfold first_number, lstrip.
      rewrite lstrip_by_app by (apply spaces_forallb; exact Hw). rewrite lstrip_by_id.
      + rewrite take_digits by (assumption || reflexivity). destruct ds; [congruence|reflexivity].
      + destruct ds as [|d ds]; [congruence|]. cbn [app]. apply digit_not_space. exact (Forall_inv Hd).
  Qed.

  Lemma doc_repr w ts secs : doc inner w ts secs -> Forall (fun s => repr_check (fst s) (snd s) = Ok tt) secs.
  Proof.
    intros H. assert (Hh := doc_headed inner inner_ok w ts secs H).
    induction H as [|t ts ty ls next Hb Ho He H IH]; [constructor|]. inversion Hh; subst. constructor; [|auto]. cbn [fst snd].
    destruct ty; try (apply repr_headed; [assumption|cbn; tauto]);
      (apply block_repr; [|exact Ho]; cbn [nblock] in Hb; tauto).
  Qed.

  Lemma doc_separated w last ts secs texts : doc inner w ts secs ->
    (last = Some BLOCK_QUOTE -> forall ls next, secs <> (SETEXT_HEADING, ls) :: next) -> length texts = length secs ->
    separated last (combine (map fst secs) texts) = texts.
  Proof.
    intros H. revert last texts. induction H as [|t0 ts ty ls next Hb Ho He H IH]; intros last texts Hl L.
    - destruct texts; [reflexivity|discriminate].
    - destruct texts as [|t texts]; [discriminate|]. cbn [map fst combine separated].
      rewrite IH; [| |cbn in L; lia].
      + destruct last as [[]|]; try reflexivity. destruct ty; try reflexivity. exfalso. eapply Hl; reflexivity.
      + intros E ls' next' ->. injection E as ->. apply (He SETEXT_HEADING ls' next' eq_refl). cbn. tauto.
  Qed.

  Lemma doc_one_line w ts secs : doc inner w ts secs -> Forall one_line (lines_of secs).
  Proof.
    induction 1 as [|t ts ty ls next _ Ho _ _ IH]; [constructor|]. rewrite lines_of_cons. apply Forall_app. auto.
  Qed.

  Lemma doc_pass lim w ts secs secs' : doc inner w ts secs -> doc inner w ts secs' -> secs <> [] -> length secs' = length secs ->
    Forall good (lines_of secs) -> 2 * size (lines_of secs) + 3 <= lim ->
    (forall i, section_texts lim w i secs (map (fun s => str_join [c_nl] (snd s)) secs')) ->
    reformat_pass (S lim) (document secs) w = Ok (document secs').
  Proof.
    intros H H' Hn L Hg Hl Ht.
    rewrite (reformat_pass_ok lim (document secs) w secs (map (fun s => str_join [c_nl] (snd s)) secs')).
    - f_equal. rewrite (doc_separated w _ ts); [|exact H|discriminate|rewrite map_length; exact L].
      rewrite finish_pass_ne; [|destruct secs'; [destruct secs; [congruence|discriminate]|discriminate]].
      unfold document. assert (Hh := doc_headed inner inner_ok w ts secs' H'). clear -Hh.
      induction Hh as [|[ty ls] next (l & more & E & _) _ IH]; [reflexivity|]. cbn [snd] in E. subst ls.
      cbn [map snd concat]. rewrite newline_terminated_app, <- IH.
      change (?a :: ?b) with ([a] ++ b) at 1. rewrite newline_terminated_app.
      rewrite newline_terminated_one_join by discriminate. reflexivity.
    - unfold document. fold (lines_of secs). rewrite splitlines_newline_terminated by (eapply doc_one_line; exact H).
      eapply doc_parse; [exact inner_ok|exact H| |exact Hl]. eapply Forall_impl; [|exact Hg]. apply good_quotable.
    - eapply doc_repr. exact H.
    - apply Ht.
  Qed.

  Lemma flush_formatted w secs secs' : Forall headed secs -> Forall2 (nsection w) secs secs' ->
    flush (lines_of secs) -> flush (lines_of secs').
  Proof.
    intros Hh F. revert Hh. induction F as [|[ty ls] [ty' ls'] secs secs' (E & t0 & H) F IH]; intros Hh Hf; [exact Hf|].
    cbn [fst snd] in E, H. subst ty'. inversion Hh as [|? ? Hh1 Hh2]; subst.
    destruct Hf as (blanks & c & t & rest & E & Hb & Hc). rewrite !lines_of_cons in *.
    assert (Hh1' := Hh1). destruct Hh1' as (l & more & El & _). cbn [snd] in El. subst ls.
    destruct (headed_first _ _ _ Hh1) as [(-> & Hl & ->)|[(-> & Hl)|[H1 H2]]].
    - assert (B := nformatted_block _ _ _ _ _ H). destruct B as ((l' & -> & Bl) & _). cbn [app] in *.
      destruct blanks as [|b blanks]; cbn [app] in E; injection E as -> E.
      + apply Forall_inv in Hl. congruence.
      + inversion Hb; subst. destruct (IH Hh2) as (bs & c' & t' & r' & -> & Hb' & Hc').
        { exists blanks, c, t, rest. auto. }
        exists (l' :: bs), c', t', r'. split; [reflexivity|]. split; [constructor; assumption|exact Hc'].
    - exfalso. destruct Hl as (ws & x & body & -> & Hw & Hx & Lw).
      destruct blanks as [|b blanks]; cbn [app] in E.
      + destruct ws as [|y ws]; [cbn in Lw; lia|]. cbn [app] in E. injection E as -> _ _. apply Forall_inv in Hw. congruence.
      + injection E as <- _. apply Forall_inv in Hb. apply Forall_app in Hb. destruct Hb as [_ Hb]. apply Forall_inv in Hb. congruence.
    - assert (I : in_ink ls').
      { apply (nformatted_ink _ _ _ _ _ H); intros ->.
        - destruct Hh1 as (x & y & Ex & Hx & _). cbn [snd] in Ex. injection Ex as <- _. contradiction.
        - destruct Hh1 as (x & y & Ex & Hx). cbn [snd] in Ex. injection Ex as <- _. contradiction. }
      destruct I as (c' & t' & r' & -> & Hc'). exists [], c', t', (r' ++ lines_of secs'). auto.
  Qed.

  Lemma doc_reformats w ts secs : doc inner w ts secs -> secs <> [] -> Forall good (lines_of secs) ->
    exists secs', reformats (fun w => doc inner w ts) w secs secs' /\ Forall2 (nsection w) secs secs'
      /\ lines_of secs' = rendering w ts.
  Proof.
    intros H Hn Hg. destruct (doc_formatted w ts secs H Hg) as (secs' & H' & F & El).
    assert (Hh := doc_headed inner inner_ok w ts secs H). assert (Hh' := doc_headed inner inner_ok w ts secs' H').
    assert (L : length secs' = length secs) by (clear -F; induction F; cbn; lia).
    assert (Hn' : secs' <> []) by (destruct secs', secs; cbn in L; congruence).
    destruct (nsection_texts w secs secs' F) as (N & HN).
    assert (P1 : forall lim, N + 2 * size (lines_of secs) + 3 <= lim -> reformat_pass (S lim) (document secs) w = Ok (document secs')).
    { intros lim Hl. eapply doc_pass; eauto; [lia|]. intros i. apply (HN lim ltac:(lia) i). }
    assert (Ho' := doc_one_line w ts secs' H').
    assert (Hg' : Forall good (lines_of secs')).
    { assert (G : Forall plain_indent (lines_of secs')).
      { rewrite <- (splitlines_newline_terminated _ Ho'). eapply plain_indent_pass; [|exact (P1 _ (le_n _))].
        unfold document. fold (lines_of secs). rewrite splitlines_newline_terminated by (eapply doc_one_line; exact H).
        eapply Forall_impl; [|exact Hg]. intros l [_ Hl]. exact Hl. }
      rewrite Forall_forall in *. intros l Hl. split; auto. }
    exists secs'. split; [|split; [exact F|exact El]]. constructor.
    - exact H'.
    - destruct secs' as [|[ty ls] next]; [congruence|]. inversion Hh' as [|? ? (l & more & E & _) _]; subst. cbn [snd] in E. subst ls. discriminate.
    - eapply nsection_similar. exact F.
    - exact Hg'.
    - clear -F. induction F as [|[ty ls] [ty' ls'] secs secs' (E & t & G) _ IH]; [constructor|]. rewrite lines_of_cons.
      apply Forall_app. split; [exact (nformatted_tidy _ _ _ _ _ G)|exact IH].
    - clear -F. induction F as [|[ty ls] [ty' ls'] secs secs' (E & t & G) _ IH]; intros Hs; [constructor|]. rewrite lines_of_cons in *.
      apply Forall_app in Hs. destruct Hs. apply Forall_app. split; [apply (nformatted_steady _ _ _ _ _ G); assumption|auto].
    - eapply flush_formatted; [exact Hh|exact F].
    - clear -F. induction F as [|[ty ls] [ty' ls'] secs secs' (E & t & G) _ IH]; intros He; [constructor|]. cbn [fst snd] in *. subst ty'.
      inversion He as [|? ? He1 He2]; subst. constructor; [|auto].
      apply (nformatted_ink _ _ _ _ _ G); intros ->; unfold entry_section in He1; cbn in He1; intuition discriminate.
    - exists (S (N + 2 * size (lines_of secs) + 2 * size (lines_of secs') + 3)). intros lim Hl. destruct lim as [|lim]; [lia|].
      split; [apply P1; lia|]. eapply doc_pass; eauto; [lia|]. intros i. apply (HN lim ltac:(lia) i).
  Qed.

  Lemma doc_formats : formats (doc inner).
  Proof. intros w ts secs H Hn Hg. destruct (doc_reformats w ts secs H Hn Hg) as (secs' & R & _ & El). eauto. Qed.
End Format.

(** * Nesting *)

Lemma entries_impl (P Q : list tree -> list section -> Prop) n ms tss ls : (forall ts secs, P ts secs -> Q ts secs) ->
  entries P n ms tss ls -> entries Q n ms tss ls.
Proof. intros H. induction 1; econstructor; eauto. Qed.

Lemma nblock_widths inner w w' t ty ls : narrower w 0 w' -> nblock inner w t ty ls -> nblock inner w' t ty ls.
Proof.
  intros Hw. assert (T : forall n w'', narrower w' n w'' -> narrower w n w'').
  { intros n w'' H. exact (narrower_trans w 0 n w' w'' Hw H). }
  destruct ty; cbn [nblock]; auto;
    try (intros (H1 & H2 & H3 & _); split; [exact H1|]; split; [exact H2|]; split; [exact H3|discriminate]; fail).
  - intros (ts & p & secs & E & Hq & H). exists ts, p, secs. auto.
  - intros (b & tss & ms & E & Hb & H). exists b, tss, ms. split; [exact E|]. split; [exact Hb|]. eapply entries_impl; [|exact H]. cbn. auto.
  - intros (ds & tss & ms & first & last & E0 & Hd & Hf & Hl & E & H). exists ds, tss, ms, first, last. repeat (split; [assumption|]).
    eapply entries_impl; [|exact H]. cbn. auto.
  - intros (H1 & H2 & H3 & G). split; [exact H1|]. split; [exact H2|]. split; [exact H3|]. intros _. specialize (G eq_refl).
    destruct G as [->|(z & -> & Hz)]; destruct w' as [z'| |q]; cbn in Hw; try contradiction.
    + left. reflexivity.
    + right. exists z'. split; [reflexivity|lia].
Qed.

Lemma doc_widths inner : widths (doc inner).
Proof.
  intros w w' ts secs Hw. induction 1 as [|t ts ty ls next Hb Ho He _ IH]; constructor; auto. eapply nblock_widths; eassumption.
Qed.

(** ** Indented text *)

Definition shift (d : nat) (x : str) : str := repeat c_sp d ++ x.

Lemma shift_strip d x : strip (shift d x) = strip x.
Proof.
  unfold strip, shift. f_equal. unfold lstrip. apply lstrip_by_app. apply spaces_forallb, spaces_repeat.
Qed.

Lemma shift_words d x : words (shift d x) = words x.
Proof. induction d as [|d IH]; [reflexivity|]. rewrite <- IH. reflexivity. Qed.

Lemma shift_text d l : text_line l -> text_line (shift d l).
Proof.
  intros (H1 & (word & more & E & H2) & H3). split; [|split].
  - apply Forall_app. split; [|exact H1]. apply Forall_forall. intros c Hc _. exact (repeat_spec _ _ _ Hc).
  - exists word, more. rewrite shift_words. auto.
  - intros l' El. destruct l as [|c l _] using rev_ind; [discriminate E|].
    unfold shift in El. rewrite app_assoc in El.
    change [c_sp; c_sp] with ([c_sp] ++ [c_sp]) in El. rewrite app_assoc in El. apply app_inj_tail in El. destruct El as [El ->].
    destruct l as [|c l _] using rev_ind; [discriminate E|]. rewrite app_assoc in El. apply app_inj_tail in El. destruct El as [_ ->].
    apply (H3 l). rewrite <- app_assoc. reflexivity.
Qed.

Lemma shift_indented d c t : d <= 3 -> is_space c = false -> ~ indented_line (shift d (c :: t)).
Proof.
  intros Hd Hc (ws & x & body & E & Hw & Hx & L). unfold shift in E.
  apply first_char_unique in E; auto using spaces_repeat. destruct E as (<- & _). rewrite repeat_length in L. lia.
Qed.

Lemma shift_pieces d ls ps : text_pieces ls ps -> text_pieces (map (shift d) ls) ps.
Proof.
  unfold text_pieces. rewrite map_map. rewrite (map_ext _ strip (shift_strip d)). auto.
Qed.

Lemma shifted_pieces d ls ps : text_pieces ls ps -> text_pieces (shifted d ls) ps.
Proof.
  unfold text_pieces. destruct ls as [|l ls]; [auto|]. cbn [shifted map]. rewrite map_map.
  change (fun x => strip (repeat c_sp d ++ x)) with (fun x => strip (shift d x)). rewrite (map_ext _ strip (shift_strip d)). auto.
Qed.

Lemma shift_one_line d l : one_line l -> one_line (shift d l).
Proof. intros H. apply Forall_app. split; [|exact H]. apply Forall_forall. intros c Hc. apply repeat_spec in Hc. subst c. reflexivity. Qed.

Lemma shift_atx d l : d <= 3 -> in_ink [l] -> atx_line l -> atx_line (shift d l).
Proof.
  intros Hd (c & t & r & E & Hc) (ws & body & -> & Hw & L). injection E as E _.
  destruct ws as [|x ws]; [|cbn [app] in E; injection E as -> _; apply Forall_inv in Hw; congruence].
  exists (repeat c_sp d), body. split; [reflexivity|]. split; [apply spaces_repeat|]. rewrite repeat_length. lia.
Qed.

Lemma shift_marked d x ws m body : marked (shift d x) ws m body -> exists ws', ws = repeat c_sp d ++ ws' /\ marked x ws' m body.
Proof.
  revert ws. unfold shift. induction d as [|d IH]; intros ws M; [exists ws; split; [reflexivity|exact M]|].
  destruct M as (E & Hw & Hm & Hr). cbn [repeat app] in E. destruct ws as [|c ws]; cbn [app] in E.
  - exfalso. destruct Hm as [(b & -> & Hb)|(ds & -> & Hn & Hds)].
    + cbn [app] in E. injection E as E _. subst b. cbn in Hb. intuition discriminate.
    + destruct ds as [|c ds]; [congruence|]. cbn [app] in E. injection E as E _. subst c. apply Forall_inv in Hds. discriminate.
  - injection E as <- E. destruct (IH ws) as (ws' & -> & M).
    { split; [exact E|]. split; [exact (Forall_inv_tail Hw)|]. auto. }
    exists ws'. auto.
Qed.

Lemma shift_entry d ws m lines ls : entry ws m lines ls -> entry (repeat c_sp d ++ ws) m lines (map (shift d) ls).
Proof.
  intros (l & rest & rest' & -> & -> & Hw & Hm & Ho & Hk). exists l, (map (shift d) rest), rest'.
  assert (Len : length ((repeat c_sp d ++ ws) ++ m) = d + length (ws ++ m)) by (rewrite <- app_assoc, app_length, repeat_length; reflexivity).
  split; [reflexivity|]. split; [cbn [map]; unfold shift at 1; rewrite <- app_assoc; reflexivity|].
  split; [apply Forall_app; split; [apply spaces_repeat|exact Hw]|]. split; [exact Hm|]. rewrite Len. split.
  - clear Hk. induction Ho as [|x x' rest rest' (u & -> & Hu & Lu & Hx) _ IH]; cbn [map]; constructor; [|exact IH].
    exists (repeat c_sp d ++ u). split; [unfold shift; rewrite <- app_assoc; reflexivity|].
    split; [apply Forall_app; split; [apply spaces_repeat|exact Hu]|]. rewrite app_length, repeat_length. split; [lia|].
    destruct Hx as [Hx|Hx]; [left; lia|right; exact Hx].
  - apply Forall_map. eapply Forall_impl; [|exact Hk]. intros x Hx ws' m' body M. apply shift_marked in M.
    destruct M as (ws1 & -> & M). specialize (Hx _ _ _ M). rewrite (app_length (repeat c_sp d) ws1), repeat_length. lia.
Qed.

Lemma shift_entries d P n ms tss ls : entries P n ms tss ls -> entries P (d + n) ms tss (map (shift d) ls).
Proof.
  induction 1 as [|n ws m ts secs ls ms tss rest Hn He Hi Hs _ IH]; [constructor|]. rewrite map_app.
  apply (entries_next P (d + n) (repeat c_sp d ++ ws)) with (secs := secs).
  - rewrite app_length, repeat_length. lia.
  - apply shift_entry. exact He.
  - exact Hi.
  - exact Hs.
  - rewrite <- app_assoc, app_length, repeat_length. exact IH.
Qed.

Lemma entries_flush P d n m ms tss ls : d <= 3 -> entries P n (m :: ms) tss ls -> in_ink ls -> entries P 3 (m :: ms) tss (map (shift d) ls).
Proof.
  intros Hd H Hi. inversion H as [|n' ws m' ts secs ls0 ms' tss0 rest Hn He Hin Hs Hr]; subst. destruct Hi as (c & t & r & E & Hc).
  assert (Ew : ws = []).
  { destruct He as (l & r1 & r2 & _ & -> & Hw & _). cbn [app] in E. injection E as E _.
    destruct ws as [|x ws]; [reflexivity|]. cbn [app] in E. injection E as -> _. apply Forall_inv in Hw. congruence. }
  subst ws. assert (H' : entries P 0 (m :: ms) (ts :: tss0) (ls0 ++ rest)).
  { apply (entries_next P 0 []) with (secs := secs); try assumption. cbn. lia. }
  apply (shift_entries d) in H'. rewrite Nat.add_0_r in H'.
  inversion H' as [|n1 ws1 m1 ts1 secs1 ls1 ms1 tss1 rest1 Hn1 He1 Hi1 Hs1 Hr1]; subst.
  econstructor; try eassumption. lia.
Qed.

Lemma nblock_shift inner w t ty ls d : d <= 3 -> nblock inner w t ty ls -> entry_section (ty, ls) -> in_ink ls ->
  (forall q ts', t <> Quote q ts') -> nblock inner w t ty (map (shift d) ls).
Proof.
  intros Hd H He Hi Hq. unfold entry_section in He. cbn [fst In] in He.
  destruct He as [<-|[<-|[<-|[<-|[<-|[]]]]]]; cbn [nblock] in *.
  - destruct H as ((l & rest & -> & Hl & Ht & ps & Hps) & (p & -> & C) & _). split; [|split; [|split; discriminate]].
    + cbn [map]. exists (shift d l), (map (shift d) rest). split; [reflexivity|]. split; [|split].
      * destruct Hi as (c & t & r & E & Hc). injection E as -> _. apply shift_indented; assumption.
      * change (Forall text_line (map (shift d) (l :: rest))). apply Forall_map. eapply Forall_impl; [|exact Ht]. apply shift_text.
      * exists ps. exact (shift_pieces d (l :: rest) ps Hps).
    + exists p. split; [reflexivity|]. assert (K := content_kind _ _ _ C). destruct p; try discriminate K.
      destruct C as (_ & C). split; [reflexivity|]. apply shift_pieces. exact C.
  - destruct H as ((l & -> & Ha) & (p & -> & C) & Ht & _). specialize (Ht eq_refl). apply Forall_inv in Ht.
    cbn [map]. split; [|split; [|split; [intros _|discriminate]]].
    + exists (shift d l). split; [reflexivity|]. apply shift_atx; assumption.
    + exists p. split; [reflexivity|]. assert (K := content_kind _ _ _ C). destruct p; try discriminate K.
      destruct C as (_ & ws & body & E & Hw & C). injection E as ->. split; [reflexivity|].
      exists (repeat c_sp d ++ ws), body. split; [unfold shift; rewrite <- app_assoc; reflexivity|].
      split; [apply Forall_app; split; [apply spaces_repeat|exact Hw]|exact C].
    + constructor; [|constructor]. destruct Ht as (ws & n & body & -> & Hw & Ht).
      exists (repeat c_sp d ++ ws), n, body. split; [unfold shift; rewrite <- app_assoc; reflexivity|].
      split; [apply Forall_app; split; [apply spaces_repeat|exact Hw]|exact Ht].
  - destruct H as (b & tss & ms & -> & Hb & He). exists b, tss, ms. split; [reflexivity|]. split; [exact Hb|].
    eapply entries_flush; eassumption.
  - destruct H as (ds & tss & ms & first & last & -> & Hds & Hf & Hl & Hfl & He). exists ds, tss, ms, first, last.
    split; [reflexivity|]. do 4 (split; [assumption|]). eapply entries_flush; eassumption.
  - destruct H as (ts & p & secs & -> & _). exfalso. exact (Hq p ts eq_refl).
Qed.

Lemma nblock_first inner w p ty ls d : nblock inner w (Leaf p) ty ls -> entry_section (ty, ls) -> nblock inner w (Leaf p) ty (shifted d ls).
Proof.
  intros H He. unfold entry_section in He. cbn [fst In] in He.
  destruct He as [<-|[<-|[<-|[<-|[<-|[]]]]]]; cbn [nblock] in *.
  - destruct H as ((l & rest & -> & Hl & Ht & ps & Hps) & (p' & E & C) & _). injection E as <-. split; [|split; [|split; discriminate]].
    + cbn [shifted]. exists l, (map (shift d) rest). split; [reflexivity|]. split; [exact Hl|split].
      * inversion Ht; subst. constructor; [assumption|]. apply Forall_map. eapply Forall_impl; [|eassumption]. apply shift_text.
      * exists ps. exact (shifted_pieces d (l :: rest) ps Hps).
    + exists p. split; [reflexivity|]. assert (K := content_kind _ _ _ C). destruct p; try discriminate K.
      destruct C as (_ & C). split; [reflexivity|]. apply shifted_pieces. exact C.
  - destruct H as ((l & -> & Ha) & H). split; [exists l; split; [reflexivity|exact Ha]|exact H].
  - destruct H as (b & tss & ms & E & _). discriminate.
  - destruct H as (ds & tss & ms & first & last & E & _). discriminate.
  - destruct H as (ts & q & secs & E & _). discriminate.
Qed.

Lemma nends_types ty ls ls2 next next2 : entry_section (ty, ls) -> Forall entry_section next -> map fst next2 = map fst next ->
  nends ty ls next -> nends ty ls2 next2.
Proof.
  intros He Hn Ht H.
  assert (T : forall ty' ls'' r, next2 = (ty', ls'') :: r -> exists ls0 r0, next = (ty', ls0) :: r0).
  { intros ty' ls'' r ->. destruct next as [|[ty0 ls0] r0]; [discriminate|]. cbn [map fst] in Ht. injection Ht as -> _. eauto. }
  unfold entry_section in He. cbn [fst In] in He.
  destruct He as [<-|[<-|[<-|[<-|[<-|[]]]]]]; cbn [nends ends_before] in *; try exact Logic.I;
    intros ty' ls'' r E; destruct (T ty' ls'' r E) as (ls0 & r0 & E'); try exact (H ty' ls0 r0 E').
  destruct (H ty' ls0 r0 E') as [H1 _]. split; [exact H1|]. intros ->. subst next. apply Forall_inv in Hn.
  unfold entry_section in Hn. cbn in Hn. intuition discriminate.
Qed.

Definition shift_sections (d : nat) : list section -> list section := map (fun s => (fst s, map (shift d) (snd s))).

Lemma shift_sections_types d secs : map fst (shift_sections d secs) = map fst secs.
Proof. unfold shift_sections. rewrite map_map. reflexivity. Qed.

Lemma shift_sections_entry d secs : Forall entry_section secs -> Forall entry_section (shift_sections d secs).
Proof. intros H. apply Forall_map. eapply Forall_impl; [|exact H]. auto. Qed.

Lemma shift_sections_lines d secs : lines_of (shift_sections d secs) = map (shift d) (lines_of secs).
Proof.
  induction secs as [|[ty ls] secs IH]; [reflexivity|]. cbn [shift_sections map fst snd]. fold (shift_sections d secs).
  rewrite !lines_of_cons, map_app, IH. reflexivity.
Qed.

Lemma doc_shift inner w ts secs d : d <= 3 -> doc inner w ts secs -> Forall entry_section secs -> Forall (fun s => in_ink (snd s)) secs ->
  Forall (fun t => forall q ts', t <> Quote q ts') ts -> doc inner w ts (shift_sections d secs).
Proof.
  intros Hd. induction 1 as [|t ts ty ls next Hb Ho He H IH]; intros Hs Hi Hq; [constructor|].
  inversion Hs; subst. inversion Hi; subst. inversion Hq; subst. cbn [shift_sections map fst snd]. fold (shift_sections d next).
  constructor; [apply nblock_shift; assumption| | |auto].
  - apply Forall_map. eapply Forall_impl; [|exact Ho]. apply shift_one_line.
  - eapply nends_types; try eassumption. apply shift_sections_types.
Qed.

Lemma doc_shifts inner : shifts (doc inner).
Proof.
  intros w ts secs d Hd H Hs Hi (p & rest & -> & Hq). inversion H as [|? ? ty ls next Hb Ho He Hr]; subst.
  inversion Hs; subst. inversion Hi as [|? ? Hi1 Hi2]; subst. exists ((ty, shifted d ls) :: shift_sections d next). split; [|split].
  - constructor; [apply nblock_first; assumption| | |apply doc_shift; assumption].
    + destruct Ho as [|l ls Hl Ho]; [constructor|]. constructor; [exact Hl|]. apply Forall_map. eapply Forall_impl; [|exact Ho]. apply shift_one_line.
    + eapply nends_types; try eassumption. apply shift_sections_types.
  - constructor; [assumption|]. apply shift_sections_entry. assumption.
  - rewrite !lines_of_cons, shift_sections_lines. cbn [snd] in Hi1. destruct Hi1 as (c & t & r & -> & _).
    cbn [shifted app]. rewrite map_app. reflexivity.
Qed.

Lemma nested_ok depth : inner_lines (nested depth) /\ widths (nested depth) /\ formats (nested depth).
Proof.
  induction depth as [|depth (IH1 & IH2 & IH3)]; cbn [nested].
  - assert (A : inner_lines (fun _ _ _ => False)) by (intros w ts secs []).
    split; [intros w; apply doc_inner_lines; exact A|]. split; [apply doc_widths|].
    apply doc_formats; [exact A|intros w w' ts secs _ []|intros w ts secs []|intros w ts secs d _ []].
  - split; [intros w; apply doc_inner_lines; exact IH1|]. split; [apply doc_widths|]. apply doc_formats; try assumption.
    destruct depth as [|depth]; apply doc_shifts.
Qed.
