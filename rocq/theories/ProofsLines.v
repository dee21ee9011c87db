(** The line predicates of Lines.v mean what SpecLines.v says. *)
From Verif Require Import Py Regex Utils Lines Detectors Base SpecLines.

Lemma spaces_forallb ws : spaces ws <-> forallb is_space ws = true.
Proof. unfold spaces. rewrite forallb_forall, Forall_forall. tauto. Qed.

(** Every line is leading whitespace followed by nothing or by text. *)
Lemma lead_decomp l :
  exists ws, l = ws ++ lstrip l /\ spaces ws /\ get_indent l = length ws.
Proof.
  destruct (lstrip_by_spec is_space l) as (ws & E & H). exists ws.
  fold (lstrip l) in E. split; [exact E|]. split; [apply spaces_forallb; exact H|].
  unfold get_indent. rewrite E at 1. rewrite app_length. lia.
Qed.

Lemma lstrip_app ws c s :
  spaces ws -> is_space c = false -> lstrip (ws ++ c :: s) = c :: s.
Proof.
  intros Hw Hc. unfold lstrip. rewrite lstrip_by_app by (apply spaces_forallb; exact Hw).
  cbn. rewrite Hc. reflexivity.
Qed.

Lemma get_indent_app ws c s :
  spaces ws -> is_space c = false -> get_indent (ws ++ c :: s) = length ws.
Proof.
  intros Hw Hc. unfold get_indent. rewrite lstrip_app by auto.
  rewrite app_length. cbn [length]. lia.
Qed.

Lemma blank_line_spec l : is_blank_line_line l = true <-> blank_line l.
Proof. unfold is_blank_line_line, blank_line. rewrite blank_spec. symmetry. apply spaces_forallb. Qed.

Lemma blank_iff l : blank l = true <-> blank_line l.
Proof. apply blank_line_spec. Qed.

Lemma blank_app_false ws c s : is_space c = false -> blank (ws ++ c :: s) = false.
Proof.
  intros Hc. destruct (blank (ws ++ c :: s)) eqn:E; [|auto].
  apply blank_spec in E. rewrite forallb_app in E. cbn in E. rewrite Hc in E.
  cbn in E. rewrite andb_false_r in E. discriminate.
Qed.

Lemma not_blank_decomp l :
  blank l = false -> exists ws c s, l = ws ++ c :: s /\ spaces ws /\ is_space c = false
                                    /\ lstrip l = c :: s /\ get_indent l = length ws.
Proof.
  intros H. destruct (lead_decomp l) as (ws & E & Hw & Hi).
  destruct (lstrip l) as [|c s] eqn:El.
  - rewrite app_nil_r in E. subst ws. apply spaces_forallb in Hw.
    apply blank_spec in Hw. congruence.
  - exists ws, c, s. split; [exact E|]. split; [exact Hw|].
    split; [eapply lstrip_by_head; exact El|]. auto.
Qed.

Lemma indented_spec l : is_indented_code_block_start_line l = true <-> indented_line l.
Proof.
  unfold is_indented_code_block_start_line, indented_line.
  rewrite andb_true_iff, negb_true_iff, Nat.leb_le. split.
  - intros [Hb Hi]. destruct (not_blank_decomp l Hb) as (ws & c & s & E & Hw & Hc & _ & Hg).
    exists ws, c, s. repeat split; auto; lia.
  - intros (ws & c & s & -> & Hw & Hc & Hl). split; [apply blank_app_false; exact Hc|].
    rewrite get_indent_app by auto. exact Hl.
Qed.

(** For a line with text at [ws ++ c :: s]. *)
Lemma not_indented ws c s :
  spaces ws -> is_space c = false ->
  is_indented_code_block_start_line (ws ++ c :: s) = negb (length ws <? 4).
Proof.
  intros Hw Hc. unfold is_indented_code_block_start_line.
  rewrite blank_app_false by exact Hc. rewrite get_indent_app by auto. cbn [negb andb]. lia.
Qed.

Lemma startswith_one c s : startswith [c] s = true <-> exists t, s = c :: t.
Proof. rewrite startswith_spec. reflexivity. Qed.

(** A line starting with [x] after less than four blanks. *)
Lemma first_char_spec x l :
  is_space x = false ->
  negb (is_indented_code_block_start_line l) && startswith [x] (lstrip l) = true
  <-> exists ws body, l = ws ++ x :: body /\ spaces ws /\ length ws < 4.
Proof.
  intros Hx. rewrite andb_true_iff, negb_true_iff, startswith_one. split.
  - intros [Hi (t & Et)].
    destruct (lead_decomp l) as (ws & E & Hw & Hg). rewrite Et in E.
    rewrite E in Hi. rewrite not_indented in Hi by auto.
    exists ws, t. split; [exact E|]. split; [exact Hw|]. lia.
  - intros (ws & body & -> & Hw & Hl). rewrite not_indented by auto. split; [lia|].
    exists body. apply lstrip_app; auto.
Qed.

Lemma atx_spec l : is_atx_heading_line l = true <-> atx_line l.
Proof. apply first_char_spec. reflexivity. Qed.

Lemma quote_spec l : is_explicit_block_quote_line l = true <-> quote_line l.
Proof. apply first_char_spec. reflexivity. Qed.

Lemma table_spec l : is_table_start_line l = true <-> table_line l.
Proof.
  unfold is_table_start_line, table_line. rewrite startswith_one. split.
  - intros (t & Et). destruct (lead_decomp l) as (ws & E & Hw & _). rewrite Et in E.
    exists ws, t. auto.
  - intros (ws & body & -> & Hw). exists body. apply lstrip_app; auto.
Qed.

Lemma table_started_spec l : table_started l = true <-> table_line l.
Proof. apply table_spec. Qed.

(** ** Regular expressions *)

Lemma rmatch_one p r c s :
  rmatch (One p :: r) (c :: s) = if p c then option_map S (rmatch r s) else None.
Proof. reflexivity. Qed.

Definition matched (r : list ritem) (s : str) : Prop := rmatch r s <> None.

Lemma matched_one p r s :
  matched (One p :: r) s <-> exists c s', s = c :: s' /\ p c = true /\ matched r s'.
Proof.
  unfold matched. split.
  - destruct s as [|c s']; [intros H; exfalso; apply H; reflexivity|].
    rewrite rmatch_one. destruct (p c) eqn:Hc; [|intros H; exfalso; apply H; reflexivity].
    intros H. exists c, s'. split; [auto|]. split; [auto|].
    intros E. rewrite E in H. apply H. reflexivity.
  - intros (c & s' & -> & Hc & H). rewrite rmatch_one, Hc.
    destruct (rmatch r s'); [discriminate|congruence].
Qed.

Lemma matched_star p r s :
  matched (Star p :: r) s
  <-> exists a b, s = a ++ b /\ Forall (fun c => p c = true) a /\ matched r b.
Proof.
  unfold matched. split.
  - induction s as [|c s IH].
    + intros H. exists [], []. repeat constructor. exact H.
    + cbn [rmatch]. fold (rmatch (Star p :: r)). intros H.
      destruct (p c) eqn:Hc.
      * change ((fix star (s0 : str) : option nat :=
                   match s0 with
                   | [] => rmatch r []
                   | c0 :: s' => if p c0 then match star s' with
                                              | Some n => Some (S n)
                                              | None => rmatch r s0
                                              end else rmatch r s0
                   end) s) with (rmatch (Star p :: r) s) in H.
        destruct (rmatch (Star p :: r) s) as [n|] eqn:E.
        -- destruct IH as (a & b & -> & Ha & Hb); [discriminate|].
           exists (c :: a), b. repeat split; auto.
        -- exists [], (c :: s). repeat split; auto.
      * exists [], (c :: s). repeat split; auto.
  - intros (a & b & -> & Ha & Hb). induction Ha as [|c a Hc Ha IH]; cbn [app].
    + destruct b as [|c b]; [exact Hb|]. cbn [rmatch]. destruct (p c); [|exact Hb].
      match goal with |- match ?x with _ => _ end <> None => destruct x end;
        [discriminate|exact Hb].
    + cbn [rmatch]. rewrite Hc.
      match goal with |- match ?x with _ => _ end <> None =>
        change x with (rmatch (Star p :: r) (a ++ b)) end.
      destruct (rmatch (Star p :: r) (a ++ b)); [discriminate|congruence].
Qed.

Lemma matched_nil s : matched [] s.
Proof. unfold matched. cbn. discriminate. Qed.

Lemma matches_matched r l : matches r l = true <-> matched r l.
Proof. unfold matches, matched. destruct (rmatch r l); split; congruence. Qed.

Lemma matched_app_plus p r s :
  matched (Plus p ++ r) s
  <-> exists a b, s = a ++ b /\ a <> [] /\ Forall (fun c => p c = true) a /\ matched r b.
Proof.
  unfold Plus. cbn [app]. rewrite matched_one. split.
  - intros (c & s' & -> & Hc & H). apply matched_star in H.
    destruct H as (a & b & -> & Ha & Hb). exists (c :: a), b.
    repeat split; auto. discriminate.
  - intros (a & b & -> & Hn & Ha & Hb). destruct Ha as [|c a Hc Ha]; [congruence|].
    exists c, (a ++ b). split; [auto|]. split; [auto|]. apply matched_star.
    exists a, b. auto.
Qed.

Lemma bullet_chars_not_space b : In b [c_star; c_plus; c_dash] -> is_space b = false.
Proof. intros [<-|[<-|[<-|[]]]]; reflexivity. Qed.

Lemma digit_not_space c : is_digit c = true -> is_space c = false.
Proof. unfold is_digit, is_space. lia. Qed.

Lemma bullet_spec l : is_bullet_list_start_line l = true <-> bullet_line l.
Proof.
  unfold is_bullet_list_start_line, bullet_line.
  rewrite andb_true_iff, negb_true_iff, matches_matched.
  unfold BULLET_LIST_START_REGEX. rewrite matched_star. split.
  - intros [Hi (ws & t & -> & Hw & H)]. apply matched_one in H.
    destruct H as (b & t' & -> & Hb & H). apply matched_one in H.
    destruct H as (x & body & -> & Hx & _). apply N.eqb_eq in Hx. subst x.
    apply existsb_exists in Hb. destruct Hb as (b' & Hin & Eb). apply N.eqb_eq in Eb.
    subst b'. rewrite not_indented in Hi by (auto using bullet_chars_not_space).
    exists ws, b, body. repeat split; auto. lia.
  - intros (ws & b & body & -> & Hw & Hl & Hb).
    rewrite not_indented by (auto using bullet_chars_not_space). split; [lia|].
    exists ws, (b :: c_sp :: body). split; [auto|]. split; [exact Hw|].
    apply matched_one. exists b, (c_sp :: body). split; [auto|]. split.
    + apply existsb_exists. exists b. rewrite N.eqb_refl. auto.
    + apply matched_one. exists c_sp, body. auto using matched_nil.
Qed.

Lemma ordered_spec l : is_ordered_list_start_line l = true <-> ordered_line l.
Proof.
  unfold is_ordered_list_start_line, ordered_line.
  rewrite andb_true_iff, negb_true_iff, matches_matched.
  unfold ORDERED_LIST_START_REGEX. cbn [app]. rewrite matched_star. split.
  - intros [Hi (ws & t & -> & Hw & H)]. apply (matched_app_plus is_digit) in H.
    destruct H as (ds & t' & -> & Hn & Hd & H). apply matched_one in H.
    destruct H as (x & t'' & -> & Hx & H). apply N.eqb_eq in Hx. subst x.
    apply matched_one in H. destruct H as (x & body & -> & Hx & _).
    apply N.eqb_eq in Hx. subst x.
    exists ws, ds, body. split; [auto|]. split; [exact Hw|].
    destruct Hd as [|d ds Hd0 Hd]; [congruence|]. cbn [app] in Hi.
    rewrite not_indented in Hi by (auto using digit_not_space).
    split; [lia|]. split; [discriminate|constructor; auto].
  - intros (ws & ds & body & -> & Hw & Hl & Hn & Hd). split.
    + destruct Hd as [|d ds Hd0 Hd]; [congruence|]. cbn [app].
      rewrite not_indented by (auto using digit_not_space). lia.
    + exists ws, (ds ++ c_dot :: c_sp :: body). split; [auto|]. split; [exact Hw|].
      apply (matched_app_plus is_digit). exists ds, (c_dot :: c_sp :: body).
      repeat split; auto. apply matched_one. exists c_dot, (c_sp :: body).
      split; [auto|]. split; [auto|]. apply matched_one. exists c_sp, body.
      auto using matched_nil.
Qed.

(** ** Fences *)

Lemma strip_app_lead ws c s :
  spaces ws -> is_space c = false -> exists s', strip (ws ++ c :: s) = c :: s'
    /\ exists post, c :: s = c :: s' ++ post /\ spaces post.
Proof.
  intros Hw Hc. unfold strip. rewrite lstrip_app by auto. unfold rstrip.
  destruct (rstrip_by_spec is_space (c :: s)) as (post & E & Hp).
  destruct (rstrip_by is_space (c :: s)) as [|d s'] eqn:Er.
  - apply rstrip_by_nil in Er. cbn in Er. rewrite Hc in Er. discriminate.
  - cbn in E. injection E as E1 E2. subst d. exists s'. split; [reflexivity|].
    exists post. split; [congruence|]. apply spaces_forallb. exact Hp.
Qed.

Lemma startswith3_strip c l :
  is_space c = false ->
  startswith (rep c 3) (strip l) = true
  <-> exists ws body, l = ws ++ [c; c; c] ++ body /\ spaces ws.
Proof.
  intros Hc. rewrite startswith_spec. split.
  - intros (t & Et). destruct (strip_spec l) as (pre & post & E & Hpre & Hpost).
    exists pre, (t ++ post). split; [|apply spaces_forallb; exact Hpre].
    rewrite E, Et, <- app_assoc. reflexivity.
  - intros (ws & body & -> & Hw).
    exists (rstrip body). unfold strip. cbn [app].
    rewrite lstrip_app by auto. change (c :: c :: c :: body) with (rep c 3 ++ body).
    unfold rstrip. destruct (rstrip_by is_space body) as [|x u] eqn:E.
    + destruct (rstrip_by_spec is_space body) as (post & Eb & Hp). rewrite E in Eb.
      cbn in Eb. subst post. rewrite rstrip_by_app by exact Hp. rewrite app_nil_r.
      change (rep c 3) with ([c; c] ++ [c]). apply rstrip_by_snoc. exact Hc.
    + rewrite rstrip_by_app_ne by congruence. rewrite E. reflexivity.
Qed.

Lemma fence_spec l : is_fenced_code_block_start_line l = true <-> fence_line l.
Proof.
  unfold is_fenced_code_block_start_line, FENCED_CODE_BLOCK_FENCE_CHARACTERS, fence_line.
  cbn [existsb]. rewrite orb_false_r, orb_true_iff.
  rewrite !startswith3_strip by reflexivity. split.
  - intros [(ws & body & E & Hw)|(ws & body & E & Hw)].
    + exists ws, c_bt, body. repeat split; auto. cbn; auto.
    + exists ws, c_tilde, body. repeat split; auto. cbn; auto.
  - intros (ws & c & body & E & Hw & [<-|[<-|[]]]); [left|right]; exists ws, body; auto.
Qed.

Lemma full_fence_none l : full_fence l = None <-> is_fenced_code_block_start_line l = false.
Proof.
  unfold full_fence, is_fenced_code_block_start_line, FENCED_CODE_BLOCK_FENCE_CHARACTERS.
  cbn [existsb].
  destruct (startswith (rep c_bt 3) (strip l)); cbn [orb]; [split; discriminate|].
  destruct (startswith (rep c_tilde 3) (strip l)); cbn [orb]; split; auto; discriminate.
Qed.

(** ** Thematic breaks and underlines *)

Lemma words_not_space s : Forall (fun w => w <> [] /\ forallb is_space w = false
   /\ Forall (fun c => is_space c = false) w) (words s).
Proof.
  induction s as [|c s IH]; cbn [words]; [constructor|].
  destruct (is_space c) eqn:Hc; [exact IH|].
  assert (H1 : [c] <> [] /\ forallb is_space [c] = false
               /\ Forall (fun c => is_space c = false) [c]).
  { split; [discriminate|]. split; [cbn; rewrite Hc; auto|]. constructor; auto. }
  destruct s as [|d s]; [constructor; [exact H1|constructor]|].
  destruct (is_space d) eqn:Hd; [constructor; [exact H1|exact IH]|].
  destruct (words (d :: s)) as [|w ws]; [constructor; [exact H1|constructor]|].
  inv IH. destruct H2 as (G1 & G2 & G3). constructor; [|auto].
  split; [discriminate|]. split; [cbn; rewrite Hc; auto|]. constructor; auto.
Qed.

(** [("".join(line.split()))] keeps exactly the non-whitespace characters. *)
Lemma concat_words s : concat (words s) = filter not_space s.
Proof.
  induction s as [|c s IH]; [reflexivity|]. cbn [words filter].
  unfold not_space at 1. destruct (is_space c) eqn:Hc; cbn [negb]; [exact IH|].
  destruct s as [|d s]; [reflexivity|].
  destruct (is_space d) eqn:Hd.
  - cbn [concat app]. rewrite IH. reflexivity.
  - destruct (words (d :: s)) as [|w ws] eqn:E.
    + exfalso. cbn [concat] in IH. cbn [filter] in IH. unfold not_space at 1 in IH.
      rewrite Hd in IH. discriminate.
    + cbn [concat app] in *. rewrite <- IH. reflexivity.
Qed.

Lemma strip_no_space s : Forall (fun c => is_space c = false) s -> strip s = s.
Proof.
  intros H. apply strip_id.
  - destruct H; auto.
  - apply Forall_rev in H. destruct H; auto.
Qed.

Lemma Forall_filter_not_space s : Forall (fun c => is_space c = false) (filter not_space s).
Proof.
  apply Forall_forall. intros c Hc. apply filter_In in Hc. destruct Hc as [_ Hc].
  unfold not_space in Hc. apply negb_true_iff. exact Hc.
Qed.

Lemma all_are_spec c s : all_are c s = true <-> Forall (fun x => x = c) s.
Proof.
  unfold all_are. rewrite forallb_forall, Forall_forall.
  split; intros H x Hx; specialize (H x Hx).
  - apply N.eqb_eq in H. auto.
  - apply N.eqb_eq. auto.
Qed.

Lemma filter_all_count c s :
  is_space c = false -> Forall (fun x => x = c \/ is_space x = true) s ->
  filter not_space s = repeat c (count_occ N.eq_dec s c).
Proof.
  intros Hc H. induction H as [|x s Hx H IH]; [reflexivity|].
  cbn [filter count_occ]. destruct Hx as [->|Hx].
  - unfold not_space at 1. rewrite Hc. cbn [negb].
    destruct (N.eq_dec c c); [|congruence]. cbn. rewrite IH. reflexivity.
  - unfold not_space at 1. rewrite Hx. cbn [negb].
    destruct (N.eq_dec x c); [congruence|]. exact IH.
Qed.

Lemma thematic_char_not_space c : In c [c_star; c_us; c_dash] -> is_space c = false.
Proof. intros [<-|[<-|[<-|[]]]]; reflexivity. Qed.

Lemma thematic_spec l : is_thematic_break_line l = true <-> thematic_line l.
Proof.
  unfold is_thematic_break_line, thematic_line. cbn zeta. rewrite concat_words.
  rewrite (strip_no_space (filter not_space l)) by apply Forall_filter_not_space.
  split.
  - intros H. destruct (is_indented_code_block_start_line l) eqn:Hi; [discriminate|].
    destruct (Nat.ltb_spec (length (filter not_space l)) 3) as [|Hlen]; [discriminate|].
    apply existsb_exists in H. destruct H as (c & Hin & Hall).
    apply all_are_spec in Hall.
    assert (Hc := thematic_char_not_space c Hin).
    assert (Hb : blank l = false).
    { destruct (blank l) eqn:E; [|auto]. apply blank_spec in E. exfalso.
      assert (G : filter not_space l = []).
      { clear - E. induction l as [|x l IH]; [reflexivity|]. cbn in E.
        apply andb_true_iff in E. destruct E as [E1 E2]. cbn [filter].
        unfold not_space at 1. rewrite E1. cbn. auto. }
      rewrite G in Hlen. cbn in Hlen. lia. }
    destruct (not_blank_decomp l Hb) as (ws & x & s & E & Hw & Hx & _ & Hg).
    assert (Hfw : filter not_space ws = []).
    { clear - Hw. induction Hw as [|y ws Hy Hw IH]; [reflexivity|]. cbn [filter].
      unfold not_space at 1. rewrite Hy. exact IH. }
    assert (Hfl : filter not_space l = x :: filter not_space s).
    { rewrite E, filter_app, Hfw. cbn [filter app]. unfold not_space at 1.
      rewrite Hx. reflexivity. }
    rewrite Hfl in Hall, Hlen. inv Hall.
    assert (Hs : Forall (fun x => x = c \/ is_space x = true) s).
    { apply Forall_forall. intros y Hy. destruct (is_space y) eqn:Ey; [auto|left].
      rewrite Forall_forall in H2. apply H2. apply filter_In. split; [exact Hy|].
      unfold not_space. rewrite Ey. reflexivity. }
    exists c, ws, s. repeat split; auto.
    + rewrite not_indented in Hi by auto. lia.
    + rewrite (filter_all_count c s Hc Hs) in Hlen. cbn [length] in Hlen.
      rewrite repeat_length in Hlen. lia.
  - intros (c & ws & body & -> & Hw & Hl & Hin & Hb & Hn).
    assert (Hc := thematic_char_not_space c Hin).
    rewrite not_indented by auto. replace (length ws <? 4) with true by lia. cbn [negb].
    assert (Hall : Forall (fun x => x = c \/ is_space x = true) (ws ++ c :: body)).
    { apply Forall_app. split; [|constructor; auto].
      eapply Forall_impl; [|exact Hw]. cbn. auto. }
    rewrite (filter_all_count c _ Hc Hall).
    assert (Hcnt : 3 <= count_occ N.eq_dec (ws ++ c :: body) c).
    { rewrite count_occ_app. cbn [count_occ]. destruct (N.eq_dec c c); [lia|congruence]. }
    rewrite repeat_length.
    destruct (Nat.ltb_spec (count_occ N.eq_dec (ws ++ c :: body) c) 3); [lia|].
    apply existsb_exists. exists c. split; [exact Hin|]. apply all_are_spec.
    apply Forall_forall. intros x Hx. apply repeat_spec in Hx. exact Hx.
Qed.

Lemma underline_char_not_space c : In c [c_eq; c_dash] -> is_space c = false.
Proof. intros [<-|[<-|[]]]; reflexivity. Qed.

Lemma Forall_eq_repeat (c : char) s : Forall (fun x => x = c) s -> s = repeat c (length s).
Proof. intros H. induction H as [|x s -> H IH]; cbn; [auto|]. congruence. Qed.

Lemma strip_repeat c n ws ws' :
  is_space c = false -> spaces ws -> spaces ws' ->
  strip (ws ++ repeat c (S n) ++ ws') = repeat c (S n).
Proof.
  intros Hc Hw Hw'. rewrite strip_app_spaces by (apply spaces_forallb; auto).
  apply strip_no_space. apply Forall_forall. intros x Hx. apply repeat_spec in Hx.
  congruence.
Qed.

Lemma underline_spec l : is_setext_underline l = true <-> underline_line l.
Proof.
  unfold is_setext_underline, underline_line.
  rewrite !andb_true_iff, !negb_true_iff, orb_true_iff, !all_are_spec. split.
  - intros [[Hi Hb] H].
    assert (Hc : exists c, In c [c_eq; c_dash] /\ Forall (fun x => x = c) (strip l)).
    { destruct H as [H|H]; [exists c_eq|exists c_dash]; cbn; auto. }
    destruct Hc as (c & Hin & Hall).
    destruct (strip_spec l) as (pre & post & E & Hpre & Hpost).
    apply Forall_eq_repeat in Hall.
    assert (Hne : strip l <> []) by (apply blank_strip; exact Hb).
    destruct (length (strip l)) as [|n] eqn:El; [destruct (strip l); [congruence|discriminate]|].
    exists c, n, pre, post. rewrite <- Hall. repeat split; auto.
    + apply spaces_forallb; auto.
    + apply spaces_forallb; auto.
    + rewrite E in Hi. rewrite Hall in Hi. cbn [repeat app] in Hi.
      rewrite not_indented in Hi.
      * lia.
      * apply spaces_forallb; auto.
      * apply underline_char_not_space; exact Hin.
  - intros (c & n & ws & ws' & -> & Hw & Hw' & Hl & Hin).
    assert (Hc := underline_char_not_space c Hin).
    rewrite strip_repeat by auto. cbn [repeat app].
    rewrite not_indented by auto. rewrite blank_app_false by exact Hc.
    split; [split; [lia|auto]|].
    assert (G : Forall (fun x => x = c) (c :: repeat c n)).
    { constructor; [auto|]. apply Forall_forall. intros x Hx. eapply repeat_spec; eauto. }
    destruct Hin as [<-|[<-|[]]]; auto.
Qed.

Lemma not_true_iff b P : (b = true <-> P) -> (b = false <-> ~ P).
Proof. intros H. destruct b; split; intros G; try congruence; try tauto; intuition congruence. Qed.

Lemma paragraph_start_spec l : is_paragraph_start_line l = true <-> paragraph_line l.
Proof.
  unfold is_paragraph_start_line, paragraph_line. rewrite negb_true_iff. cbn [existsb].
  rewrite !orb_false_iff.
  rewrite (not_true_iff _ _ (indented_spec l)), (not_true_iff _ _ (atx_spec l)),
    (not_true_iff _ _ (blank_line_spec l)), (not_true_iff _ _ (bullet_spec l)),
    (not_true_iff _ _ (quote_spec l)), (not_true_iff _ _ (fence_spec l)),
    (not_true_iff _ _ (ordered_spec l)), (not_true_iff _ _ (table_spec l)),
    (not_true_iff _ _ (thematic_spec l)).
  tauto.
Qed.
