(** Wrapping wrapped text with inline links. *)
From Coq Require Import String.
From Verif Require Import Py Regex Utils TextWrap Base SpecLines ProofsLines ProofsRegex SpecWrap
  ProofsScan ProofsWrap ProofsTokens ProofsParser ProofsLinks ProofsPieces ProofsFilled ProofsCode
  ProofsGaps ProofsSeams SpecFormat PropsWrap SpecInline ProofsStable ProofsBrackets.

(** * Matching a link *)

Lemma star_none p r s :
  (forall x y, s = x ++ y -> Forall (fun c => p c = true) x -> rmatch r y = None) ->
  rmatch (Star p :: r) s = None.
Proof.
  induction s as [|c s IH]; intros H; rewrite rmatch_star.
  - apply (H [] []); constructor.
  - destruct (p c) eqn:Hc; [|apply (H [] (c :: s)); constructor].
    rewrite IH; [apply (H [] (c :: s)); constructor|].
    intros x y -> Hx. apply (H (c :: x) y eq_refl). constructor; assumption.
Qed.

Lemma star_pick p r a b n : Forall (fun c => p c = true) a -> rmatch r b = Some n ->
  (forall x y, b = x ++ y -> x <> [] -> Forall (fun c => p c = true) x -> rmatch r y = None) ->
  rmatch (Star p :: r) (a ++ b) = Some (length a + n).
Proof.
  intros Ha Hb Hn. induction Ha as [|c a Hc Ha IH]; cbn [app length Nat.add].
  - rewrite rmatch_star. destruct b as [|c b]; [exact Hb|]. destruct (p c) eqn:Hc; [|exact Hb].
    rewrite star_none; [exact Hb|]. intros x y -> Hx. apply (Hn (c :: x) y eq_refl); [discriminate|].
    constructor; assumption.
  - rewrite rmatch_star, Hc, IH. reflexivity.
Qed.

Lemma off_not_in cs s : off cs s -> Forall (fun c => not_in cs c = true) s.
Proof. intros H. eapply Forall_impl; [|exact H]. cbn. intros c Hc. apply not_in_spec, Hc. Qed.

Lemma off_not_in_s cs s : spaceless s -> off cs s -> Forall (fun c => not_in_s cs c = true) s.
Proof.
  intros H1 H2. unfold off, spaceless in *. rewrite Forall_forall in *. intros c Hc.
  apply not_in_s_spec. auto.
Qed.

Lemma app_first {A} (a b x y : list A) : a ++ b = x ++ y ->
  (exists z, x = a ++ z /\ b = z ++ y) \/ (exists c z, a = x ++ c :: z /\ y = (c :: z) ++ b).
Proof.
  revert x. induction a as [|c a IH]; intros x E.
  - left. exists x. auto.
  - destruct x as [|d x]; [right; exists c, a; cbn in E; subst; auto|]. injection E as <- E.
    destruct (IH x E) as [(z & -> & ->)|(e & z & -> & ->)]; [left; exists z; auto|right; exists e, z; auto].
Qed.

Lemma is_head c r s : (forall s', s <> c :: s') -> rmatch (Is c :: r) s = None.
Proof.
  intros H. destruct s as [|d s]; [reflexivity|]. cbn [rmatch Is]. destruct (N.eqb_spec c d) as [->|]; [|reflexivity].
  exfalso. apply (H s). reflexivity.
Qed.

Lemma is_match c r s : rmatch (Is c :: r) (c :: s) = option_map S (rmatch r s).
Proof. cbn [rmatch Is]. rewrite N.eqb_refl. reflexivity. Qed.

Lemma is_head2 c d r s : (forall s', s <> c :: d :: s') -> rmatch (Is c :: Is d :: r) s = None.
Proof.
  intros H. destruct s as [|e s]; [reflexivity|]. destruct (N.eq_dec e c) as [->|Hn].
  - rewrite is_match, is_head; [reflexivity|]. intros s' ->. apply (H s'). reflexivity.
  - apply is_head. intros s' E. congruence.
Qed.

(** No link is closed before one is opened. *)
Definition sealed (s : str) : Prop := forall x y, s = x ++ [c_rbr; c_lpar] ++ y -> In c_lbr x.

Definition link_str (p t u r : str) : str := p ++ [c_lbr] ++ t ++ [c_rbr; c_lpar] ++ u ++ [c_rpar] ++ r.

(** What may follow a match. *)
Definition stop (s : str) : Prop :=
  s = [] \/ exists c s', s = c :: s' /\ (c = c_sp \/ c = c_lpar \/ c = c_lbr).

Lemma url_match p t u r s : off [c_lbr; c_rbr; c_rpar] p -> spaceless p ->
  off sq t -> t <> [] -> off [c_lbr; c_rbr; c_rpar] u -> u <> [] ->
  off [c_lbr; c_rbr; c_lpar] r -> spaceless r -> stop s -> sealed s ->
  rmatch URL_REGEX (link_str p t u r ++ s) = Some (length (link_str p t u r)).
Proof.
  intros Hp Sp Ht Tn Hu Un Hr Sr Hs Hc.
  set (R5 := [Is c_rpar; Star (not_in_s [c_lbr; c_lpar])]).
  set (R4 := Plus (not_in [c_rpar]) ++ R5).
  set (R3 := Is c_rbr :: Is c_lpar :: R4).
  set (R2 := Is c_lbr :: Plus (not_in [c_lbr]) ++ R3).
  change URL_REGEX with (Star (not_in_s [c_rbr; c_rpar]) :: R2).
  assert (E5 : rmatch R5 ([c_rpar] ++ r ++ s) = Some (1 + length r)).
  { unfold R5. cbn [app]. rewrite is_match. replace (length r) with (length r + 0) by lia.
    rewrite (star_pick _ [] r s 0); [reflexivity| |reflexivity|].
    - apply off_not_in_s; [exact Sr|]. eapply off_incl; [|exact Hr]. cbn. tauto.
    - intros x y E Hx Fx. exfalso. destruct x as [|c x]; [congruence|]. apply Forall_inv in Fx.
      apply not_in_s_spec in Fx. destruct Fx as [F1 F2]. destruct Hs as [->|(d & s' & -> & Hd)]; [discriminate|].
      injection E as -> _. destruct Hd as [->|[->| ->]]; [discriminate| |]; apply F2; cbn; auto. }
  assert (E4 : rmatch R4 (u ++ [c_rpar] ++ r ++ s) = Some (length u + (1 + length r))).
  { unfold R4, Plus. cbn [app]. destruct u as [|c u]; [congruence|]. inversion Hu as [|? ? Hc1 Hu']; subst.
    cbn [app rmatch]. replace (not_in [c_rpar] c) with true by (symmetry; apply not_in_spec; intros G; apply Hc1; cbn in *; tauto).
    change (option_map S (rmatch (Star (not_in [c_rpar]) :: R5) (u ++ [c_rpar] ++ r ++ s)) = Some (length (c :: u) + (1 + length r))).
    rewrite (star_pick _ R5 u ([c_rpar] ++ r ++ s) (1 + length r)); [reflexivity| |exact E5|].
    - apply off_not_in. eapply off_incl; [|exact Hu']. cbn. tauto.
    - intros x y E Hx Fx. exfalso. destruct x as [|d x]; [congruence|]. injection E as <- _. apply Forall_inv in Fx.
      apply not_in_spec in Fx. apply Fx. left. reflexivity. }
  assert (E3 : rmatch R3 ([c_rbr; c_lpar] ++ u ++ [c_rpar] ++ r ++ s) = Some (2 + (length u + (1 + length r)))).
  { unfold R3. cbn [app]. rewrite !is_match. cbn [app] in E4. rewrite E4. reflexivity. }
  assert (E2 : rmatch R2 ([c_lbr] ++ t ++ [c_rbr; c_lpar] ++ u ++ [c_rpar] ++ r ++ s)
    = Some (1 + (length t + (2 + (length u + (1 + length r)))))).
  { unfold R2, Plus. cbn [app]. rewrite is_match. destruct t as [|c t]; [congruence|]. inversion Ht as [|? ? Hc1 Ht']; subst.
    cbn [app rmatch]. replace (not_in [c_lbr] c) with true by (symmetry; apply not_in_spec; intros G; apply Hc1; cbn in *; tauto).
    set (Z := [c_rbr; c_lpar] ++ u ++ [c_rpar] ++ r ++ s) in *.
    change (option_map S (option_map S (rmatch (Star (not_in [c_lbr]) :: R3) (t ++ Z)))
            = Some (1 + (length (c :: t) + (2 + (length u + (1 + length r)))))).
    rewrite (star_pick _ R3 t Z (2 + (length u + (1 + length r)))); [reflexivity| |exact E3|].
    - apply off_not_in. eapply off_incl; [|exact Ht']. cbn. tauto.
    - intros x y E Hx Fx. apply is_head2. intros y' ->. destruct x as [|d x]; [congruence|]. unfold Z in E.
      injection E as <- E. inversion Fx as [|? ? _ Fx']; subst.
      assert (G : c_lpar :: u ++ c_rpar :: r ++ s = (c_lpar :: u ++ c_rpar :: r) ++ s)
        by (cbn [app]; rewrite <- app_assoc; reflexivity).
      rewrite G in E. apply app_first in E. destruct E as [(z & -> & Es)|(e & z & E1 & E2)].
      + apply Hc in Es. apply Forall_app in Fx'. destruct Fx' as [_ Fz]. rewrite Forall_forall in Fz.
        apply Fz in Es. discriminate.
      + injection E2 as <- _.
        assert (Q : In c_rbr (c_lpar :: u ++ c_rpar :: r)) by (rewrite E1; apply in_app_iff; right; left; reflexivity).
        destruct Q as [Q|Q]; [discriminate|]. apply in_app_iff in Q. unfold off in Hu, Hr. rewrite Forall_forall in Hu, Hr.
        destruct Q as [Q|[Q|Q]]; [|discriminate|]; [apply (Hu _ Q)|apply (Hr _ Q)]; cbn; auto. }
  unfold link_str. rewrite <- !app_assoc. rewrite (star_pick _ R2 p _ (1 + (length t + (2 + (length u + (1 + length r)))))); [| |exact E2|].
  - f_equal. rewrite !app_length. cbn [length]. lia.
  - apply off_not_in_s; [exact Sp|]. eapply off_incl; [|exact Hp]. cbn. tauto.
  - intros x y E Hx Fx. apply is_head. intros y' ->. destruct x as [|d x]; [congruence|]. cbn [app] in E.
    injection E as <- E. inversion Fx as [|? ? _ Fx']; subst.
    change (t ++ c_rbr :: c_lpar :: u ++ c_rpar :: r ++ s) with (t ++ [c_rbr] ++ c_lpar :: u ++ c_rpar :: r ++ s) in E.
    rewrite app_assoc in E. apply app_first in E. destruct E as [(z & -> & _)|(e & z & E1 & E2')].
    + apply Forall_app in Fx'. destruct Fx' as [F1 _]. apply Forall_app in F1. destruct F1 as [_ F1]. apply Forall_inv in F1.
      discriminate.
    + injection E2' as <- _.
      assert (Q : In c_lbr (t ++ [c_rbr])) by (rewrite E1; apply in_app_iff; right; left; reflexivity).
      apply in_app_iff in Q. destruct Q as [Q|[Q|[]]]; [|discriminate]. unfold off in Ht. rewrite Forall_forall in Ht.
      apply (Ht _ Q). left. reflexivity.
Qed.

(** Before a link, nothing matches. *)
Lemma url_gap q g p s : gok q ((g ++ p) ++ [c_lbr]) -> cut_end g ->
  forall a b, g = a ++ b -> b <> [] -> no_match (rmatch URL_REGEX) (b ++ p ++ [c_lbr] ++ s).
Proof.
  intros Hg He a b -> Hb. unfold no_match.
  destruct (rmatch URL_REGEX (b ++ p ++ [c_lbr] ++ s)) as [n|] eqn:E; [|exact I]. exfalso.
  apply rmatch_den in E. destruct E as [_ E]. assert (F := firstn_skipn n (b ++ p ++ [c_lbr] ++ s)).
  apply url_den in E. destruct E as (p' & t & u & r & L). rewrite (l_eq _ _ _ _ _ _ _ L) in F.
  set (X := u ++ [c_rpar] ++ r). set (Y := skipn n (b ++ p ++ [c_lbr] ++ s)) in *.
  assert (F' : p' ++ c_lbr :: t ++ [c_rbr; c_lpar] ++ X ++ Y = b ++ p ++ [c_lbr] ++ s).
  { rewrite <- F. unfold X. rewrite <- !app_assoc. reflexivity. }
  clear F. symmetry in F'. apply app_first in F'. destruct F' as [(z & -> & F)|(e & z & -> & F)].
  - destruct b as [|d b _] using rev_ind; [congruence|].
    assert (Hd : d = c_sp \/ d = c_rpar \/ d = c_rbr).
    { destruct He as [He|(g' & c & He & Hc)]; [destruct a; destruct b; discriminate|]. rewrite app_assoc in He. apply app_inj_tail in He.
      destruct He as [_ ->]. exact Hc. }
    assert (Hp := l_p _ _ _ _ _ _ _ L). apply Forall_app in Hp. destruct Hp as [Hp _]. apply Forall_app in Hp. destruct Hp as [_ Hp].
    apply Forall_inv in Hp. destruct Hp as (P1 & P2 & P3). destruct Hd as [->|[->| ->]]; [discriminate|congruence|congruence].
  - injection F as <- F.
    assert (F2 : (z ++ p) ++ c_lbr :: s = (t ++ [c_rbr; c_lpar]) ++ X ++ Y) by (rewrite <- !app_assoc; first [exact F | symmetry; exact F]).
    symmetry in F2. apply app_first in F2. destruct F2 as [(v & F2 & _)|(e & v & F2 & F3)].
    + apply (gok_url _ _ Hg (a ++ p') t (v ++ [c_lbr])).
      replace (((a ++ p' ++ c_lbr :: z) ++ p) ++ [c_lbr]) with ((a ++ p') ++ [c_lbr] ++ (z ++ p) ++ [c_lbr]) by (rewrite <- !app_assoc; reflexivity).
      rewrite F2. rewrite <- !app_assoc. reflexivity.
    + injection F3 as <- _.
      assert (Q : In c_lbr (t ++ [c_rbr; c_lpar])) by (rewrite F2; apply in_app_iff; right; left; reflexivity).
      apply in_app_iff in Q. destruct Q as [Q|[Q|[Q|[]]]]; try discriminate. assert (Ht := l_q _ _ _ _ _ _ _ L).
      rewrite Forall_forall in Ht. apply (Ht _ Q). reflexivity.
Qed.

Lemma url_none q g : gok q g -> forall a b, g = a ++ b -> b <> [] -> no_match (rmatch URL_REGEX) b.
Proof.
  intros Hg a b -> Hb. unfold no_match. destruct (rmatch URL_REGEX b) as [n|] eqn:E; [|exact I]. exfalso.
  apply rmatch_den in E. destruct E as [_ E]. assert (F := firstn_skipn n b).
  apply url_den in E. destruct E as (p' & t & u & r & L). rewrite (l_eq _ _ _ _ _ _ _ L) in F.
  apply (gok_url _ _ Hg (a ++ p') t ((u ++ [c_rpar] ++ r) ++ skipn n b)). rewrite <- F at 1. rewrite <- !app_assoc. reflexivity.
Qed.

(** * Reading links *)

Definition nobr (s : str) : Prop := forall a b, s <> a ++ lit "<br" ++ b.
Definition start_ok (o : option bool) (s : str) : Prop :=
  match o with Some _ => ink_first s | None => stop s end.
Definition lead_in (o : option bool) (g : str) : bool :=
  match o with Some l => l | None => startswith [c_sp] g end.
Definition lead_ln (o : option bool) (g : str) : bool :=
  if blank g then match o with Some l => l | None => false end else endswith [c_sp] g.

Record fit (p t u r : str) : Prop := {
  f_p : off [c_lbr; c_rbr; c_rpar] p; f_ps : spaceless p; f_pb : nobr p;
  f_t : off sq t; f_tn : blank t = false; f_tb : nobr t;
  f_u : off [c_lbr; c_rbr; c_rpar] u; f_un : blank u = false; f_ub : nobr u;
  f_r : off [c_lbr; c_rbr; c_lpar] r; f_rs : spaceless r }.

Definition first_half (p t : str) : str := p ++ [c_lbr] ++ rstrip t ++ [c_rbr; c_lpar].
Definition second_half (u r : str) : str := lstrip u ++ [c_rpar] ++ r.

Definition st0 (o : option bool) : gst := match o with Some _ => GA false | None => GB false end.

Lemma st0_plain o : gplain (st0 o).
Proof. destruct o; [left|right]; reflexivity. Qed.

(** [lk o s ts]: the tokens of [s], with [o] the flag of the first one, or nothing after a link. *)
Inductive lk : option bool -> str -> list tok -> Prop :=
| lk_end o g : gok (st0 o) g -> nobr g -> start_ok o g \/ g = [] -> (o <> None -> one_dot g = false) ->
    lk o g (wp (lead_in o g) (words g))
| lk_link o g p t u r s ts : gok (st0 o) ((g ++ p) ++ [c_lbr]) -> nobr g -> cut_end g -> fit p t u r ->
    start_ok o (g ++ link_str p t u r ++ s) -> lk None s ts ->
    lk o (g ++ link_str p t u r ++ s)
      (wp (lead_in o g) (words g) ++ wp (lead_ln o g) (words (first_half p t))
       ++ Tok (second_half u r) false false :: ts).

Lemma lk_stop s ts : lk None s ts -> stop s.
Proof.
  intros H. remember None as o eqn:Eo. destruct H as [o g H1 H2 H3 H4|o g p t u r s ts H1 H2 H3 H4 H5 H6]; subst o.
  - destruct H3 as [H3| ->]; [exact H3|left; reflexivity].
  - exact H5.
Qed.

Lemma lk_sealed s ts : lk None s ts -> sealed s.
Proof.
  intros H. remember None as o eqn:Eo. destruct H as [o g H1 H2 H3 H4|o g p t u r s ts H1 H2 H3 H4 H5 H6]; subst o; intros x y E.
  - exfalso. exact (gok_b _ _ H1 x y E).
  - assert (E' : (g ++ p) ++ c_lbr :: (t ++ [c_rbr; c_lpar] ++ u ++ [c_rpar] ++ r ++ s) = (x ++ [c_rbr; c_lpar]) ++ y).
    { transitivity (x ++ [c_rbr; c_lpar] ++ y); [|rewrite <- app_assoc; reflexivity]. rewrite <- E. unfold link_str. rewrite <- !app_assoc. reflexivity. }
    symmetry in E'. apply app_first in E'. destruct E' as [(z & E1 & _)|(e & z & E1 & E2)].
    + exfalso. apply (gok_b _ _ H1 x (z ++ [c_lbr])). rewrite E1, <- !app_assoc. reflexivity.
    + injection E2 as <- _. assert (Q : In c_lbr (x ++ [c_rbr; c_lpar])) by (rewrite E1; apply in_app_iff; right; left; reflexivity).
      apply in_app_iff in Q. destruct Q as [Q|[Q|[Q|[]]]]; try discriminate. exact Q.
Qed.

Lemma lk_no_ref o s ts : lk o s ts -> forall a b, s <> a ++ [c_rbr; c_lbr] ++ b.
Proof.
  intros H. induction H as [o g H1 H2 H3 H4|o g p t u r s ts H1 H2 H3 H4 H5 H6 IH]; intros a b E.
  - exact (gok_ref _ _ H1 a b E).
  - clear H6 H5.
    assert (E' : ((g ++ p) ++ [c_lbr]) ++ t ++ c_rbr :: (c_lpar :: u ++ [c_rpar] ++ r) ++ s = (a ++ [c_rbr]) ++ c_lbr :: b).
    { transitivity (a ++ [c_rbr; c_lbr] ++ b); [|rewrite <- app_assoc; reflexivity]. rewrite <- E. unfold link_str. rewrite <- !app_assoc. cbn [app]. rewrite <- !app_assoc. reflexivity. }
    clear E. rename E' into E.
    assert (N1 : ~ In c_lbr t) by (apply (off_notin _ t c_lbr (f_t _ _ _ _ H4)); cbn; auto).
    assert (N2 : ~ In c_lbr (c_lpar :: u ++ [c_rpar] ++ r)).
    { cbn [In]. rewrite !in_app_iff. intros [Q|[Q|[[Q|[]]|Q]]]; try discriminate.
      - apply (off_notin _ u c_lbr (f_u _ _ _ _ H4)); [cbn; auto|exact Q].
      - apply (off_notin _ r c_lbr (f_r _ _ _ _ H4)); [cbn; auto|exact Q]. }
    assert (N3 : ~ In c_rbr (c_lpar :: u ++ [c_rpar] ++ r)).
    { cbn [In]. rewrite !in_app_iff. intros [Q|[Q|[[Q|[]]|Q]]]; try discriminate.
      - apply (off_notin _ u c_rbr (f_u _ _ _ _ H4)); [cbn; auto|exact Q].
      - apply (off_notin _ r c_rbr (f_r _ _ _ _ H4)); [cbn; auto|exact Q]. }
    apply app_first in E. destruct E as [(z & E0 & E)|(e & z & E1 & E2)].
    + (* the bracket is after the first one of the link *)
      apply app_first in E. destruct E as [(z' & -> & E)|(e & z' & E1 & E2)].
      * destruct z' as [|d z']; [discriminate|]. injection E as <- E.
        change ((c_lpar :: u ++ [c_rpar] ++ r) ++ s = z' ++ c_lbr :: b) in E. apply app_first in E. destruct E as [(z2 & -> & E)|(e & z2 & E1 & E2)].
        -- (* in the rest *)
           set (M := c_lpar :: u ++ [c_rpar] ++ r) in *.
           assert (E3 : a ++ [c_rbr] = ((((g ++ p) ++ [c_lbr]) ++ t ++ [c_rbr]) ++ M) ++ z2) by (rewrite E0; rewrite <- !app_assoc; reflexivity).
           destruct z2 as [|d z2 _] using rev_ind.
           ++ rewrite app_nil_r in E3.
              destruct (exists_last (l := M)) as (m & d & Em); [discriminate|]. rewrite Em, app_assoc in E3. apply app_inj_tail in E3. destruct E3 as [_ <-].
              apply N3. rewrite Em. apply in_app_iff. right. left. reflexivity.
           ++ rewrite app_assoc in E3. apply app_inj_tail in E3. destruct E3 as [_ <-].
              apply (IH z2 b). rewrite E, <- app_assoc. reflexivity.
        -- injection E2 as <- _. apply N2. rewrite E1. apply in_app_iff. right. left. reflexivity.
      * injection E2 as <- _. apply N1. rewrite E1. apply in_app_iff. right. left. reflexivity.
    + (* within the gap *)
      injection E2 as <- _. apply (gok_ref _ _ H1 a z). rewrite E1, <- !app_assoc. reflexivity.
Qed.

Lemma no_refs s : (forall a b, s <> a ++ [c_rbr; c_lbr] ++ b) -> finditer FOOTNOTE_REGEX s = [].
Proof.
  intros H. apply finditer_nil. intros x g y -> Hd. apply footnote_den in Hd. destruct Hd as (p & q & u & r & [E _ _ _ _ _]).
  apply (H (x ++ p ++ [c_lbr] ++ q) ((u ++ [c_rbr] ++ r) ++ y)). rewrite E, <- !app_assoc. reflexivity.
Qed.

Lemma sort_id l : ForallOrdPairs (fun x y : nat * nat => fst x <= fst y) l -> sort_matches l = l.
Proof.
  intros H. induction H as [|m l Hm H IH]; [reflexivity|]. cbn [sort_matches fold_right]. fold (sort_matches l). rewrite IH.
  destruct Hm as [|x l Hx _]; [reflexivity|]. cbn [insert_match]. apply Nat.leb_le in Hx. rewrite Hx. reflexivity.
Qed.

Lemma links_scan s ms : scan (rmatch URL_REGEX) 0 s ms -> (forall a b, s <> a ++ [c_rbr; c_lbr] ++ b) -> link_matches s = ms.
Proof.
  intros H Hn. unfold link_matches. rewrite no_refs by exact Hn. cbn [app].
  rewrite <- (finditer_unique _ _ _ H). apply sort_id. destruct (scan_sorted _ _ _ _ H) as [S1 S2].
  clear H. induction S2 as [|m l Hm S2 IH]; [constructor|]. inversion S1; subst. constructor; [|apply IH; assumption].
  eapply Forall_impl; [|exact Hm]. cbn. intros x Hx. lia.
Qed.

(** ** Pieces without line break tags *)

Lemma nobr_infix x s y : nobr (x ++ s ++ y) -> nobr s.
Proof. intros H a b ->. apply (H (x ++ a) (b ++ y)). rewrite <- !app_assoc. reflexivity. Qed.

Lemma nobr_sep x c y : ~ In c (lit "<br") -> nobr x -> nobr y -> nobr (x ++ c :: y).
Proof.
  intros Hc Hx Hy a b E. apply app_first in E. destruct E as [(z & -> & E)|(e & z & -> & E)].
  - destruct z as [|d z]; [cbn in E; injection E as -> _; apply Hc; cbn; auto|]. injection E as <- E. exact (Hy z b E).
  - destruct z as [|d1 [|d2 z]]; cbn [app lit String.list_ascii_of_string map] in E.
    + injection E as _ E _. apply Hc. rewrite <- E. cbn. auto.
    + injection E as _ _ E _. apply Hc. rewrite <- E. cbn. auto.
    + injection E as <- <- <- E. apply (Hx a z). reflexivity.
Qed.

Lemma nobr_nil : nobr [].
Proof. intros [|] ? E; discriminate. Qed.

Lemma nobr_snoc x c : ~ In c (lit "<br") -> nobr x -> nobr (x ++ [c]).
Proof. intros Hc Hx. apply nobr_sep; [exact Hc|exact Hx|apply nobr_nil]. Qed.

Lemma nobr_rstrip s : nobr s -> nobr (rstrip s).
Proof. intros H. destruct (rstrip_by_spec is_space s) as (y & E & _). apply (nobr_infix [] _ y). cbn [app]. unfold rstrip. rewrite <- E. exact H. Qed.

Lemma nobr_lstrip s : nobr s -> nobr (lstrip s).
Proof. intros H. destruct (lstrip_by_spec is_space s) as (y & E & _). apply (nobr_infix y _ []). rewrite app_nil_r. unfold lstrip. rewrite <- E. exact H. Qed.

Lemma nobr_strip s : nobr s -> nobr (strip s).
Proof. intros H. apply nobr_rstrip, nobr_lstrip, H. Qed.

Lemma nobr_breaks s : nobr s -> finditer HTML_NEWLINE_REGEX s = [].
Proof.
  intros H. apply finditer_nil. intros x g y -> Hd. apply html_den in Hd.
  assert (G : exists t, g = lit "<br" ++ t).
  { cbn in Hd. repeat destruct Hd as [<-|Hd]; try (eexists; reflexivity). destruct Hd. }
  destruct G as (t & ->). apply (H x (t ++ y)). rewrite <- !app_assoc. reflexivity.
Qed.

Lemma nobr_not_html s : nobr s -> is_html_newline s = false.
Proof.
  intros H. destruct (is_html_newline s) eqn:E; [|reflexivity]. exfalso.
  apply (html_newline_spec (s, false)) in E. destruct E as (tag & t & Es & Hin). cbn [fst] in Es.
  assert (G : exists u, tag = lit "<br" ++ u).
  { cbn in Hin. repeat destruct Hin as [<-|Hin]; try (eexists; reflexivity). destruct Hin. }
  destruct G as (u & ->). apply (H [] (u ++ t)). rewrite Es, <- app_assoc. reflexivity.
Qed.

Lemma fit_first p t u r : fit p t u r -> nobr (first_half p t).
Proof.
  intros H. unfold first_half. cbn [app].
  apply nobr_sep; [cbn; intuition discriminate|apply (f_pb _ _ _ _ H)|].
  apply nobr_sep; [cbn; intuition discriminate|apply nobr_rstrip, (f_tb _ _ _ _ H)|].
  apply (nobr_sep [] c_lpar []); [cbn; intuition discriminate|apply nobr_nil|apply nobr_nil].
Qed.

Lemma fit_second p t u r : fit p t u r -> is_html_newline (second_half u r) = false.
Proof.
  intros H. destruct (is_html_newline (second_half u r)) eqn:E; [|reflexivity]. exfalso.
  apply (html_newline_spec (second_half u r, false)) in E. destruct E as (tag & v & Es & Hin). cbn [fst] in Es.
  assert (G : exists w, tag = lit "<br" ++ w).
  { cbn in Hin. repeat destruct Hin as [<-|Hin]; try (eexists; reflexivity). destruct Hin. }
  destruct G as (w & ->). assert (N := nobr_lstrip _ (f_ub _ _ _ _ H)). unfold second_half in Es.
  destruct (lstrip u) as [|c1 [|c2 [|c3 z]]]; cbn in Es; try discriminate.
  injection Es as -> -> -> _. apply (N [] z). reflexivity.
Qed.

(** ** The passes *)

Record ltok (t : tok) : Prop := {
  lt_br : t_eval t = true -> nobr (t_text t);
  lt_sp : spacing (t_text t);
  lt_ink : t_eval t = true -> ink_first (t_text t) /\ ink_last (t_text t) }.

Lemma lpasses ts : Forall ltok ts ->
  (t3 <- split_pass newline_split ts ;; split_pass space_split t3) = Ok (expands ts).
Proof.
  intros H. assert (G : split_pass newline_split ts = Ok ts).
  { induction H as [|t ts Ht H IH]; [reflexivity|]. rewrite split_pass_cons, IH. destruct (t_eval t) eqn:He; [|reflexivity].
    destruct (lt_ink t Ht He) as [H1 H2]. destruct (ink_ends_strip _ H1 H2) as [Es Eb].
    unfold newline_split. rewrite nobr_breaks by apply (lt_br t Ht He). cbn [fold_left skipn]. rewrite Eb, Es.
    destruct t as [text lead ev]. cbn [t_eval] in He. subst ev. reflexivity. }
  rewrite G. cbn [bind]. clear G. induction H as [|t ts Ht H IH]; [reflexivity|].
  rewrite split_pass_cons, IH, expands_cons. unfold expand.
  destruct (t_eval t) eqn:He; [|reflexivity]. rewrite space_split_words by apply (lt_sp t Ht). reflexivity.
Qed.

Lemma strip_first_half p t : spaceless p -> blank t = false -> strip (p ++ [c_lbr] ++ t) = p ++ [c_lbr] ++ rstrip t.
Proof.
  intros Hp Ht.
  assert (E : lstrip (p ++ [c_lbr] ++ t) = p ++ [c_lbr] ++ t).
  { destruct Hp as [|c p Hc _]; cbn [app lstrip lstrip_by]; unfold lstrip; cbn [lstrip_by]; [reflexivity|]. rewrite Hc. reflexivity. }
  unfold strip. rewrite E. unfold rstrip. rewrite app_assoc. rewrite rstrip_by_app_ne; [rewrite <- app_assoc; reflexivity|].
  intros G. apply rstrip_by_nil in G. unfold blank in Ht. change (forallb is_space t = true) in G.
  apply spaces_forallb in G. apply ink_ne_blank in Ht. apply Ht, ink_nil, G.
Qed.

Lemma ink_last_spaceless s : s <> [] -> spaceless s -> ink_last s.
Proof.
  intros Hn H. destruct s as [|c s _] using rev_ind; [congruence|]. apply Forall_app in H. exists s, c.
  split; [reflexivity|apply (Forall_inv (proj2 H))].
Qed.

Lemma second_last r : spaceless r -> ink_last ([c_rpar] ++ r).
Proof.
  intros H. apply ink_last_spaceless; [discriminate|]. constructor; [reflexivity|exact H].
Qed.

Lemma strip_second_half u r : blank u = false -> spaceless r -> strip (u ++ [c_rpar] ++ r) = second_half u r.
Proof.
  intros Hu Hr. unfold second_half, strip.
  assert (E : lstrip (u ++ [c_rpar] ++ r) = lstrip u ++ [c_rpar] ++ r).
  { clear Hr. unfold lstrip. induction u as [|c u IH]; [reflexivity|]. cbn [app lstrip_by]. destruct (is_space c) eqn:Hc; [|reflexivity].
    apply IH. apply ink_ne_blank. apply ink_ne_blank in Hu. cbn [ink filter] in Hu. unfold ink in Hu |- *. cbn [filter] in Hu.
    unfold not_space in Hu. rewrite Hc in Hu. exact Hu. }
  rewrite E. destruct (second_last r Hr) as (a & c & Ea & Hc). rewrite Ea, app_assoc. apply rstrip_by_snoc. exact Hc.
Qed.

Lemma split_link_parts p t u r : fit p t u r -> split_link (link_str p t u r) = Ok (first_half p t, second_half u r).
Proof.
  intros H. unfold split_link.
  assert (C : contains [c_rbr; c_lpar] (link_str p t u r) = true).
  { apply contains_spec. exists (p ++ [c_lbr] ++ t), (u ++ [c_rpar] ++ r). unfold link_str. rewrite <- !app_assoc. reflexivity. }
  rewrite C. replace (link_str p t u r) with ((p ++ [c_lbr] ++ t) ++ [c_rbr; c_lpar] ++ (u ++ [c_rpar] ++ r))
    by (unfold link_str; rewrite <- !app_assoc; reflexivity).
  assert (N1 : ~ In c_rbr (p ++ [c_lbr] ++ t)).
  { rewrite !in_app_iff. intros [Q|[[Q|[]]|Q]]; [|discriminate|].
    - apply (off_notin _ p c_rbr (f_p _ _ _ _ H)); [cbn; auto|exact Q].
    - apply (off_notin _ t c_rbr (f_t _ _ _ _ H)); [cbn; auto|exact Q]. }
  assert (N2 : ~ In c_rbr (u ++ [c_rpar] ++ r)).
  { rewrite !in_app_iff. intros [Q|[[Q|[]]|Q]]; try discriminate.
    - apply (off_notin _ u c_rbr (f_u _ _ _ _ H)); [cbn; auto|exact Q].
    - apply (off_notin _ r c_rbr (f_r _ _ _ _ H)); [cbn; auto|exact Q]. }
  rewrite split_on2_at; [|discriminate|].
  - rewrite split_on2_none.
    + rewrite strip_first_half by (apply (f_ps _ _ _ _ H) || apply (f_tn _ _ _ _ H)).
      rewrite strip_second_half by (apply (f_un _ _ _ _ H) || apply (f_rs _ _ _ _ H)). unfold first_half.
      rewrite <- !app_assoc. reflexivity.
    + destruct (contains [c_rbr; c_lpar] (u ++ [c_rpar] ++ r)) eqn:E; [|reflexivity]. exfalso. apply contains_spec in E. destruct E as (a & b & E).
      apply N2. rewrite E. apply in_app_iff. right. left. reflexivity.
  - destruct (contains [c_rbr; c_lpar] ((p ++ [c_lbr] ++ t) ++ [c_rbr])) eqn:E; [|reflexivity]. exfalso. apply contains_spec in E. destruct E as (a & b & E).
    apply app_first in E. destruct E as [(z & -> & E)|(e & z & E1 & E2)].
    + destruct z as [|d [|d' z]]; discriminate.
    + injection E2 as <- _. apply N1. rewrite E1. apply in_app_iff. right. left. reflexivity.
Qed.

Definition gtok (o : option bool) (g : str) : list tok :=
  if blank g then [] else [Tok (strip g) (lead_in o g) true].

Lemma words_blank g : blank g = true -> words g = [].
Proof. intros H. apply words_spaces. apply ink_nil, ink_blank, H. Qed.

Lemma gtok_expands o g : expands (gtok o g) = wp (lead_in o g) (words g).
Proof.
  unfold gtok. destruct (blank g) eqn:Eb; [rewrite words_blank by exact Eb; reflexivity|].
  unfold expands. cbn [map concat]. unfold expand. cbn [t_eval t_lead t_text]. rewrite app_nil_r, words_strip. reflexivity.
Qed.

Lemma gtok_ltok o g : nobr g -> spacing g -> Forall ltok (gtok o g).
Proof.
  intros Hb Hs. unfold gtok. destruct (blank g) eqn:E; [constructor|]. constructor; [|constructor].
  split; cbn [t_text t_eval]; [intros _; apply nobr_strip, Hb|apply Forall_strip, Hs|intros _; apply strip_ends, E].
Qed.

Lemma stop_no_dot s : stop s -> one_dot s = false.
Proof. intros [->|(c & s' & -> & [->|[->| ->]])]; reflexivity. Qed.

Lemma stop_gap_no_dot g s : stop (g ++ s) -> one_dot g = false.
Proof.
  destruct g as [|c g]; [reflexivity|]. intros [E|(d & s' & E & H)]; [discriminate|]. injection E as <- _.
  destruct H as [->|[->| ->]]; reflexivity.
Qed.

Lemma fit_ltoks p t u r l : fit p t u r -> spacing t -> spacing u ->
  Forall ltok [Tok (first_half p t) l true; Tok (second_half u r) false false].
Proof.
  intros H St Su.
  assert (Sl : forall s, spaceless s -> spacing s).
  { intros s Hs. eapply Forall_impl; [|exact Hs]. cbn. intros c Hc Hc'. congruence. }
  constructor; [|constructor; [|constructor]]; split; cbn [t_text t_eval]; try discriminate.
  - intros _. eapply fit_first, H.
  - unfold first_half. rewrite !spacing_app. split; [apply Sl, (f_ps _ _ _ _ H)|].
    split; [repeat constructor; discriminate|]. split; [apply Forall_rstrip_by, St|repeat constructor; discriminate].
  - intros _. unfold first_half. split.
    + destruct (f_ps _ _ _ _ H) as [|c p' Hc _]; [eexists; eexists; split; [reflexivity|reflexivity]|].
      exists c. eexists. split; [reflexivity|exact Hc].
    + exists (p ++ [c_lbr] ++ rstrip t ++ [c_rbr]), c_lpar. rewrite <- !app_assoc. split; reflexivity.
  - unfold second_half. rewrite !spacing_app. split; [apply Forall_lstrip_by, Su|].
    split; [repeat constructor; discriminate|apply Sl, (f_rs _ _ _ _ H)].
Qed.

Lemma lk_sound o s ts : lk o s ts -> spacing s -> forall text pre toks lead, text = pre ++ s ->
  match o with Some l => pre = [] /\ toks = [] /\ lead = l | None => pre <> [] /\ toks <> [] end ->
  exists ms tks, scan (rmatch URL_REGEX) (length pre) s ms
    /\ ('(a, le) <- foldM (link_step text lead) ms (toks, length pre) ;;
        split_tail a (skipn le text) le lead) = Ok (toks ++ tks)
    /\ Forall ltok tks /\ expands tks = ts.
Proof.
  intros H. induction H as [o g H1 H2 H3 H4|o g p t u r s ts H1 H2 H3 H4 H5 H6 IH];
    intros Hs text pre toks lead -> Ho.
  - exists [], (gtok o g). split; [eapply scan_end, url_none, H1|].
    split; [|split; [apply gtok_ltok; assumption|apply gtok_expands]].
    cbn [foldM bind]. rewrite skipn_pre. unfold split_tail.
    assert (Hd : one_dot g = false).
    { destruct o as [l|]; [apply H4; discriminate|]. destruct H3 as [H3| ->]; [apply stop_no_dot, H3|reflexivity]. }
    rewrite Hd. cbn [bind]. unfold gtok. destruct (blank g); cbn [negb]; [rewrite app_nil_r; reflexivity|].
    f_equal. f_equal. f_equal. f_equal. destruct o as [l|].
    + destruct Ho as (-> & _ & ->). reflexivity.
    + destruct Ho as [Hp _]. destruct pre; [congruence|reflexivity].
  - rewrite !spacing_app in Hs. destruct Hs as (S1 & S2 & S3).
    assert (S2' := S2). unfold link_str in S2'. rewrite !spacing_app in S2'. destruct S2' as (_ & _ & St & _ & Su & _ & _).
    set (L := link_str p t u r) in *.
    set (T := [Tok (first_half p t) (lead_ln o g) true; Tok (second_half u r) false false]).
    destruct (IH S3 ((pre ++ g ++ L) ++ s) (pre ++ g ++ L) (toks ++ gtok o g ++ T) lead eq_refl)
      as (ms & tks & G1 & G2 & G3 & G4).
    { split; [intros E; apply app_eq_nil in E; destruct E as [_ E]; apply app_eq_nil in E; destruct E as [_ E]; unfold L, link_str in E; apply app_eq_nil in E; destruct E; discriminate|].
      intros E. apply app_eq_nil in E. destruct E as [_ E]. apply app_eq_nil in E. destruct E; discriminate. }
    exists ((length pre + length g, length pre + length g + length L) :: ms), (gtok o g ++ T ++ tks).
    split; [|split; [|split]].
    + apply scan_match.
      * intros a b E Hb. unfold L, link_str. rewrite <- !app_assoc. eapply url_gap; eassumption.
      * unfold L, link_str. intros E. apply app_eq_nil in E. destruct E; discriminate.
      * apply url_match; try apply H4.
        -- intros ->. discriminate (f_tn _ _ _ _ H4).
        -- intros ->. discriminate (f_un _ _ _ _ H4).
        -- eapply lk_stop, H6.
        -- eapply lk_sealed, H6.
      * rewrite !app_length, Nat.add_assoc in G1. exact G1.
    + cbn [foldM].
      assert (Est : link_step (pre ++ g ++ L ++ s) lead (toks, length pre) (length pre + length g, length pre + length g + length L)
                    = Ok (toks ++ gtok o g ++ T, length (pre ++ g ++ L))).
      { unfold link_step. rewrite slice_mid.
        replace (length pre + length g) with (length (pre ++ g)) by apply app_length.
        replace (pre ++ g ++ L ++ s) with ((pre ++ g) ++ L ++ s) by (rewrite <- app_assoc; reflexivity).
        rewrite slice_mid. change (split_link L) with (split_link (link_str p t u r)). rewrite split_link_parts by exact H4. cbn [bind].
        assert (Hd : negb (nilb toks) && one_dot g = false).
        { destruct o as [l|]; [destruct Ho as (_ & -> & _); reflexivity|]. rewrite (stop_gap_no_dot g (L ++ s)); [apply andb_false_r|exact H5]. }
        rewrite Hd. unfold gtok. destruct (blank g) eqn:Eb; cbn [negb].
        - unfold T, lead_ln. rewrite Eb. cbn [app bind]. f_equal. f_equal.
          + destruct o as [l|]; [destruct Ho as (_ & -> & ->); reflexivity|]. destruct Ho as [_ Ho].
            destruct toks; [congruence|reflexivity].
          + rewrite !app_length. lia.
        - cbn [bind]. f_equal. f_equal.
          + rewrite <- !app_assoc. f_equal. unfold T, lead_ln. rewrite Eb. cbn [app]. f_equal; [f_equal|f_equal; f_equal].
            * destruct o as [l|]; [destruct Ho as (_ & -> & ->); reflexivity|]. destruct Ho as [_ Ho].
              destruct toks; [congruence|reflexivity].
            * destruct g as [|c g _] using rev_ind; [discriminate|].
              replace (length (pre ++ g ++ [c]) - 1) with (length (pre ++ g)) by (rewrite !app_length; cbn; lia).
              replace (pre ++ (g ++ [c]) ++ L ++ s) with ((pre ++ g) ++ c :: L ++ s) by (rewrite <- !app_assoc; reflexivity).
              rewrite nth_error_app2, Nat.sub_diag by lia. cbn [nth_error].
              unfold endswith. rewrite rev_app_distr. cbn [rev app startswith]. rewrite andb_true_r. apply N.eqb_sym.
          + rewrite !app_length. lia. }
      rewrite Est. cbn [bind]. rewrite <- !app_assoc in G2. exact G2.
    + apply Forall_app. split; [apply gtok_ltok; assumption|]. apply Forall_app. split; [|exact G3].
      eapply fit_ltoks; eassumption.
    + rewrite !expands_app, gtok_expands, G4. f_equal. unfold T, expands. cbn [map concat]. unfold expand. cbn [t_eval t_lead t_text].
      rewrite <- !app_assoc. reflexivity.
Qed.

(** The tokens of the pieces between inline code. *)
Inductive lks : list tok -> list tok -> Prop :=
| lks_nil : lks [] []
| lks_lit t r rs : t_eval t = false -> lks r rs -> lks (t :: r) (t :: rs)
| lks_read t a r rs : t_eval t = true -> lk (Some (t_lead t)) (t_text t) a -> lks r rs -> lks (t :: r) (a ++ rs).

Lemma lk_link_split s l ts : lk (Some l) s ts -> spacing s ->
  exists tks, link_split s l = Ok tks /\ Forall ltok tks /\ expands tks = ts.
Proof.
  intros H Hs. destruct (lk_sound _ _ _ H Hs s [] [] l eq_refl) as (ms & tks & G1 & G2 & G3 & G4); [auto|].
  exists tks. split; [|auto]. unfold link_split. rewrite (links_scan s ms); [exact G2|exact G1|]. eapply lk_no_ref, H.
Qed.

Lemma lks_sound cts ts : lks cts ts -> Forall (fun t => spacing (t_text t)) cts ->
  (t2 <- split_pass link_split cts ;; t3 <- split_pass newline_split t2 ;; split_pass space_split t3) = Ok ts.
Proof.
  intros H Hs.
  assert (G : exists tks, split_pass link_split cts = Ok tks /\ Forall ltok tks /\ expands tks = ts).
  { induction H as [|t r rs He H IH|t a r rs He Hl H IH].
    - exists []. repeat split. constructor.
    - inversion Hs; subst. destruct (IH ltac:(assumption)) as (tks & E1 & E2 & E3). exists (t :: tks).
      rewrite split_pass_cons, He, E1. split; [reflexivity|]. split.
      + constructor; [|exact E2]. split; [congruence|assumption|congruence].
      + rewrite expands_cons, E3. unfold expand. rewrite He. reflexivity.
    - inversion Hs; subst. destruct (IH ltac:(assumption)) as (tks & E1 & E2 & E3).
      destruct (lk_link_split _ _ _ Hl ltac:(assumption)) as (tk & F1 & F2 & F3). exists (tk ++ tks).
      rewrite split_pass_cons, He, F1, E1. split; [reflexivity|]. split; [apply Forall_app; auto|].
      rewrite expands_app. congruence. }
  destruct G as (tks & -> & G2 & <-). cbn [bind]. apply lpasses, G2.
Qed.

(** * Texts with inline links are read *)

Lemma cut_gap g : spacing g -> exists g1 p, g = g1 ++ p /\ cut_end g1 /\ spaceless p /\ off [c_rpar] p.
Proof.
  intros H. induction g as [|c g IH] using rev_ind; [exists [], []; repeat split; [left; reflexivity|constructor|constructor]|].
  apply spacing_app in H. destruct H as [H1 H2]. apply Forall_inv in H2.
  destruct (is_space c) eqn:Hc; [|destruct (N.eq_dec c c_rpar) as [->|Hr]].
  - exists (g ++ [c]), []. rewrite app_nil_r. repeat split; [|constructor|constructor]. right. exists g, c. auto.
  - exists (g ++ [c_rpar]), []. rewrite app_nil_r. repeat split; [|constructor|constructor]. right. exists g, c_rpar. auto.
  - destruct (IH H1) as (g1 & p & -> & E1 & E2 & E3). exists g1, (p ++ [c]). rewrite app_assoc. repeat split; [exact E1| |].
    + apply Forall_app. split; [exact E2|repeat constructor; exact Hc].
    + apply Forall_app. split; [exact E3|]. repeat constructor. cbn. intuition congruence.
Qed.

Lemma off_both cs ds es s : (forall c, In c es -> In c cs \/ In c ds) -> off cs s -> off ds s -> off es s.
Proof.
  unfold off. rewrite !Forall_forall. intros H H1 H2 c Hc He. destruct (H c He); [apply (H1 c)|apply (H2 c)]; assumption.
Qed.

Lemma links_after s : good (run Out s) -> spacing s -> exists r s2, s = r ++ s2 /\ spaceless r
  /\ off [c_lbr; c_rbr; c_lpar] r /\ stop s2 /\ good (run Out s2).
Proof.
  intros H Hs. induction Hs as [|c s Hc Hs IH].
  { exists [], []. repeat split; [constructor|constructor|left; reflexivity]. }
  destruct (N.eq_dec c c_lbr) as [->|N1].
  { exists [], (c_lbr :: s). repeat split; [constructor|constructor|right; eauto 6|exact H]. }
  rewrite run_cons in H. cbn [step] in H. assert (E1 : N.eqb c c_lbr = false) by (apply N.eqb_neq, N1). rewrite E1 in H.
  destruct (N.eqb_spec c c_rbr) as [->|N2]; [rewrite run_bad in H; destruct H|].
  assert (H' : good (run Out (c :: s))).
  { rewrite run_cons, step_start; [exact H|auto|]. intros [<-|[<-|[]]]; congruence. }
  destruct (is_space c) eqn:Hsp; [|destruct (N.eq_dec c c_lpar) as [->|N3]].
  - exists [], (c :: s). repeat split; [constructor|constructor| |exact H']. right. exists c, s. auto.
  - exists [], (c_lpar :: s). repeat split; [constructor|constructor| |exact H']. right. exists c_lpar, s. auto.
  - destruct (IH H) as (r & s2 & -> & R1 & R2 & R3 & R4). exists (c :: r), s2. repeat split; auto; constructor; auto. cbn. intuition congruence.
Qed.

Lemma lk_linked n o s : (forall s2, length s2 <= n -> good (run Out s2) -> nobr s2 -> spacing s2 -> stop s2 -> exists ts, lk None s2 ts) ->
  length s <= S n -> linked (st0 o) s -> nobr s -> spacing s -> start_ok o s -> exists ts, lk o s ts.
Proof.
  intros IH Hn (h1 & h2 & t & u & s' & -> & H1 & H2 & H3 & H4 & H5 & H6 & H7 & H8) Hb Hs Ho.
  rewrite !spacing_app in Hs. destruct Hs as ((S0 & S1) & _ & S2 & _ & S3 & _ & S4).
  destruct (cut_gap h2 S1) as (g2 & p & -> & E1 & E2 & E3). apply off_app in H3. destruct H3 as [G1 G2].
  destruct (links_after s' H8 S4) as (r & s2 & -> & R1 & R2 & R3 & R4).
  rewrite !app_length in Hn. cbn [length] in Hn. apply spacing_app in S4. destruct S4 as [S4 S5].
  set (g1 := h1 ++ g2).
  replace ((h1 ++ g2 ++ p) ++ [c_lbr] ++ t ++ [c_rbr; c_lpar] ++ u ++ [c_rpar] ++ r ++ s2) with (g1 ++ link_str p t u r ++ s2) in *
    by (unfold g1, link_str; rewrite <- !app_assoc; reflexivity).
  assert (B : nobr g1 /\ nobr p /\ nobr t /\ nobr u /\ nobr s2).
  { unfold link_str in Hb. rewrite <- !app_assoc in Hb. split; [|split; [|split; [|split]]].
    - apply (nobr_infix [] g1 (p ++ [c_lbr] ++ t ++ [c_rbr; c_lpar] ++ u ++ [c_rpar] ++ r ++ s2)). exact Hb.
    - apply (nobr_infix g1 p ([c_lbr] ++ t ++ [c_rbr; c_lpar] ++ u ++ [c_rpar] ++ r ++ s2)). exact Hb.
    - apply (nobr_infix (g1 ++ p ++ [c_lbr]) t ([c_rbr; c_lpar] ++ u ++ [c_rpar] ++ r ++ s2)).
      rewrite <- !app_assoc. exact Hb.
    - apply (nobr_infix (g1 ++ p ++ [c_lbr] ++ t ++ [c_rbr; c_lpar]) u ([c_rpar] ++ r ++ s2)).
      rewrite <- !app_assoc. exact Hb.
    - apply (nobr_infix (g1 ++ p ++ [c_lbr] ++ t ++ [c_rbr; c_lpar] ++ u ++ [c_rpar] ++ r) s2 []).
      rewrite app_nil_r. rewrite <- !app_assoc. exact Hb. }
  destruct B as (B1 & B2 & B3 & B4 & B5).
  destruct (IH s2) as (ts & Hts); try assumption; [lia|]. eexists.
  apply lk_link; try eassumption.
  - unfold g1. rewrite <- (app_assoc h1). exact H1.
  - unfold g1. destruct E1 as [->|(g' & c & -> & Hc)]; [rewrite app_nil_r; exact H2|]. right. exists (h1 ++ g'), c. rewrite app_assoc. auto.
  - constructor; try assumption. apply (off_both sq [c_rpar]); [cbn; tauto|exact G2|exact E3].
Qed.

Lemma lk_none n : forall s, length s <= n -> good (run Out s) -> nobr s -> spacing s -> stop s -> exists ts, lk None s ts.
Proof.
  induction n as [|n IH]; intros s Hn H Hb Hs Ho.
  { destruct s; [|cbn in Hn; lia]. eexists. apply (lk_end None); [discriminate|exact Hb|auto|congruence]. }
  destruct (split_out _ s (GB false) (le_n _)) as [G|G]; [right; reflexivity|exact H| |].
  - eexists. apply (lk_end None); [exact G|exact Hb|auto|congruence].
  - eapply lk_linked; eassumption.
Qed.

Lemma lk_exists s l : piece s -> nobr s -> spacing s -> ink_first s ->
  (exists ts, lk (Some l) s ts) \/ (gok (GA false) s /\ one_dot s = true).
Proof.
  intros H Hb Hs Ho. destruct (split_piece s H) as [G|G].
  - destruct (one_dot s) eqn:Ed; [right; auto|left]. eexists. apply (lk_end (Some l)); auto.
  - left. eapply (lk_linked (length s)); try eassumption; [apply lk_none|lia].
Qed.
