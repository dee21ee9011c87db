(** Proofs about the list formatters of Formatters.v. *)
From Coq Require Import String.
From Verif Require Import Py Regex Utils TextWrap Lines Detectors Formatters Base
  SpecLines SpecParser SpecFormat SpecList ProofsLines ProofsParser ProofsShapes.

(** * Markers *)

Definition no_nl (s : str) : Prop := Forall (fun c => c <> c_nl) s.

Lemma marker_head m : marker m -> exists c m', m = c :: m' /\ is_space c = false.
Proof.
  intros [(b & -> & Hb)|(ds & -> & Hn & Hd)].
  - exists b, []. split; [reflexivity|]. cbn in Hb. repeat destruct Hb as [<-|Hb]; try reflexivity. destruct Hb.
  - destruct ds as [|d ds]; [congruence|]. exists d, (ds ++ [c_dot]). split; [reflexivity|].
    apply digit_not_space. apply (Forall_inv Hd).
Qed.

Lemma lstrip_digits ds d r : Forall (fun c => is_digit c = true) ds -> is_digit d = false ->
  lstrip_by is_digit (ds ++ d :: r) = d :: r.
Proof.
  intros H Hd. rewrite lstrip_by_app by (apply forallb_forall; rewrite Forall_forall in H; exact H).
  cbn. rewrite Hd. reflexivity.
Qed.

Lemma marker_end_marked l ws m rest : marked l ws m rest -> marker_end l = Some (length (ws ++ m)).
Proof.
  intros (-> & Hw & Hm & Hr). destruct (marker_head m Hm) as (c & m' & Em & Hc).
  assert (El : lstrip (ws ++ m ++ rest) = m ++ rest) by (rewrite Em; apply lstrip_app; auto).
  unfold marker_end. rewrite El.
  assert (Hok : match rest with [] => true | [x] => N.eqb x c_nl || N.eqb x c_sp | x :: _ => N.eqb x c_sp end = true).
  { destruct Hr as [->|(r & ->)]; [reflexivity|]. destruct r; reflexivity. }
  assert (L : length (ws ++ m ++ rest) - length (m ++ rest) = length ws) by (rewrite app_length; lia).
  rewrite L.
  destruct Hm as [(b & -> & Hb)|(ds & -> & Hn & Hd)].
  - cbn [app]. assert (E : N.eqb b c_star || N.eqb b c_dash || N.eqb b c_plus = true).
    { cbn in Hb. repeat destruct Hb as [<-|Hb]; try reflexivity. destruct Hb. }
    rewrite E. cbn [skipn]. rewrite Hok, app_length. reflexivity.
  - destruct ds as [|d ds]; [congruence|]. cbn [app].
    assert (Hd1 := Forall_inv Hd).
    assert (E : N.eqb d c_star || N.eqb d c_dash || N.eqb d c_plus = false).
    { unfold is_digit in Hd1. apply andb_true_iff in Hd1. rewrite !N.leb_le in Hd1.
      rewrite !orb_false_iff, !N.eqb_neq. lia. }
    rewrite E, Hd1.
    change (d :: (ds ++ [c_dot]) ++ rest) with (((d :: ds) ++ [c_dot]) ++ rest).
    replace (((d :: ds) ++ [c_dot]) ++ rest) with ((d :: ds) ++ c_dot :: rest)
      by (rewrite <- app_assoc; reflexivity).
    rewrite lstrip_digits by (auto; reflexivity). rewrite N.eqb_refl.
    assert (L2 : length ((d :: ds) ++ c_dot :: rest) - length (c_dot :: rest) = length (d :: ds))
      by (rewrite app_length; lia).
    rewrite L2.
    assert (S1 : skipn (S (length (d :: ds))) ((d :: ds) ++ c_dot :: rest) = rest).
    { replace ((d :: ds) ++ c_dot :: rest) with (((d :: ds) ++ [c_dot]) ++ rest)
        by (rewrite <- app_assoc; reflexivity).
      rewrite skipn_app, skipn_all2 by (rewrite app_length; cbn; lia). rewrite app_length. cbn [length].
      replace (S (S (length ds)) - (S (length ds) + 1)) with 0 by lia. reflexivity. }
    rewrite S1, Hok. f_equal. rewrite app_length, app_comm_cons, app_length. cbn [length]. lia.
Qed.

Lemma marker_end_some l n : no_nl l -> marker_end l = Some n ->
  exists ws m rest, marked l ws m rest /\ n = length (ws ++ m).
Proof.
  intros Hl E. destruct (lead_decomp l) as (ws & El & Hw & _). unfold marker_end in E.
  set (s := lstrip l) in *. clearbody s.
  assert (Li : length l - length s = length ws) by (rewrite El, app_length; lia). rewrite Li in E.
  assert (Ok : forall m rest, s = m ++ rest -> marker m ->
    (if match skipn (length m) s with [] => true | [x] => N.eqb x c_nl || N.eqb x c_sp | x :: _ => N.eqb x c_sp end
     then Some (length ws + length m) else None) = Some n ->
    exists ws m rest, marked l ws m rest /\ n = length (ws ++ m)).
  { intros m rest Es Hm E'. rewrite Es, skipn_app, skipn_all, Nat.sub_diag in E'. cbn [app skipn] in E'.
    exists ws, m, rest. split.
    - split; [rewrite El, Es; reflexivity|]. split; [exact Hw|]. split; [exact Hm|].
      destruct rest as [|x rest]; [left; reflexivity|right]. exists rest.
      destruct rest as [|y rest].
      + destruct (N.eqb x c_nl || N.eqb x c_sp) eqn:Ex; [|discriminate].
        apply orb_true_iff in Ex. destruct Ex as [Ex|Ex]; apply N.eqb_eq in Ex; subst x; [|reflexivity].
        exfalso. unfold no_nl in Hl. rewrite El, Es in Hl. apply Forall_app in Hl. destruct Hl as [_ Hl].
        apply Forall_app in Hl. destruct Hl as [_ Hl]. apply (Forall_inv Hl). reflexivity.
      + destruct (N.eqb x c_sp) eqn:Ex; [|discriminate]. apply N.eqb_eq in Ex. subst. reflexivity.
    - rewrite app_length. destruct (match rest with [] => _ | _ :: _ => _ end); [|discriminate].
      apply some_inj in E'. congruence. }
  destruct s as [|c s']; [discriminate|].
  destruct (N.eqb c c_star || N.eqb c c_dash || N.eqb c c_plus) eqn:Ec.
  - apply (Ok [c] s' eq_refl); [|exact E]. left. exists c. split; [reflexivity|].
    apply orb_true_iff in Ec. destruct Ec as [Ec|Ec]; [apply orb_true_iff in Ec; destruct Ec as [Ec|Ec]|];
      apply N.eqb_eq in Ec; subst c; cbn; auto.
  - destruct (is_digit c) eqn:Hd; [|discriminate].
    destruct (lstrip_by_spec is_digit (c :: s')) as (ds & Es & Hds).
    destruct (lstrip_by is_digit (c :: s')) as [|d r] eqn:Er; [discriminate|].
    destruct (N.eqb d c_dot) eqn:Edot; [|discriminate]. apply N.eqb_eq in Edot. subst d.
    assert (Ldot : S (length (c :: s') - length (c_dot :: r)) = length (ds ++ [c_dot])).
    { rewrite Es, !app_length. cbn [length]. lia. }
    rewrite Ldot in E. apply (Ok (ds ++ [c_dot]) r); [rewrite <- app_assoc; exact Es| |exact E].
    right. exists ds. split; [reflexivity|]. split.
    + intros ->. cbn [app] in Es. injection Es as -> _. discriminate.
    + apply Forall_forall. apply forallb_forall. exact Hds.
Qed.

Lemma marked_indent l ws m rest : marked l ws m rest -> get_indent l = length ws.
Proof.
  intros (-> & Hw & Hm & _). destruct (marker_head m Hm) as (c & m' & -> & Hc).
  cbn [app]. apply get_indent_app; auto.
Qed.

Lemma marked_unique l ws m rest ws' m' rest' :
  marked l ws m rest -> marked l ws' m' rest' -> length ws = length ws' /\ length (ws ++ m) = length (ws' ++ m').
Proof.
  intros H H'. split.
  - rewrite <- (marked_indent _ _ _ _ H), <- (marked_indent _ _ _ _ H'). reflexivity.
  - apply marker_end_marked in H, H'. congruence.
Qed.

(** * Fences *)

Lemma starts3_lstrip c l : is_space c = false ->
  startswith (rep c 3) (lstrip l) = true <-> exists ws body, l = ws ++ [c; c; c] ++ body /\ spaces ws.
Proof.
  intros Hc. split.
  - intros H. destruct (lead_decomp l) as (ws & El & Hw & _). apply startswith_spec in H.
    destruct H as (t & Et). rewrite Et in El. exists ws, t. auto.
  - intros (ws & body & -> & Hw). cbn [app]. rewrite lstrip_app by auto. apply startswith_spec.
    exists body. reflexivity.
Qed.

Lemma list_fence_spec l : is_list_fence l = true <-> exists run, opens l run.
Proof.
  unfold is_list_fence. cbn [existsb]. rewrite orb_false_r, orb_true_iff.
  rewrite !starts3_lstrip by reflexivity. split.
  - intros H. assert (G : exists c ws body, In c [c_bt; c_tilde] /\ l = ws ++ [c; c; c] ++ body /\ spaces ws).
    { destruct H as [(ws & body & H)|(ws & body & H)]; [exists c_bt|exists c_tilde]; exists ws, body; cbn; auto. }
    destruct G as (c & ws & body & Hc & -> & Hw). destruct (run_decomp c body) as (n & info & -> & Hi).
    exists (repeat c (3 + n)), ws, c, (3 + n), info. repeat split; auto. lia.
  - intros (run & ws & c & n & info & -> & Hw & Hc & Hn & _). destruct n as [|[|[|n]]]; try lia.
    destruct Hc as [<-|[<-|[]]]; [left|right]; exists ws; eexists; split; try exact Hw; reflexivity.
Qed.

Lemma opens_unique l run run' : opens l run -> opens l run' -> run = run'.
Proof. intros H H'. apply full_fence_spec in H, H'. congruence. Qed.

Lemma fence_marker_unindented run info : opens (run ++ info) run -> code_block_marker (run ++ info) = run.
Proof.
  intros H. assert (H' := H). apply full_fence_spec in H'.
  destruct H as (ws & c & n & i & E & Hw & Hc & Hn & Hi & ->).
  assert (Hsp : is_space c = false) by (destruct Hc as [<-|[<-|[]]]; reflexivity).
  destruct n as [|n]; [lia|]. unfold code_block_marker.
  assert (El : lstrip (repeat c (S n) ++ info) = repeat c (S n) ++ info).
  { cbn [repeat app]. apply (lstrip_app [] c); [constructor|exact Hsp]. }
  rewrite El.
  assert (ws = []).
  { destruct ws as [|x ws]; [reflexivity|]. exfalso. cbn [repeat app] in E. injection E as <- _.
    inversion Hw; congruence. }
  subst ws. cbn [app] in E.
  change (rep c (length (repeat c (S n) ++ info) - length (lstrip_by (N.eqb c) (repeat c (S n) ++ info)))
          = repeat c (S n)).
  rewrite E, (run_length c (S n) i Hi). reflexivity.
Qed.

Lemma marked_not_fence l ws m rest run : marked l ws m rest -> ~ opens l run.
Proof.
  intros (-> & Hw & Hm & _) (ws' & c & n & info & E & Hw' & Hc & Hn & _).
  destruct n as [|n]; [lia|]. cbn [repeat app] in E.
  assert (Hsp : is_space c = false) by (destruct Hc as [<-|[<-|[]]]; reflexivity).
  destruct (marker_head m Hm) as (d & m' & Em & Hd). 
  assert (L := lstrip_app ws d (m' ++ rest) Hw Hd). rewrite Em in E. cbn [app] in E. rewrite E in L.
  rewrite lstrip_app in L by auto. injection L as <- _.
  destruct Hm as [(b & Hb & Hin)|(ds & Hds & Hne & Hdig)].
  - rewrite Hb in Em. injection Em as -> _. cbn in Hc, Hin. intuition (subst; discriminate).
  - destruct ds as [|x ds]; [congruence|]. rewrite Hds in Em. injection Em as -> _.
    apply Forall_inv in Hdig. destruct Hc as [<-|[<-|[]]]; discriminate.
Qed.

Lemma snoc_inj {A} (l l' : list A) x x' : l ++ [x] = l' ++ [x'] -> l = l' /\ x = x'.
Proof. apply app_inj_tail. Qed.

Lemma fence_open_unique ls f : fence_open ls f -> forall f', fence_open ls f' -> f = f'.
Proof.
  intros H. induction H as [|ls l f H IH Hno|ls l run H IH Ho|ls l run H IH Ho|ls l run run' H IH Ho Hn];
    intros f' H'; inversion H' as [E|? ? ? H1 Hno' E|? ? ? H1 Ho' E|? ? ? H1 Ho' E|? ? ? ? H1 Ho' Hn' E]; subst;
    try (destruct ls; discriminate);
    try (apply snoc_inj in E; destruct E as [-> ->]).
  all: try reflexivity.
  all: try (apply IH in H1).
  all: try congruence.
  all: try (exfalso; eapply Hno; eassumption).
  all: try (exfalso; eapply Hno'; eassumption).
  all: try (assert (X := opens_unique _ _ _ Ho Ho'); congruence).
  all: try (destruct ls0; discriminate).
Qed.

Definition fence_state (st : sl_state) : option str :=
  if sl_in_code st then Some (sl_code_end st) else None.

Lemma fence_step done st line st' :
  fence_open done (fence_state st) -> (forall run, opens line run -> exists info, line = run ++ info) ->
  split_list_step st line = Ok st' -> fence_open (done ++ [line]) (fence_state st').
Proof.
  intros Hf Hu E. unfold split_list_step in E.
  set (p := if is_list_fence line then _ else _) in E.
  assert (Hp : fence_state st' = if fst p then Some (snd p) else None).
  { destruct p as [ic ce]. cbn [fst snd]. destruct (marker_end line).
    - destruct (negb ic && _).
      + apply ok_inj in E. subst st'. reflexivity.
      + apply bind_ok in E. destruct E as (en & _ & E). apply ok_inj in E. subst st'. reflexivity.
    - apply bind_ok in E. destruct E as (en & _ & E). apply ok_inj in E. subst st'. reflexivity. }
  rewrite Hp. clear Hp E. unfold p. clear p.
  destruct (is_list_fence line) eqn:Ef.
  - apply list_fence_spec in Ef. destruct Ef as (run & Ho).
    destruct (Hu run Ho) as (info & ->). rewrite fence_marker_unindented by exact Ho.
    unfold fence_state in Hf. destruct (sl_in_code st).
    + destruct (str_eqb (sl_code_end st) run) eqn:Er; cbn [fst snd].
      * apply str_eqb_eq in Er. rewrite Er in Hf. eapply fence_closes; eassumption.
      * apply str_eqb_neq in Er. eapply fence_inside; try eassumption. congruence.
    + cbn [fst snd]. apply fence_opens; assumption.
  - cbn [fst snd]. apply fence_same; [exact Hf|]. intros run Ho.
    assert (is_list_fence line = true) by (apply list_fence_spec; eauto). congruence.
Qed.

Lemma append_to_last_snoc es e x : append_to_last (es ++ [e]) x = Ok (es ++ [e ++ [x]]).
Proof.
  induction es as [|e' es IH]; [reflexivity|]. cbn [app append_to_last]. rewrite IH.
  destruct (es ++ [e]) eqn:E; [destruct es; discriminate|]. reflexivity.
Qed.

Lemma split_list_step_spec st x st' : no_nl x -> split_list_step st x = Ok st' ->
  (exists ws m body, marked x ws m body /\ sl_in_code st' = false /\ length ws <= sl_max_indent st
     /\ sl_entries st' = sl_entries st ++ [[x]] /\ sl_max_indent st' = length (ws ++ m))
  \/ (exists es e, sl_entries st = es ++ [e] /\ sl_entries st' = es ++ [e ++ [x]]
        /\ sl_max_indent st' = sl_max_indent st
        /\ forall ws m body, marked x ws m body -> length ws <= sl_max_indent st -> sl_in_code st' = true).
Proof.
  intros Hx E. unfold split_list_step in E.
  set (p := if is_list_fence x then _ else _) in E. destruct p as [ic ce].
  assert (A : forall entries, append_to_last (sl_entries st) x = Ok entries ->
            exists es e, sl_entries st = es ++ [e] /\ entries = es ++ [e ++ [x]]).
  { intros entries Ea. destruct (sl_entries st) as [|e es] using rev_ind; [discriminate|].
    rewrite append_to_last_snoc in Ea. apply ok_inj in Ea. eauto. }
  destruct (marker_end x) as [n|] eqn:Em.
  - destruct (marker_end_some x n Hx Em) as (ws & m & body & Hm & ->).
    rewrite (marked_indent _ _ _ _ Hm) in E.
    destruct (negb ic && (length ws <=? sl_max_indent st)) eqn:Ec.
    + apply ok_inj in E. subst st'. left. apply andb_true_iff in Ec. destruct Ec as [E1 E2].
      apply Nat.leb_le in E2. apply negb_true_iff in E1. exists ws, m, body. cbn. auto 6.
    + apply bind_ok in E. destruct E as (en & Ea & E). apply ok_inj in E. subst st'.
      destruct (A en Ea) as (es & e & E1 & ->). right. exists es, e. cbn.
      repeat (split; [solve [auto]|]). intros ws' m' body' Hm' Hle.
      destruct (marked_unique _ _ _ _ _ _ _ Hm Hm') as [L _]. rewrite <- L in Hle.
      apply Nat.leb_le in Hle. rewrite Hle, andb_true_r in Ec. apply negb_false_iff in Ec. exact Ec.
  - apply bind_ok in E. destruct E as (en & Ea & E). apply ok_inj in E. subst st'.
    destruct (A en Ea) as (es & e & E1 & ->). right. exists es, e. cbn.
    repeat (split; [solve [auto]|]). intros ws m body Hm _. apply marker_end_marked in Hm. congruence.
Qed.

Definition part_inv (done : list str) (st : sl_state) : Prop :=
  partition_of done (sl_entries st).

Lemma partition_new done es x ws m body : marked x ws m body ->
  partition_of done es -> partition_of (done ++ [x]) (es ++ [[x]]).
Proof.
  intros Hm [Hc Hf]. split.
  - rewrite concat_app, Hc. reflexivity.
  - apply Forall_app. split; [exact Hf|]. constructor; [|constructor]. exists x, [], ws, m, body. auto.
Qed.

Lemma partition_append done es e x :
  partition_of done (es ++ [e]) -> partition_of (done ++ [x]) (es ++ [e ++ [x]]).
Proof.
  intros [Hc Hf]. split.
  - rewrite concat_app in *. cbn [concat] in *. rewrite app_nil_r in *. rewrite <- Hc, <- app_assoc. reflexivity.
  - apply Forall_app in Hf. destruct Hf as [H1 H2]. apply Forall_app. split; [exact H1|].
    apply Forall_inv in H2. destruct H2 as (l & rest & ws & m & body & -> & Hm).
    constructor; [|constructor]. exists l, (rest ++ [x]), ws, m, body. auto.
Qed.

Definition foldM_snoc {A S} (f : S -> A -> res S) (l : list A) x s :
  foldM f (l ++ [x]) s = (s' <- foldM f l s ;; f s' x).
Proof.
  revert s. induction l as [|a l IH]; intros s; cbn [app foldM bind].
  - destruct (f s x); reflexivity.
  - destruct (f s a); [apply IH|reflexivity].
Defined.

Lemma split_list_partition max lines st :
  Forall no_nl lines -> foldM split_list_step lines (SL false [] max []) = Ok st ->
  partition_of lines (sl_entries st).
Proof.
  revert st. induction lines as [|x lines IH] using rev_ind; intros st Hn E.
  - apply ok_inj in E. subst st. split; [reflexivity|constructor].
  - rewrite foldM_snoc in E. apply bind_ok in E. destruct E as (st0 & E0 & E).
    apply Forall_app in Hn. destruct Hn as [Hn Hx]. apply Forall_inv in Hx. specialize (IH st0 Hn E0).
    destruct (split_list_step_spec st0 x st Hx E)
      as [(ws & m & body & Hm & _ & _ & -> & _)|(es & e & E1 & -> & _)].
    + eapply partition_new; eassumption.
    + rewrite E1 in IH. apply partition_append. exact IH.
Qed.

(** ** Where entries start *)

Definition last_marker (entries : list (list str)) (max : nat) : Prop :=
  forall es l rest ws m body, entries = es ++ [l :: rest] -> marked l ws m body -> max = length (ws ++ m).

Lemma app_cons_snoc {A} (a : list A) x b c y : a ++ x :: b = c ++ [y] ->
  (b = [] /\ a = c /\ x = y) \/ exists b', b = b' ++ [y] /\ c = a ++ x :: b'.
Proof.
  destruct b as [|z b] using rev_ind.
  - intros E. apply app_inj_tail in E. destruct E as [-> ->]. left. auto.
  - clear IHb. intros E. right. rewrite app_comm_cons, app_assoc in E. apply app_inj_tail in E.
    destruct E as [E ->]. exists b. auto.
Qed.

Lemma right_new entries x ws m body max :
  marked x ws m body -> ~ inside_fence (concat entries) -> last_marker entries max -> length ws <= max ->
  Forall (fun e => exists l rest ws m body, e = l :: rest /\ marked l ws m body) entries ->
  entries_start_right entries -> entries_start_right (entries ++ [[x]]).
Proof.
  intros Hm Hin Hlast Hle Hall H before l rest after ws1 m1 body1 E Hm1.
  symmetry in E. apply app_cons_snoc in E. destruct E as [(-> & -> & E)|(b' & -> & ->)].
  - injection E as -> ->. split; [exact Hin|]. split.
    + intros before' l' rest' ws' m' body' -> Hm'.
      destruct (marked_unique _ _ _ _ _ _ _ Hm Hm1) as [<- _].
      rewrite <- (Hlast before' l' rest' ws' m' body' eq_refl Hm'). exact Hle.
    + intros r1 y r2 ws' m' body' E. destruct r1; discriminate.
  - apply (H before l rest b' ws1 m1 body1 eq_refl Hm1).
Qed.

Lemma right_append es e x max :
  (forall ws m body, marked x ws m body -> length ws <= max -> inside_fence (concat (es ++ [e]))) ->
  last_marker (es ++ [e]) max -> e <> [] ->
  entries_start_right (es ++ [e]) -> entries_start_right (es ++ [e ++ [x]]).
Proof.
  intros Hx Hlast He H before l rest after ws m body E Hm.
  symmetry in E. apply app_cons_snoc in E. destruct E as [(-> & -> & E)|(b' & -> & ->)].
  - destruct e as [|l0 e]; [congruence|]. cbn [app] in E. injection E as <- ->.
    destruct (H es l e [] ws m body eq_refl Hm) as (H1 & H2 & H3). split; [exact H1|]. split; [exact H2|].
    intros r1 y r2 ws' m' body' E Hm' Hle. symmetry in E. apply app_cons_snoc in E.
    destruct E as [(-> & -> & ->)|(r2' & -> & ->)].
    + rewrite <- (Hlast es l e ws m body eq_refl Hm) in Hle.
      specialize (Hx ws' m' body' Hm' Hle). rewrite concat_app in Hx. cbn [concat] in Hx.
      rewrite app_nil_r in Hx. exact Hx.
    + apply (H3 r1 y r2' ws' m' body' eq_refl Hm' Hle).
  - assert (E2 : (before ++ (l :: rest) :: b') ++ [e] = before ++ (l :: rest) :: b' ++ [e])
      by (rewrite <- app_assoc; reflexivity).
    apply (H before l rest (b' ++ [e]) ws m body E2 Hm).
Qed.

Lemma split_list_right lines st max :
  Forall no_nl lines -> fences_unindented lines ->
  foldM split_list_step lines (SL false [] max []) = Ok st ->
  fence_open lines (fence_state st) /\ last_marker (sl_entries st) (sl_max_indent st)
  /\ entries_start_right (sl_entries st).
Proof.
  revert st. induction lines as [|x lines IH] using rev_ind; intros st Hn Hu E.
  - apply ok_inj in E. subst st. split; [constructor|]. split.
    + intros es l rest ws m body E. destruct es; discriminate.
    + intros before l rest after ws m body E. destruct before; discriminate.
  - assert (E' := E). rewrite foldM_snoc in E. apply bind_ok in E. destruct E as (st0 & E0 & E).
    assert (Hn' := Hn). apply Forall_app in Hn. destruct Hn as [Hn Hx]. apply Forall_inv in Hx.
    assert (Hu0 : fences_unindented lines).
    { intros l run Hin. apply Hu. apply in_app_iff. left. exact Hin. }
    destruct (IH st0 Hn Hu0 E0) as (If & Il & Ir). clear IH.
    assert (Part := split_list_partition _ _ _ Hn E0). destruct Part as [Pc Pa].
    assert (Hf : fence_open (lines ++ [x]) (fence_state st)).
    { eapply fence_step; [exact If| |exact E]. intros run Ho. apply (Hu x run); [|exact Ho].
      apply in_app_iff. right. left. reflexivity. }
    split; [exact Hf|].
    (* a marked line does not change the fence state *)
    assert (Same : forall ws m body, marked x ws m body -> fence_open lines (fence_state st)).
    { intros ws m body Hm. assert (G := fence_same lines x _ If (fun run => marked_not_fence _ _ _ _ run Hm)).
      rewrite (fence_open_unique _ _ Hf _ G). exact If. }
    destruct (split_list_step_spec st0 x st Hx E)
      as [(ws & m & body & Hm & Hic & Hle & Ee & Emax)|(es & e & E1 & Ee & Emax & Hmk)]; rewrite Ee, Emax.
    + split.
      * intros es l rest ws1 m1 body1 Es Hm1. apply app_inj_tail in Es. destruct Es as [_ Es].
        injection Es as -> _. apply (marked_unique _ _ _ _ _ _ _ Hm Hm1).
      * eapply right_new; try eassumption. rewrite Pc. intros (run & Hr).
        assert (G := Same _ _ _ Hm). unfold fence_state in G. rewrite Hic in G.
        discriminate (fence_open_unique _ _ G _ Hr).
    + rewrite E1 in *. assert (Hen : exists l rest ws m body, e = l :: rest /\ marked l ws m body).
      { apply Forall_app in Pa. destruct Pa as [_ Pa]. apply (Forall_inv Pa). }
      destruct Hen as (l & rest & ws & m & body & -> & Hm). split.
      * intros es' l' rest' ws' m' body' Es Hm'. apply app_inj_tail in Es. destruct Es as [_ Es].
        cbn [app] in Es. injection Es as <- _. apply (Il es l rest ws' m' body' eq_refl Hm').
      * apply right_append with (sl_max_indent st0); [|exact Il|discriminate|exact Ir].
        intros ws' m' body' Hm' Hle. assert (G := Same _ _ _ Hm'). unfold fence_state in G.
        rewrite (Hmk _ _ _ Hm' Hle) in G. rewrite Pc. eexists. exact G.
Qed.

Lemma split_list_ok lines entries :
  Forall no_nl lines -> split_list lines = Ok entries ->
  partition_of lines entries /\ (fences_unindented lines -> entries_start_right entries).
Proof.
  intros Hn E. unfold split_list in E. destruct lines as [|l lines]; [discriminate|].
  apply bind_ok in E. destruct E as (mx & _ & E). apply bind_ok in E. destruct E as (st & E & E2).
  apply ok_inj in E2. subst entries. split.
  - eapply split_list_partition; eassumption.
  - intros Hu. apply (split_list_right _ _ _ Hn Hu E).
Qed.

(** Splitting succeeds when the first line has a marker. *)
Lemma split_list_total l lines ws m body :
  marked l ws m body -> exists entries, split_list (l :: lines) = Ok entries.
Proof.
  intros Hm. unfold split_list, list_marker_end_pos. rewrite (marker_end_marked _ _ _ _ Hm). cbn [bind].
  assert (Hf : is_list_fence l = false).
  { destruct (is_list_fence l) eqn:E; [|reflexivity]. apply list_fence_spec in E. destruct E as (run & Ho).
    exfalso. exact (marked_not_fence _ _ _ _ run Hm Ho). }
  assert (G : forall lines st, sl_entries st <> [] -> exists st', foldM split_list_step lines st = Ok st').
  { clear. induction lines as [|x lines IH]; intros st Hne; [eexists; reflexivity|]. cbn [foldM].
    assert (S1 : exists st1, split_list_step st x = Ok st1 /\ sl_entries st1 <> []).
    { unfold split_list_step. set (p := if is_list_fence x then _ else _). destruct p as [ic ce].
      destruct (sl_entries st) as [|e es] using rev_ind; [congruence|]. clear IHes.
      rewrite append_to_last_snoc. cbn [bind].
      destruct (marker_end x) as [n|]; [destruct (negb ic && _)|]; eexists; (split; [reflexivity|]);
        cbn; destruct es; discriminate. }
    destruct S1 as (st1 & -> & H1). cbn [bind]. apply IH. exact H1. }
  cbn [foldM].
  assert (S1 : exists st1, split_list_step (SL false [] (length (ws ++ m)) []) l = Ok st1 /\ sl_entries st1 <> []).
  { unfold split_list_step. rewrite Hf. cbn [sl_in_code sl_max_indent sl_entries].
    rewrite (marker_end_marked _ _ _ _ Hm), (marked_indent _ _ _ _ Hm). cbn [negb andb].
    replace (length ws <=? length (ws ++ m)) with true
      by (symmetry; apply Nat.leb_le; rewrite app_length; lia).
    eexists. split; [reflexivity|]. discriminate. }
  destruct S1 as (st1 & -> & H1). cbn [bind]. destruct (G lines st1 H1) as (st' & ->). cbn [bind]. eauto.
Qed.

(** * Dedenting *)

Lemma outdent_spec n l : outdented n l (lstrip (firstn n l) ++ skipn n l).
Proof.
  destruct (lstrip_by_spec is_space (firstn n l)) as (ws & E & Hw). fold (lstrip (firstn n l)) in E.
  exists ws. split; [|split; [apply spaces_forallb; exact Hw|split]].
  - rewrite app_assoc, <- E. symmetry. apply firstn_skipn.
  - assert (L := f_equal (@length _) E). rewrite app_length in L.
    assert (length (firstn n l) <= n) by (rewrite firstn_length; lia). lia.
  - destruct (lstrip (firstn n l)) as [|c s] eqn:Es.
    + rewrite app_nil_r in E. destruct (Nat.le_gt_cases n (length l)) as [Hle|Hgt].
      * left. rewrite <- E, firstn_length. lia.
      * right. intros c r Er. cbn [app] in Er. rewrite skipn_all2 in Er by lia. discriminate.
    + right. intros c' r Er. cbn [app] in Er. injection Er as <- _.
      eapply lstrip_by_head. exact Es.
Qed.

Lemma dedent_entry_spec e inner : Forall no_nl e -> dedent_entry e = Ok inner -> dedented e inner.
Proof.
  intros Hn E. unfold dedent_entry in E. destruct e as [|l rest]; [discriminate|].
  apply bind_ok in E. destruct E as (pos & Ep & E). apply ok_inj in E. subst inner.
  unfold list_marker_end_pos in Ep. destruct (marker_end l) as [n|] eqn:Em; [|discriminate].
  apply ok_inj in Ep. subst pos. inversion Hn as [|? ? Hl Hr]; subst.
  destruct (marker_end_some l n Hl Em) as (ws & m & body & Hm & ->).
  exists l, rest, ws, m, body, (map (fun line => lstrip (firstn (length (ws ++ m) + 1) line)
                                       ++ skipn (length (ws ++ m) + 1) line) rest).
  split; [reflexivity|]. split; [exact Hm|]. split.
  - f_equal. destruct Hm as (-> & _). rewrite app_assoc, skipn_app, skipn_all2 by lia.
    replace (length (ws ++ m) + 1 - length (ws ++ m)) with 1 by lia. destruct body; reflexivity.
  - clear. induction rest as [|x rest IH]; cbn; constructor; auto. apply outdent_spec.
Qed.

Lemma dedent_total e : (exists l rest ws m body, e = l :: rest /\ marked l ws m body) ->
  exists inner, dedent_entry e = Ok inner.
Proof.
  intros (l & rest & ws & m & body & -> & Hm). unfold dedent_entry, list_marker_end_pos.
  rewrite (marker_end_marked _ _ _ _ Hm). cbn. eauto.
Qed.

(** * Entries *)

Lemma split_on_app_nl_join l : str_join [c_nl] (split_on c_nl l) = l.
Proof. apply join_split_on. Qed.

Lemma rstrip_nl_spec text : exists k, text = rstrip_by (N.eqb c_nl) text ++ repeat c_nl k
  /\ forall t, rstrip_by (N.eqb c_nl) text <> t ++ [c_nl].
Proof.
  destruct (rstrip_by_spec (N.eqb c_nl) text) as (post & E & H). exists (length post). split.
  - rewrite E at 1. f_equal. apply Forall_eq_repeat. apply Forall_forall.
    rewrite forallb_forall in H. intros x Hx. apply H in Hx. apply N.eqb_eq in Hx. congruence.
  - intros t Et. apply rstrip_by_last in Et. discriminate.
Qed.

Lemma last_nonempty_join rest : rest <> [] -> forall first,
  (forall t, str_join [c_nl] (first :: rest) <> t ++ [c_nl]) -> last rest [] <> [].
Proof.
  intros Hn first H El. destruct rest as [|x rest] using rev_ind; [congruence|]. clear IHrest.
  rewrite last_last in El. subst x.
  apply (H (str_join [c_nl] (first :: rest))). rewrite app_comm_cons, str_join_app; [|discriminate|discriminate].
  reflexivity.
Qed.

Lemma join_indent prefix n first rest :
  str_join ([c_nl] ++ rep c_sp n) ((prefix ++ first) :: rest)
  = str_join [c_nl] ((prefix ++ first) :: map (fun l => repeat c_sp n ++ l) rest).
Proof.
  revert prefix first. induction rest as [|x rest IH]; intros prefix first; [reflexivity|].
  rewrite str_join_cons by discriminate. cbn [map]. rewrite (str_join_cons [c_nl]) by discriminate.
  f_equal. assert (G := IH (repeat c_sp n) x). 
  assert (E : ([c_nl] ++ rep c_sp n) ++ str_join ([c_nl] ++ rep c_sp n) (x :: rest)
              = [c_nl] ++ str_join ([c_nl] ++ rep c_sp n) ((repeat c_sp n ++ x) :: rest)).
  { rewrite <- app_assoc. f_equal. destruct rest as [|y rest]; [reflexivity|].
    rewrite (str_join_cons _ x), (str_join_cons _ (repeat c_sp n ++ x)) by discriminate. rewrite <- !app_assoc. reflexivity. }
  rewrite E, G. reflexivity.
Qed.

Lemma listed_spec prefix n text :
  listed prefix n text
    (prefix ++ [c_sp] ++ str_join ([c_nl] ++ rep c_sp n) (split_on c_nl (rstrip_by (N.eqb c_nl) text))).
Proof.
  destruct (rstrip_nl_spec text) as (k & Ek & Hk).
  set (t := rstrip_by (N.eqb c_nl) text) in *. clearbody t.
  assert (Hs := split_on_no_sep c_nl t). assert (Hj := join_split_on c_nl t).
  destruct (split_on c_nl t) as [|first rest] eqn:Es; [exfalso; eapply split_on_ne; exact Es|].
  exists first, rest, k. split; [rewrite Hj; exact Ek|]. split.
  - intros Hn. apply last_nonempty_join with first; [exact Hn|]. rewrite Hj. exact Hk.
  - split; [exact Hs|].
    assert (G := join_indent (prefix ++ [c_sp]) n first rest). rewrite <- app_assoc in G.
    rewrite <- G. destruct rest as [|y rest]; [cbn; reflexivity|].
    rewrite (str_join_cons _ first), (str_join_cons _ (prefix ++ [c_sp] ++ first)) by discriminate. rewrite <- !app_assoc. reflexivity.
Qed.
