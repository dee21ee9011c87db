(** What [finditer] finds, as a decomposition of the string. *)
From Verif Require Import Py Regex Base ProofsRegex.

Definition no_match (m : str -> option nat) (s : str) : Prop :=
  match m s with Some (S _) => False | _ => True end.

(** [scan m pos s ms]: the matches [ms] of [m] in [s], which stands at position [pos]. *)
Inductive scan (m : str -> option nat) : nat -> str -> list (nat * nat) -> Prop :=
| scan_end pos s :
    (forall a b, s = a ++ b -> b <> [] -> no_match m b) -> scan m pos s []
| scan_match pos gap g rest ms :
    (forall a b, gap = a ++ b -> b <> [] -> no_match m (b ++ g ++ rest)) ->
    g <> [] -> m (g ++ rest) = Some (length g) ->
    scan m (pos + length gap + length g) rest ms ->
    scan m pos (gap ++ g ++ rest)
      ((pos + length gap, pos + length gap + length g) :: ms).

Lemma finditer_skip m pos k s :
  finditer_from m pos k s = finditer_from m (pos + k) 0 (skipn k s).
Proof.
  revert pos s. induction k as [|k IH]; intros pos s.
  - rewrite Nat.add_0_r. reflexivity.
  - destruct s as [|c s]; [destruct (pos + S k); reflexivity|]. cbn [finditer_from skipn].
    rewrite IH. f_equal. lia.
Qed.

Lemma scan_skip m pos c s ms :
  scan m (S pos) s ms -> no_match m (c :: s) -> scan m pos (c :: s) ms.
Proof.
  intros H Hn. inversion H as [p s' Hno|p gap g rest ms' Hno Hg Hmm Hs]; subst.
  - constructor. intros [|x a] b E Hb; cbn in E.
    + subst b. exact Hn.
    + injection E as <- E. apply (Hno a b E Hb).
  - assert (G := scan_match m pos (c :: gap) g rest ms').
    replace (pos + length (c :: gap)) with (S pos + length gap) in G by (cbn; lia).
    apply G; auto.
    intros [|x a] b E Hb; cbn in E.
    + subst b. exact Hn.
    + injection E as <- E. apply (Hno a b E Hb).
Qed.

Lemma finditer_from_scan m s pos :
  (forall s n, m s = Some n -> n <= length s) ->
  scan m pos s (finditer_from m pos 0 s).
Proof.
  intros Hm. remember (length s) as k eqn:Hk. assert (Hle : length s <= k) by lia. clear Hk.
  revert s pos Hle. induction k as [|k IH]; intros s pos Hle.
  { destruct s; [|cbn in Hle; lia]. constructor. intros [|] [|] E Hb; try discriminate. congruence. }
  destruct s as [|c s].
  { constructor. intros [|] [|] E Hb; try discriminate. congruence. }
  cbn [finditer_from]. destruct (m (c :: s)) as [[|n]|] eqn:Em.
  - cbn in Hle. apply scan_skip; [apply IH; lia|]. unfold no_match. rewrite Em. exact I.
  - rewrite finditer_skip. assert (Hn := Hm _ _ Em). cbn [length] in Hn, Hle.
    assert (E : c :: s = [] ++ (c :: firstn n s) ++ skipn n s).
    { cbn. f_equal. symmetry. apply firstn_skipn. }
    rewrite E at 1. assert (L : length (c :: firstn n s) = S n) by (cbn; rewrite firstn_length; lia).
    assert (G := scan_match m pos [] (c :: firstn n s) (skipn n s)
                  (finditer_from m (S pos + n) 0 (skipn n s))).
    rewrite L in G. cbn [length] in G. rewrite Nat.add_0_r in G. apply G.
    + intros [|] [|] Ex Hb; try discriminate. congruence.
    + discriminate.
    + cbn [app]. rewrite firstn_skipn. exact Em.
    + replace (pos + S n) with (S pos + n) by lia. apply IH. rewrite skipn_length. lia.
  - cbn in Hle. apply scan_skip; [apply IH; lia|]. unfold no_match. rewrite Em. exact I.
Qed.

Lemma finditer_scan r s : scan (rmatch r) 0 s (finditer r s).
Proof.
  apply finditer_from_scan. intros x n H. apply rmatch_den in H. tauto.
Qed.

(** Conversely the matches are determined by the decomposition. *)
Lemma scan_unique m pos s ms :
  (forall s n, m s = Some n -> n <= length s) ->
  scan m pos s ms -> ms = finditer_from m pos 0 s.
Proof.
  intros Hm H. induction H as [pos s Hno|pos gap g rest ms Hno Hg Hmm Hs IH].
  - revert pos. induction s as [|c s IH]; intros pos; [reflexivity|]. cbn [finditer_from].
    assert (H0 := Hno [] (c :: s) eq_refl ltac:(discriminate)). unfold no_match in H0.
    assert (G : [] = finditer_from m (S pos) 0 s).
    { apply IH. intros a b E Hb. apply (Hno (c :: a) b); [cbn; congruence|exact Hb]. }
    destruct (m (c :: s)) as [[|n]|]; [exact G|contradiction|exact G].
  - clear Hs. revert pos IH. induction gap as [|c gap IHg]; intros pos IH.
    + cbn [app length] in *. destruct g as [|c g]; [congruence|].
      cbn [app finditer_from]. cbn [app] in Hmm. rewrite Hmm. cbn [length].
      rewrite Nat.add_0_r in *. f_equal. rewrite finditer_skip.
      rewrite skipn_app, skipn_all2, Nat.sub_diag by lia. cbn [skipn app].
      rewrite IH. f_equal. cbn [length]. lia.
    + cbn [app finditer_from].
      assert (H0 := Hno [] (c :: gap) eq_refl ltac:(discriminate)). unfold no_match in H0.
      cbn [app] in H0.
      assert (G : (pos + length (c :: gap), pos + length (c :: gap) + length g) :: ms
                  = finditer_from m (S pos) 0 (gap ++ g ++ rest)).
      { replace (pos + length (c :: gap)) with (S pos + length gap) by (cbn; lia).
        apply IHg.
        - intros a b E Hb. apply (Hno (c :: a) b); [cbn; congruence|exact Hb].
        - rewrite IH. f_equal. cbn. lia. }
      destruct (m (c :: gap ++ g ++ rest)) as [[|n]|]; [exact G|contradiction|exact G].
Qed.

Lemma finditer_unique r s ms : scan (rmatch r) 0 s ms -> ms = finditer r s.
Proof.
  apply scan_unique. intros x n H. apply rmatch_den in H. tauto.
Qed.

(** Slices of a string cut in pieces. *)
Lemma slice_mid (a b c : str) :
  slice (a ++ b ++ c) (length a) (length a + length b) = b.
Proof.
  unfold slice. rewrite skipn_app, skipn_all2, Nat.sub_diag by lia. cbn [skipn app].
  replace (length a + length b - length a) with (length b) by lia.
  rewrite firstn_app, firstn_all, Nat.sub_diag. cbn. apply app_nil_r.
Qed.

Lemma skipn_pre (a b : str) : skipn (length a) (a ++ b) = b.
Proof. rewrite skipn_app, skipn_all2, Nat.sub_diag by lia. reflexivity. Qed.

(** * Backticks *)

Definition no_tick (s : str) : Prop := Forall (fun c => c <> c_bt) s.
Definition not_tick_first (s : str) : Prop := forall s', s <> c_bt :: s'.

(** [ticks pos s ms]: the runs of backticks of [s], which stands at position [pos]. *)
Inductive ticks : nat -> str -> list (nat * nat) -> Prop :=
| ticks_end pos s : no_tick s -> ticks pos s []
| ticks_run pos gap k rest ms :
    no_tick gap -> 0 < k -> not_tick_first rest ->
    ticks (pos + length gap + k) rest ms ->
    ticks pos (gap ++ rep c_bt k ++ rest)
      ((pos + length gap, pos + length gap + k) :: ms).

Lemma rep_S c n : rep c (S n) = c :: rep c n.
Proof. reflexivity. Qed.

Lemma rmatch_star_run p k rest c :
  p c = true -> (forall d s', rest = d :: s' -> p d = false) ->
  rmatch [Star p] (rep c k ++ rest) = Some k.
Proof.
  intros Hc Hr. induction k as [|k IH].
  - destruct rest as [|d rest]; rewrite rmatch_star; cbn [rep repeat app]; [reflexivity|].
    rewrite (Hr d rest eq_refl). reflexivity.
  - rewrite rep_S. cbn [app]. rewrite rmatch_star, Hc, IH. reflexivity.
Qed.

Lemma tick_match_run k rest :
  0 < k -> not_tick_first rest ->
  rmatch (Plus (N.eqb c_bt)) (rep c_bt k ++ rest) = Some k.
Proof.
  intros Hk Hr. destruct k as [|k]; [lia|]. unfold Plus. rewrite rep_S. cbn [app rmatch].
  rewrite N.eqb_refl. fold (rmatch [Star (N.eqb c_bt)] (rep c_bt k ++ rest)).
  rewrite rmatch_star_run; [reflexivity|apply N.eqb_refl|].
  intros d s' ->. apply N.eqb_neq. intros <-. apply (Hr s'). reflexivity.
Qed.

Lemma tick_no_match c s : c <> c_bt -> rmatch (Plus (N.eqb c_bt)) (c :: s) = None.
Proof.
  intros H. unfold Plus. cbn [rmatch]. apply N.eqb_neq in H. rewrite N.eqb_sym, H. reflexivity.
Qed.

Lemma ticks_scan pos s ms : ticks pos s ms -> scan (rmatch (Plus (N.eqb c_bt))) pos s ms.
Proof.
  intros H. induction H as [pos s Hs|pos gap k rest ms Hg Hk Hr Ht IH].
  - constructor. intros a b -> Hb. apply Forall_app in Hs. destruct Hs as [_ Hs].
    destruct b as [|c b]; [congruence|]. inv Hs. unfold no_match.
    rewrite tick_no_match by assumption. exact I.
  - assert (G := scan_match (rmatch (Plus (N.eqb c_bt))) pos gap (rep c_bt k) rest ms).
    rewrite rep_length in G. apply G; clear G.
    + intros a b -> Hb. apply Forall_app in Hg. destruct Hg as [_ Hg].
      destruct b as [|c b]; [congruence|]. inv Hg. unfold no_match. cbn [app].
      rewrite tick_no_match by assumption. exact I.
    + destruct k; [lia|discriminate].
    + apply tick_match_run; assumption.
    + exact IH.
Qed.

Lemma tick_split (s : str) :
  no_tick s \/ exists gap k rest, s = gap ++ rep c_bt k ++ rest /\ no_tick gap /\ 0 < k
               /\ not_tick_first rest.
Proof.
  induction s as [|c s IH]; [left; constructor|].
  destruct (N.eq_dec c c_bt) as [->|Hc].
  - right. destruct IH as [IH|(gap & k & rest & -> & Hg & Hk & Hr)].
    + exists [], 1, s. repeat split; [constructor|lia|]. intros s' ->. inv IH. congruence.
    + destruct gap as [|d gap].
      * exists [], (S k), rest. repeat split; [constructor|lia|exact Hr].
      * exists [], 1, ((d :: gap) ++ rep c_bt k ++ rest). repeat split; [constructor|lia|].
        intros s' E. cbn in E. injection E as -> _. inv Hg. congruence.
  - destruct IH as [IH|(gap & k & rest & -> & Hg & Hk & Hr)].
    + left. constructor; assumption.
    + right. exists (c :: gap), k, rest. repeat split; auto. constructor; assumption.
Qed.

Lemma ticks_exist pos s : exists ms, ticks pos s ms.
Proof.
  remember (length s) as n eqn:Hn. assert (Hle : length s <= n) by lia. clear Hn.
  revert pos s Hle. induction n as [|n IH]; intros pos s Hle.
  - destruct s; [|cbn in Hle; lia]. exists []. constructor. constructor.
  - destruct (tick_split s) as [H|(gap & k & rest & -> & Hg & Hk & Hr)].
    + exists []. constructor. exact H.
    + rewrite !app_length, rep_length in Hle.
      destruct (IH (pos + length gap + k) rest ltac:(lia)) as (ms & Hms).
      exists ((pos + length gap, pos + length gap + k) :: ms). constructor; assumption.
Qed.

Lemma finditer_ticks s : ticks 0 s (finditer (Plus (N.eqb c_bt)) s).
Proof.
  destruct (ticks_exist 0 s) as (ms & H). assert (G := finditer_unique _ _ _ (ticks_scan _ _ _ H)).
  rewrite <- G. exact H.
Qed.

Lemma finditer_ticks_eq s ms : ticks 0 s ms -> finditer (Plus (N.eqb c_bt)) s = ms.
Proof. intros H. symmetry. apply finditer_unique, ticks_scan. exact H. Qed.

(** The first run of backticks is determined by the string. *)
Lemma run_unique gap k rest gap' k' rest' :
  gap ++ rep c_bt k ++ rest = gap' ++ rep c_bt k' ++ rest' ->
  no_tick gap -> no_tick gap' -> 0 < k -> 0 < k' ->
  not_tick_first rest -> not_tick_first rest' ->
  gap = gap' /\ k = k' /\ rest = rest'.
Proof.
  revert gap'. induction gap as [|c gap IH]; intros gap' E Hg Hg' Hk Hk' Hr Hr'.
  - destruct gap' as [|c' gap'].
    + split; [reflexivity|]. cbn [app] in E. clear Hg Hg' Hk Hk'. revert k' E.
      induction k as [|k IHk]; intros [|k'] E; cbn [rep repeat app] in E.
      * auto.
      * exfalso. apply (Hr (rep c_bt k' ++ rest')). exact E.
      * exfalso. apply (Hr' (rep c_bt k ++ rest)). symmetry. exact E.
      * injection E as E. destruct (IHk k' E) as [-> ->]. auto.
    + destruct k; [lia|]. cbn in E. injection E as <- _. inv Hg'. congruence.
  - destruct gap' as [|c' gap'].
    + destruct k'; [lia|]. cbn in E. injection E as -> _. inv Hg. congruence.
    + cbn in E. injection E as -> E. inv Hg. inv Hg'.
      destruct (IH gap' E) as (-> & -> & ->); auto.
Qed.

Lemma run_not_none gap k rest : 0 < k -> ~ no_tick (gap ++ rep c_bt k ++ rest).
Proof.
  intros Hk H. apply Forall_app in H. destruct H as [_ H]. destruct k; [lia|]. inv H. congruence.
Qed.

Lemma ticks_run_inv pos gap k rest ms :
  ticks pos (gap ++ rep c_bt k ++ rest) ms -> no_tick gap -> 0 < k -> not_tick_first rest ->
  exists ms', ms = (pos + length gap, pos + length gap + k) :: ms'
    /\ ticks (pos + length gap + k) rest ms'.
Proof.
  intros H Hg Hk Hr. remember (gap ++ rep c_bt k ++ rest) as s eqn:E.
  destruct H as [pos s Hs|pos gap' k' rest' ms Hg' Hk' Hr' Ht].
  - subst s. exfalso. eapply run_not_none; eauto.
  - symmetry in E. apply run_unique in E; auto. destruct E as (-> & -> & ->). eauto.
Qed.

Lemma two_runs k c x :
  0 < k -> c <> c_bt -> In c_bt x ->
  2 <= length (finditer (Plus (N.eqb c_bt)) (rep c_bt k ++ c :: x)).
Proof.
  intros Hk Hc Hx. assert (H := finditer_ticks ([] ++ rep c_bt k ++ c :: x)).
  cbn [app] in H. apply (ticks_run_inv 0 [] k (c :: x)) in H; [|constructor|exact Hk|].
  - destruct H as (ms' & -> & Ht). inversion Ht as [p s Hs|]; subst; [|cbn; lia].
    exfalso. inversion Hs; subst. unfold no_tick in *. rewrite Forall_forall in H2.
    apply (H2 c_bt Hx eq_refl).
  - intros s' E. injection E as -> _. congruence.
Qed.
