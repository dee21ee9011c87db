(** C75 and C76: the messages about a document. *)
From Coq Require Import String.
From Verif Require Import Py Regex Utils TextWrap Lines Detectors Formatters Logging Cli Records Base
  SpecLines SpecParser SpecFormat SpecList SpecQuote SpecDefinition SpecErrors SpecWidth SpecRecords
  ProofsParser ProofsPass ProofsRecords PropsList PropsChars PropsLimit PropsCli.
Local Open Scope nat_scope.

(** * Which records are shown *)

Lemma at_level_none level other rs : level <> other -> level <> WARNING -> Forall (leveled other) rs ->
  at_level level rs = [].
Proof.
  intros H1 H2 H. induction H as [|r rs Hr H IH]; [reflexivity|]. unfold at_level in *. cbn [filter]. rewrite IH.
  destruct (Z.eqb_spec (r_level r) level); [|reflexivity]. destruct Hr as [[_ Hr]|Hr]; congruence.
Qed.

Lemma at_level_shown level st rs :
  at_level level (filter (shown st) rs) = filter (shown st) (at_level level rs).
Proof.
  induction rs as [|r rs IH]; [reflexivity|]. unfold at_level in *. cbn [filter].
  destruct (shown st r) eqn:E1, (Z.eqb (r_level r) level) eqn:E2; cbn [filter]; rewrite ?E1, ?E2, ?IH; reflexivity.
Qed.

Lemma filter_all {A} (f : A -> bool) l : Forall (fun x => f x = true) l -> filter f l = l.
Proof. induction 1 as [|x l H _ IH]; [reflexivity|]. cbn. rewrite H, IH. reflexivity. Qed.

Lemma filter_none {A} (f : A -> bool) l : Forall (fun x => f x = false) l -> filter f l = [].
Proof. induction 1 as [|x l H _ IH]; [reflexivity|]. cbn. rewrite H, IH. reflexivity. Qed.

Lemma at_level_spec level rs : Forall (fun r => r_level r = level) (at_level level rs).
Proof. apply Forall_forall. intros r H. apply filter_In in H. apply Z.eqb_eq. tauto. Qed.

(** The records about sections are those of reformat_markdown.py. *)
Lemma info_logger R lim info text w : info <> WARNING ->
  Forall (fun r => r_logger r = LReformat) (at_level info (fst (reformat_pass_log R lim info text w))).
Proof.
  intros Hi. destruct lim as [|lim]; [constructor|]. destruct (pass_records R lim info text w) as (rest & -> & Hr).
  apply Forall_forall. intros r H. apply filter_In in H. destruct H as [H E]. apply Z.eqb_eq in E.
  apply in_app_or in H. destruct H as [H|H].
  - assert (L := own_levels R lim info text). rewrite Forall_forall in L. destruct (L _ H) as [[? _]|]; [assumption|congruence].
  - rewrite Forall_forall in Hr. destruct (Hr _ H) as [[? _]|]; [assumption|congruence].
Qed.

Lemma pass_info R lim info text w : info <> WARNING -> info <> DEBUG ->
  at_level info (fst (reformat_pass_log R (S lim) info text w)) = at_level info (own_records R lim info text).
Proof.
  intros H1 H2. destruct (pass_records R lim info text w) as (rest & -> & Hr).
  rewrite at_level_app, (at_level_none info DEBUG rest) by assumption. apply app_nil_r.
Qed.

(** The records of [reformat_markdown_text] that are shown at a level. *)
Lemma shown_at R lim text w st level :
  at_level level (reformat_markdown_text_shown R lim text w st)
  = filter (shown st) (at_level level (fst (reformat_pass_log R lim (info_const st) text w)))
    ++ match reformat_pass lim text w with
       | Err _ => []
       | Ok t =>
           let st' := if Z.ltb DEBUG (effective_level st) then set_level st ERROR else st in
           filter (shown st') (at_level level (fst (reformat_pass_log R lim (info_const st) t w)))
       end.
Proof.
  unfold reformat_markdown_text_shown. rewrite <- (pass_snd R lim (info_const st) text w).
  destruct (reformat_pass_log R lim (info_const st) text w) as [rs [t|e]]; cbn [fst snd].
  - cbv zeta. rewrite at_level_app, !at_level_shown. f_equal. destruct (Z.ltb _ _); reflexivity.
  - rewrite at_level_shown, app_nil_r. reflexivity.
Qed.

Lemma own_reports R lim info text : info <> WARNING ->
  exists pre, reports R 1 pre (map r_text (at_level info (own_records R lim info text)))
    /\ match parse_markdown lim (splitlines text) with
       | Ok secs => exists post, secs = pre ++ post /\ (post <> [] -> exists e, build_formatters 0 None secs = Err e)
       | Err _ => pre = []
       end.
Proof.
  intros Hi. unfold own_records. destruct (parse_markdown lim (splitlines text)) as [secs|e] eqn:Ep.
  - destruct (build_reports R info secs Hi (sound_sections _ _ _ Ep (splitlines_one_line text)) 0 None) as (pre & post & E & Hr & Hp).
    exists pre. split; [exact Hr|]. exists post. auto.
  - exists []. split; [constructor|reflexivity].
Qed.

(** * C75 *)

(** Whatever is logged, the result is that of the model without records. *)
Theorem C75_result : forall R lim info text w,
  snd (reformat_pass_log R lim info text w) = reformat_pass lim text w.
Proof. exact pass_snd. Qed.

Lemma show_all R lim text w st : info_const st = INFO -> (effective_level st <= INFO)%Z ->
  filter (shown st) (at_level INFO (fst (reformat_pass_log R lim (info_const st) text w)))
  = at_level INFO (fst (reformat_pass_log R lim (info_const st) text w)).
Proof.
  intros Hc He. rewrite Hc. apply filter_all. assert (H := info_logger R lim INFO text w ltac:(discriminate)).
  assert (H' := at_level_spec INFO (fst (reformat_pass_log R lim INFO text w))).
  rewrite Forall_forall in *. intros r Hr. unfold shown. rewrite (H _ Hr), (H' _ Hr). apply Z.leb_le. exact He.
Qed.

Lemma show_none R lim text w st : info_const st = INFO -> (INFO < effective_level st)%Z ->
  filter (shown st) (at_level INFO (fst (reformat_pass_log R lim (info_const st) text w))) = [].
Proof.
  intros Hc He. rewrite Hc. apply filter_none. assert (H := info_logger R lim INFO text w ltac:(discriminate)).
  assert (H' := at_level_spec INFO (fst (reformat_pass_log R lim INFO text w))).
  rewrite Forall_forall in *. intros r Hr. unfold shown. rewrite (H _ Hr), (H' _ Hr). apply Z.leb_gt. exact He.
Qed.

(** If INFO messages are shown, and DEBUG messages are not, the INFO messages about a document
    list its sections, each once, in order, with its lines. *)
Theorem C75_verbose : forall R lim text w st out,
  info_const st = INFO -> (DEBUG < effective_level st <= INFO)%Z ->
  reformat_markdown_text lim text w = Ok out ->
  exists lim' secs, parse_markdown lim' (splitlines text) = Ok secs
    /\ concat (map snd secs) = splitlines text
    /\ reports R 1 secs (map r_text (filter (fun r => Z.eqb (r_level r) INFO)
                                            (reformat_markdown_text_shown R lim text w st))).
Proof.
  intros R lim text w st out Hc [Hd He] E. destruct (reformat_ok_pass _ _ _ _ E) as (t & E1 & E2 & _).
  change (filter _ _) with (at_level INFO (reformat_markdown_text_shown R lim text w st)). rewrite shown_at, E1.
  rewrite (proj2 (Z.ltb_lt _ _) Hd). cbv zeta. rewrite show_all by assumption.
  rewrite (show_none R lim t w (set_level st ERROR) Hc eq_refl : filter (shown (set_level st ERROR))
    (at_level INFO (fst (reformat_pass_log R lim (info_const st) t w))) = []). rewrite app_nil_r, Hc.
  destruct lim as [|lim]; [discriminate|]. rewrite pass_info by discriminate.
  destruct (own_reports R lim INFO text ltac:(discriminate)) as (pre & Hr & Hp). cbn [reformat_pass] in E1.
  destruct (parse_markdown lim (splitlines text)) as [secs|e] eqn:Ep; [|discriminate]. destruct Hp as (post & -> & Hp).
  assert (Hn : post = []).
  { destruct post as [|s post]; [reflexivity|]. destruct (Hp ltac:(discriminate)) as (e & Eb). cbn [bind] in E1. rewrite Eb in E1. discriminate. }
  subst post. rewrite app_nil_r in Ep. exists lim, pre. split; [exact Ep|]. split; [exact (proj1 (parse_markdown_lossless _ _ _ Ep))|exact Hr].
Qed.

(** If the run fails, the messages list the first sections of the document, or none. *)
Theorem C75_failed : forall R lim text w st e,
  info_const st = INFO -> (DEBUG < effective_level st <= INFO)%Z ->
  reformat_markdown_text lim text w = Err e ->
  exists pre, reports R 1 pre (map r_text (filter (fun r => Z.eqb (r_level r) INFO)
                                                  (reformat_markdown_text_shown R lim text w st)))
    /\ (pre <> [] -> exists lim' post, parse_markdown lim' (splitlines text) = Ok (pre ++ post)).
Proof.
  intros R lim text w st e Hc [Hd He] _.
  change (filter _ _) with (at_level INFO (reformat_markdown_text_shown R lim text w st)). rewrite shown_at.
  rewrite (proj2 (Z.ltb_lt _ _) Hd). cbv zeta. rewrite show_all by assumption.
  assert (E0 : match reformat_pass lim text w with
       | Err _ => []
       | Ok t => filter (shown (set_level st ERROR)) (at_level INFO (fst (reformat_pass_log R lim (info_const st) t w)))
       end = []).
  { destruct (reformat_pass lim text w); [|reflexivity]. exact (show_none R lim a w (set_level st ERROR) Hc eq_refl). }
  rewrite E0, app_nil_r, Hc. destruct lim as [|lim]; [exists []; split; [constructor|congruence]|]. rewrite pass_info by discriminate.
  destruct (own_reports R lim INFO text ltac:(discriminate)) as (pre & Hr & Hp). exists pre. split; [exact Hr|]. intros Hn.
  destruct (parse_markdown lim (splitlines text)) as [secs|e'] eqn:Ep; [|congruence]. destruct Hp as (post & -> & _). eauto.
Qed.

(** If DEBUG messages are shown as well, the sections of the result are listed after them. *)
Theorem C75_debug : forall R lim text w st out,
  info_const st = INFO -> (effective_level st <= DEBUG)%Z ->
  reformat_markdown_text lim text w = Ok out ->
  exists lim' t secs secs' ms ms',
    parse_markdown lim' (splitlines text) = Ok secs /\ parse_markdown lim' (splitlines t) = Ok secs'
    /\ (exists r, rtrims t r /\ out = r ++ [c_nl])
    /\ reports R 1 secs ms /\ reports R 1 secs' ms'
    /\ map r_text (filter (fun r => Z.eqb (r_level r) INFO) (reformat_markdown_text_shown R lim text w st))
       = ms ++ ms'.
Proof.
  intros R lim text w st out Hc He E. destruct (reformat_ok_pass _ _ _ _ E) as (t & E1 & E2 & Eo).
  change (filter _ _) with (at_level INFO (reformat_markdown_text_shown R lim text w st)). rewrite shown_at, E1.
  rewrite (proj2 (Z.ltb_ge _ _) He). cbv zeta. assert (He' : (effective_level st <= INFO)%Z) by (unfold INFO, DEBUG in *; lia).
  rewrite !show_all by assumption. rewrite Hc, map_app. destruct lim as [|lim]; [discriminate|]. rewrite !pass_info by discriminate.
  assert (G : forall u v, reformat_pass (S lim) u w = Ok v -> exists secs, parse_markdown lim (splitlines u) = Ok secs
    /\ reports R 1 secs (map r_text (at_level INFO (own_records R lim INFO u)))).
  { intros u v Eu. destruct (own_reports R lim INFO u ltac:(discriminate)) as (pre & Hr & Hp). cbn [reformat_pass] in Eu.
    destruct (parse_markdown lim (splitlines u)) as [secs|e] eqn:Ep; [|discriminate]. destruct Hp as (post & -> & Hp).
    destruct post as [|s post]; [rewrite app_nil_r; eauto|]. destruct (Hp ltac:(discriminate)) as (e & Eb).
    cbn [bind] in Eu. rewrite Eb in Eu. discriminate. }
  destruct (G _ _ E1) as (secs & P1 & R1). destruct (G _ _ E2) as (secs' & P2 & R2).
  exists lim, t, secs, secs'. do 2 eexists. split; [exact P1|]. split; [exact P2|]. split; [|split; [exact R1|split; [exact R2|reflexivity]]].
  exists (rstrip t). split; [apply rtrims_rstrip; reflexivity|exact Eo].
Qed.

(** If not even warnings are shown, nothing is. *)
Theorem C75_silent : forall R lim text w st,
  (info_const st <= INFO)%Z -> (WARNING < effective_level st)%Z -> (WARNING < inherited_level st)%Z ->
  reformat_markdown_text_shown R lim text w st = [].
Proof.
  intros R lim text w st Hc He Hi.
  assert (G : forall st u, (info_const st <= INFO)%Z -> (WARNING < effective_level st)%Z -> (WARNING < inherited_level st)%Z ->
    filter (shown st) (fst (reformat_pass_log R lim (info_const st) u w)) = []).
  { clear. intros st u Hc He Hi. apply filter_none. destruct lim as [|lim]; [constructor|].
    destruct (pass_records R lim (info_const st) u w) as (rest & -> & Hr).
    assert (L : Forall (fun r => (r_level r <= WARNING)%Z) (own_records R lim (info_const st) u ++ rest)).
    { apply Forall_app. split.
      - eapply Forall_impl; [|apply own_levels]. intros r [[_ ->]| ->]; unfold INFO, WARNING in *; lia.
      - eapply Forall_impl; [|exact Hr]. intros r [[_ ->]| ->]; unfold DEBUG, WARNING in *; lia. }
    eapply Forall_impl; [|exact L]. intros r Hl. unfold shown. cbv beta in Hl. destruct (r_logger r); apply Z.leb_gt; lia. }
  unfold reformat_markdown_text_shown. assert (G1 := G st text Hc He Hi).
  destruct (reformat_pass_log R lim (info_const st) text w) as [rs [t|e]]; cbn [fst] in G1; rewrite G1; [|reflexivity].
  cbn [app]. destruct (Z.ltb DEBUG (effective_level st)) eqn:El.
  - apply (G (set_level st ERROR) t); [exact Hc|reflexivity|exact Hi].
  - apply G; assumption.
Qed.

(** That is the case without options; with -v there are warnings, and with -vv there are the
    messages about sections. *)
Theorem C75_cli : forall v q,
  let st := LogState 0 (log_level v q) INFO in
  (v <= q <-> (WARNING < effective_level st)%Z)
  /\ (v = q + 1 <-> effective_level st = WARNING)
  /\ (v = q + 2 <-> effective_level st = INFO).
Proof.
  intros v q. unfold effective_level. cbn [own_level inherited_level]. change (0 =? 0)%Z with true. cbv iota.
  rewrite C48_verbosity. unfold WARNING, INFO, DEBUG. lia.
Qed.

(** After a failure within a quote or a list, [logging.INFO] is left at DEBUG (C52), and then
    the sections of no document are listed. *)
Theorem C75_lost : forall R lim text w st,
  info_const st = DEBUG -> (DEBUG < effective_level st)%Z ->
  Forall (fun r => r_level r = WARNING) (reformat_markdown_text_shown R lim text w st).
Proof.
  intros R lim text w st Hc He.
  assert (G : forall st u, info_const st = DEBUG -> (DEBUG < effective_level st)%Z ->
    Forall (fun r => r_level r = WARNING) (filter (shown st) (fst (reformat_pass_log R lim (info_const st) u w)))).
  { clear. intros st u Hc He. rewrite Hc. assert (L := pass_debug R lim u w). apply Forall_forall. intros r Hr.
    apply filter_In in Hr. destruct Hr as [Hin Hs]. rewrite Forall_forall in L. destruct (L _ Hin) as [[H1 H2]|H]; [|exact H].
    exfalso. unfold shown in Hs. rewrite H1, H2 in Hs. apply Z.leb_le in Hs. lia. }
  unfold reformat_markdown_text_shown. assert (G1 := G st text Hc He).
  destruct (reformat_pass_log R lim (info_const st) text w) as [rs [t|e]]; cbn [fst] in G1; [|exact G1].
  apply Forall_app. split; [exact G1|]. rewrite (proj2 (Z.ltb_lt _ _) He). apply (G (set_level st ERROR) t); [exact Hc|reflexivity].
Qed.

(** * C76 *)

Definition is_correction (n : notice) : bool := match n with Corrected _ => true | Inserted _ => false end.

Lemma announces_level n r : announces n r -> r_level r = WARNING.
Proof. destruct n; intros (num & _ & ->); reflexivity. Qed.

Lemma announces_logger n r : announces n r -> r_logger r = if is_correction n then LAtx else LReformat.
Proof. destruct n; intros (num & _ & ->); reflexivity. Qed.

Lemma shown_notices ns rs st : Forall2 announces ns rs -> (inherited_level st <= WARNING)%Z ->
  Forall2 announces (filter (fun n => is_correction n || Z.leb (effective_level st) WARNING) ns) (filter (shown st) rs).
Proof.
  intros H Hi. induction H as [|n r ns rs Hn H IH]; [constructor|]. cbn [filter].
  assert (E : shown st r = (is_correction n || Z.leb (effective_level st) WARNING)).
  { unfold shown. rewrite (announces_logger _ _ Hn), (announces_level _ _ Hn). destruct (is_correction n); cbn [orb]; [|reflexivity].
    apply Z.leb_le. exact Hi. }
  rewrite E. destruct (_ || _); [constructor; assumption|exact IH].
Qed.

(** The warnings about a document are: those about the document, then, if DEBUG messages are
    not shown, those about the headings of its formatted text. *)
Theorem C76_partial : forall R lim text w st out,
  info_const st = INFO -> (DEBUG < effective_level st <= WARNING)%Z -> (inherited_level st <= WARNING)%Z ->
  reformat_markdown_text lim text w = Ok out ->
  exists t ns ns', warned (splitlines text) ns /\ warned (splitlines t) ns'
    /\ (exists r, rtrims t r /\ out = r ++ [c_nl])
    /\ Forall2 announces (ns ++ filter is_correction ns')
         (filter (fun r => Z.eqb (r_level r) WARNING) (reformat_markdown_text_shown R lim text w st)).
Proof.
  intros R lim text w st out Hc [Hd He] Hi E. destruct (reformat_ok_pass _ _ _ _ E) as (t & E1 & E2 & Eo).
  change (filter (fun r => Z.eqb _ _) _) with (at_level WARNING (reformat_markdown_text_shown R lim text w st)). rewrite shown_at, E1.
  rewrite (proj2 (Z.ltb_lt _ _) Hd). cbv zeta. rewrite Hc.
  destruct (pass_warned R lim INFO text w t ltac:(discriminate)) as (ns & W & F); [rewrite pass_snd; exact E1|].
  destruct (pass_warned R lim INFO t w t ltac:(discriminate)) as (ns' & W' & F'); [rewrite pass_snd; exact E2|].
  exists t, ns, ns'. split; [exact W|]. split; [exact W'|]. split; [exists (rstrip t); split; [apply rtrims_rstrip; reflexivity|exact Eo]|].
  apply Forall2_app.
  - assert (G := shown_notices _ _ st F Hi). rewrite filter_all in G; [exact G|]. apply Forall_forall. intros n _.
    rewrite (proj2 (Z.leb_le _ _) He). apply orb_true_r.
  - assert (G := shown_notices _ _ (set_level st ERROR) F' Hi).
    rewrite (filter_ext _ is_correction) in G; [exact G|]. intros n. change (effective_level (set_level st ERROR)) with ERROR.
    apply orb_false_r.
Qed.

Lemma sections_warned_in n secs ns : sections_warned n secs ns -> forall pre content post ty,
  secs = pre ++ (ty, content) :: post -> exists ms, section_warned (n + length (concat (map snd pre))) ty content ms /\ incl ms ns.
Proof.
  induction 1 as [n|n ty' content' rest ns ms Hs Hr IH]; intros pre content post ty E; [destruct pre; discriminate|].
  destruct pre as [|s pre].
  - injection E as <- <- <-. exists ns. split; [cbn; rewrite Nat.add_0_r; exact Hs|apply incl_appl, incl_refl].
  - injection E as <- ->. destruct (IH pre content post ty eq_refl) as (ks & H1 & H2). exists ks. split; [|apply incl_appr; exact H2].
    cbn [map snd concat]. rewrite app_length, Nat.add_assoc. exact H1.
Qed.

Lemma inserted_in n last secs ns : inserted n last secs ns -> forall pre quote content post,
  secs = pre ++ (BLOCK_QUOTE, quote) :: (SETEXT_HEADING, content) :: post ->
  In (Inserted (n + length (concat (map snd pre)) + length quote)) ns.
Proof.
  induction 1 as [n last|n content' rest ns H IH|n last ty' content' rest ns Hno H IH]; intros pre quote content post E; [destruct pre; discriminate| |].
  - destruct pre as [|s pre]; [discriminate|]. injection E as <- ->. right. cbn [map snd concat].
    rewrite app_length, Nat.add_assoc. eapply IH. reflexivity.
  - destruct pre as [|s pre].
    + injection E as -> <- ->. cbn. rewrite Nat.add_0_r. clear -H. inversion H; subst; [left; reflexivity|]. exfalso. auto.
    + injection E as <- ->. cbn [map snd concat]. rewrite app_length, Nat.add_assoc. eapply IH. reflexivity.
Qed.

Lemma Forall2_In_l {A B} (P : A -> B -> Prop) l l' a : Forall2 P l l' -> In a l -> exists b, In b l' /\ P a b.
Proof.
  induction 1 as [|x y l l' Hp H IH]; intros Hin; [destruct Hin|]. destruct Hin as [->|Hin]; [exists y; split; [left; reflexivity|exact Hp]|].
  destruct (IH Hin) as (b & Hb & Hp'). exists b. split; [right|]; assumption.
Qed.

Lemma parse_once lim lim' lines secs secs' :
  parse_markdown lim lines = Ok secs -> parse_markdown lim' lines = Ok secs' -> secs = secs'.
Proof.
  intros H H'. destruct (Nat.le_ge_cases lim lim') as [L|L].
  - rewrite (C09_limit_parse _ _ _ L) in H' by (rewrite H; intros e X; discriminate X). congruence.
  - rewrite (C09_limit_parse _ _ _ L) in H by (rewrite H'; intros e X; discriminate X). congruence.
Qed.

(** So a heading of the document itself that is not well spaced is announced, with its line. *)
Theorem C76_headings : forall R lim text w st out lim' pre l post,
  info_const st = INFO -> (DEBUG < effective_level st <= WARNING)%Z -> (inherited_level st <= WARNING)%Z ->
  reformat_markdown_text lim text w = Ok out ->
  parse_markdown lim' (splitlines text) = Ok (pre ++ (ATX_HEADING, [l]) :: post) -> ~ spaced_heading l ->
  exists r, announces (Corrected (1 + length (concat (map snd pre)))) r
    /\ In r (reformat_markdown_text_shown R lim text w st).
Proof.
  intros R lim text w st out lim' pre l post Hc He Hi E Hp Hl.
  destruct (C76_partial R lim text w st out Hc He Hi E) as (t & ns & ns' & W & _ & _ & F).
  destruct W as [lim1 lines secs ins ns Hp' I S]. assert (Es := parse_once _ _ _ _ _ Hp Hp'). 
  destruct (sections_warned_in _ _ _ S _ _ _ _ (eq_sym Es)) as (ms & Hs & Hms).
  assert (Em : ms = [Corrected (1 + length (concat (map snd pre)))]).
  { inversion Hs; subst; try contradiction; try reflexivity; try (destruct H; discriminate); exfalso; cbn in *; tauto. }
  subst ms. destruct (Forall2_In_l _ _ _ (Corrected (1 + length (concat (map snd pre)))) F) as (r & Hr & Ha).
  - apply in_or_app. left. apply in_or_app. right. apply Hms. left. reflexivity.
  - exists r. split; [exact Ha|]. apply filter_In in Hr. tauto.
Qed.

(** An empty line in front of an underlined heading after a block quote is announced, with the
    line of the heading. *)
Theorem C76_setext : forall R lim text w st out lim' pre quote content post,
  info_const st = INFO -> (DEBUG < effective_level st <= WARNING)%Z -> (inherited_level st <= WARNING)%Z ->
  reformat_markdown_text lim text w = Ok out ->
  parse_markdown lim' (splitlines text) = Ok (pre ++ (BLOCK_QUOTE, quote) :: (SETEXT_HEADING, content) :: post) ->
  exists r, announces (Inserted (1 + length (concat (map snd pre)) + length quote)) r
    /\ In r (reformat_markdown_text_shown R lim text w st).
Proof.
  intros R lim text w st out lim' pre quote content post Hc He Hi E Hp.
  destruct (C76_partial R lim text w st out Hc He Hi E) as (t & ns & ns' & W & _ & _ & F).
  destruct W as [lim1 lines secs ins ns Hp' I S]. assert (Es := parse_once _ _ _ _ _ Hp Hp').
  assert (Hin := inserted_in _ _ _ _ I _ _ _ _ (eq_sym Es)).
  destruct (Forall2_In_l _ _ _ (Inserted (1 + length (concat (map snd pre)) + length quote)) F) as (r & Hr & Ha).
  - apply in_or_app. left. apply in_or_app. left. exact Hin.
  - exists r. split; [exact Ha|]. apply filter_In in Hr. tauto.
Qed.

(** * What is not so *)

(** A warning about a heading within a list entry or a quote does not give the heading's line
    in the document. *)
Theorem C76_lines_refuted :
  ~ (forall R lim text w st out n r,
       info_const st = INFO -> (DEBUG < effective_level st <= WARNING)%Z -> (inherited_level st <= WARNING)%Z ->
       reformat_markdown_text lim text w = Ok out ->
       In r (reformat_markdown_text_shown R lim text w st) -> announces (Corrected n) r ->
       exists l, nth_error (splitlines text) (n - 1) = Some l /\ In c_hash l).
Proof.
  intros H. destruct (H (fun s => s) 9 (lit "- a" ++ [c_nl] ++ lit "- #b" ++ [c_nl]) (WInt 88) (LogState 0 WARNING INFO)
    (lit "- a" ++ [c_nl] ++ lit "- # b" ++ [c_nl]) 1
    (Rec LAtx WARNING (lit "Line 1 is an ATX Header without a space after #'s. This has been corrected."))) as (l & E & Hin).
  - reflexivity.
  - split; [reflexivity|discriminate].
  - discriminate.
  - vm_compute. reflexivity.
  - vm_compute. left. reflexivity.
  - exists (lit "1"). split; [apply (dec_decimal 1)|reflexivity].
  - cbn in E. injection E as <-. cbn in Hin. intuition discriminate.
Qed.

(** A heading without text is said to be corrected, twice, although nothing changes. *)
Theorem C76_correction_refuted :
  ~ (forall R lim text w st out n r,
       info_const st = INFO -> (DEBUG < effective_level st <= WARNING)%Z -> (inherited_level st <= WARNING)%Z ->
       reformat_markdown_text lim text w = Ok out ->
       In r (reformat_markdown_text_shown R lim text w st) -> announces (Corrected n) r ->
       out <> text).
Proof.
  intros H. apply (H (fun s => s) 9 (lit "#" ++ [c_nl]) (WInt 88) (LogState 0 WARNING INFO) (lit "#" ++ [c_nl]) 1
    (Rec LAtx WARNING (lit "Line 1 is an ATX Header without a space after #'s. This has been corrected."))).
  - reflexivity.
  - split; [reflexivity|discriminate].
  - discriminate.
  - vm_compute. reflexivity.
  - vm_compute. left. reflexivity.
  - exists (lit "1"). split; [apply (dec_decimal 1)|reflexivity].
  - reflexivity.
Qed.

(** * Examples *)

Definition quoted (s : str) : str := lit "'" ++ s ++ lit "'".

Definition example : str :=
  lit "#a" ++ [c_nl; c_nl] ++ lit "> q" ++ [c_nl] ++ lit "Head" ++ [c_nl] ++ lit "====" ++ [c_nl].

Example C75_nonvacuous :
  (exists out, reformat_markdown_text 9 example (WInt 88) = Ok out)
  /\ map r_text (filter (fun r => Z.eqb (r_level r) INFO)
                 (reformat_markdown_text_shown quoted 9 example (WInt 88) (LogState 0 INFO INFO)))
     = [lit "Line 1: <MarkdownATXHeading: depth=1; content='a'>";
        lit "Line 2: <MarkdownBlankLine>";
        lit "Line 3: MarkdownBlockQuote: first_line='> q'>";
        lit "Lines 4-5: <MarkdownSetextHeading: char='='; content='Head'>"].
Proof. split; [eexists|]; vm_compute; reflexivity. Qed.

(** The first line of a long section is cut; a lone fence makes the run fail after the
    sections in front of it were listed. *)
Example C75_failed_nonvacuous :
  (exists e, reformat_markdown_text 9 (lit "abcdefghijklmnopqrstuvwxyz" ++ [c_nl; c_nl] ++ lit "```") (WInt 88) = Err e)
  /\ map r_text (reformat_markdown_text_shown quoted 9
                   (lit "abcdefghijklmnopqrstuvwxyz" ++ [c_nl; c_nl] ++ lit "```") (WInt 88) (LogState 0 INFO INFO))
     = [lit "Line 1: <MarkdownParagraph: content='abcdefghijklmnopq...'>";
        lit "Line 2: <MarkdownBlankLine>"].
Proof. split; [eexists|]; vm_compute; reflexivity. Qed.

Example C75_debug_nonvacuous :
  length (filter (fun r => Z.eqb (r_level r) INFO)
         (reformat_markdown_text_shown quoted 9 example (WInt 88) (LogState 0 DEBUG INFO))) = 9
  /\ reformat_markdown_text_shown quoted 9 example (WInt 88) (LogState 0 ERROR INFO) = []
  /\ length (reformat_markdown_text_shown quoted 9 example (WInt 88) (LogState 0 INFO DEBUG)) = 2.
Proof. repeat split; vm_compute; reflexivity. Qed.

Example C76_nonvacuous :
  map r_text (reformat_markdown_text_shown quoted 9 example (WInt 88) (LogState 0 WARNING INFO))
  = [lit "Adding a new line before setext heading on line 4";
     lit "Line 1 is an ATX Header without a space after #'s. This has been corrected."]
  /\ ~ spaced_heading (lit "#a") /\ spaced_heading (lit "  ## a").
Proof.
  split; [vm_compute; reflexivity|]. split.
  - assert (A : atx_line (lit "#a")) by (exists [], (lit "a"); split; [reflexivity|]; split; [constructor|cbn; lia]).
    intros X. apply (spaced_spec quoted _ A) in X. discriminate X.
  - exists (lit "  "), 2, (lit "a"). split; [reflexivity|]. split; [repeat constructor|]. split; [lia|].
    intros H. inversion H; discriminate.
Qed.

Example C76_headings_nonvacuous :
  exists lim' post, parse_markdown lim' (splitlines example) = Ok ([] ++ (ATX_HEADING, [lit "#a"]) :: post).
Proof. exists 8. eexists. vm_compute. reflexivity. Qed.

Example C76_setext_nonvacuous :
  exists lim' pre post, parse_markdown lim' (splitlines example)
    = Ok (pre ++ (BLOCK_QUOTE, [lit "> q"]) :: (SETEXT_HEADING, [lit "Head"; lit "===="]) :: post).
Proof. exists 8, [(ATX_HEADING, [lit "#a"]); (BLANK_LINE, [[]])], []. vm_compute. reflexivity. Qed.
