(** Proofs about the log records of a run of the command. *)
From Coq Require Import String.
From Verif Require Import Py Regex Utils TextWrap Lines Detectors Formatters Logging Cli Records Notices RunLog Base
  SpecParser SpecFormat SpecCli SpecErrors SpecRecords SpecNotices SpecRunLog
  ProofsErrors ProofsCli ProofsRecords ProofsNotices ProofsAlarms PropsRecords PropsNotices.
Local Open Scope nat_scope.

Section RunLogProofs.
  Variable R : str -> str.
  Variable lim : nat.

  (** * Levels *)

  Lemma pass_log_low info t w : (info <= INFO)%Z ->
    Forall (fun r => (r_level r <= WARNING)%Z) (fst (reformat_pass_log R lim info t w)).
  Proof.
    intros H. destruct lim as [|l]; [constructor|].
    destruct (pass_records R l info t w) as (rest & -> & Hr).
    apply Forall_app. split; (eapply Forall_impl; [|first [apply own_levels|exact Hr]]);
      intros r [[_ E]|E]; rewrite E; unfold DEBUG, INFO, WARNING in *; lia.
  Qed.

  Lemma pass_low info t w : (info <= INFO)%Z ->
    Forall (fun r => (r_level r <= WARNING)%Z) (fst (reformat_pass_all R lim info t w)).
  Proof.
    intros H. apply Forall_forall. intros r Hr.
    assert (S := pass_backed R lim info t w). rewrite Forall_forall in S.
    destruct (S r Hr) as [Ho|(T & _ & F)].
    - assert (G := pass_log_low info t w H). rewrite Forall_forall in G. apply G.
      destruct (pass_tracks R lim info t w) as [_ ->]. apply filter_In. auto.
    - destruct F as [[_ ->]|(T' & a & _ & _ & F)]; [unfold DEBUG, WARNING; lia|].
      destruct a as [n|n]; destruct F as (num & _ & ->); cbn; lia.
  Qed.

  (** The configuration shows at most warnings of what the formatter logs. *)
  Definition moderate (st : log_state) : Prop := (info_const st <= INFO)%Z.

  Lemma info_after_moderate {A} (x : res A) st : moderate st -> moderate (info_after x st).
  Proof. unfold moderate. intros H. destruct x as [a|[]]; cbn [info_after]; try exact H. cbn. unfold DEBUG, INFO. lia. Qed.

  Lemma info_after_levels {A} (x : res A) st :
    effective_level (info_after x st) = effective_level st
    /\ inherited_level (info_after x st) = inherited_level st.
  Proof. destruct x as [a|[]]; cbn [info_after]; auto. Qed.

  Lemma filter_low st rs : Forall (fun r => (r_level r <= WARNING)%Z) rs ->
    Forall (fun r => (r_level r <= WARNING)%Z) (filter (shown st) rs).
  Proof. rewrite !Forall_forall. intros H r Hr. apply filter_In in Hr. apply H, Hr. Qed.

  Lemma call_low t w st : moderate st ->
    Forall (fun r => (r_level r <= WARNING)%Z) (reformat_markdown_text_all R lim t w st).
  Proof.
    intros H. unfold reformat_markdown_text_all. assert (G := pass_low (info_const st) t w H).
    destruct (reformat_pass_all R lim (info_const st) t w) as [rs [t'|e]]; cbn [fst] in G;
      [|apply filter_low; exact G].
    cbv zeta. apply Forall_app. split; [apply filter_low; exact G|]. apply filter_low, pass_low.
    destruct (Z.ltb _ _); exact H.
  Qed.

  Lemma call_moderate t w st : moderate st -> moderate (snd (reformat_markdown_text_log lim t w st)).
  Proof.
    intros H. unfold reformat_markdown_text_log. cbv zeta.
    destruct (reformat_pass lim t w) as [t'|e]; [|apply (info_after_moderate (Err e : res str)), H].
    cbn [info_after].
    set (st1 := if Z.ltb DEBUG (effective_level st) then set_level st ERROR else st).
    assert (H1 : moderate st1) by (unfold st1; destruct (Z.ltb _ _); exact H).
    destruct (reformat_pass lim t' w) as [t2|e]; [|apply (info_after_moderate (Err e : res str)), H1].
    cbn [info_after]. destruct (str_eqb _ _); exact H1.
  Qed.

  Lemma call_inherited t w st :
    inherited_level (snd (reformat_markdown_text_log lim t w st)) = inherited_level st.
  Proof.
    unfold reformat_markdown_text_log. cbv zeta.
    destruct (reformat_pass lim t w) as [t'|e]; [|apply (info_after_levels (Err e : res str))].
    cbn [info_after].
    set (st1 := if Z.ltb DEBUG (effective_level st) then set_level st ERROR else st).
    assert (H1 : inherited_level st1 = inherited_level st) by (unfold st1; destruct (Z.ltb _ _); reflexivity).
    rewrite <- H1.
    destruct (reformat_pass lim t' w) as [t2|e]; [|apply (info_after_levels (Err e : res str))].
    cbn [info_after]. destruct (str_eqb _ _); reflexivity.
  Qed.

  (** The levels stay above WARNING if they are. *)
  Definition high (st : log_state) : Prop :=
    (WARNING < effective_level st)%Z /\ (WARNING < inherited_level st)%Z.

  Lemma info_after_high {A} (x : res A) st : high st -> high (info_after x st).
  Proof. unfold high. destruct (info_after_levels x st) as [-> ->]. auto. Qed.

  Lemma set_level_high st l : (WARNING < l)%Z -> high st -> high (set_level st l).
  Proof.
    intros Hl [_ H]. split; [|exact H]. unfold effective_level, set_level. cbn [own_level inherited_level].
    destruct (Z.eqb l 0); assumption.
  Qed.

  Lemma call_high t w st : high st -> high (snd (reformat_markdown_text_log lim t w st)).
  Proof.
    intros H. unfold reformat_markdown_text_log. cbv zeta.
    destruct (reformat_pass lim t w) as [t'|e]; [|apply (info_after_high (Err e : res str)), H].
    cbn [info_after].
    set (st1 := if Z.ltb DEBUG (effective_level st) then set_level st ERROR else st).
    assert (H1 : high st1).
    { unfold st1. destruct (Z.ltb _ _); [apply set_level_high; [unfold WARNING, ERROR; lia|exact H]|exact H]. }
    destruct (reformat_pass lim t' w) as [t2|e]; [|apply (info_after_high (Err e : res str)), H1].
    cbn [info_after]. destruct (str_eqb _ _); (apply set_level_high; [apply H|exact H1]).
  Qed.

  Lemma filter_high st rs : high st -> Forall (fun r => (r_level r <= WARNING)%Z) rs ->
    filter (shown st) rs = [].
  Proof.
    intros [H1 H2] H. induction H as [|r rs Hr H IH]; [reflexivity|]. cbn [filter].
    assert (E : shown st r = false); [|rewrite E; exact IH].
    unfold shown. destruct (r_logger r); apply Z.leb_gt; lia.
  Qed.

  Lemma call_silent t w st : moderate st -> high st -> reformat_markdown_text_all R lim t w st = [].
  Proof. intros Hm [H1 H2]. apply C77_silent; assumption. Qed.

  (** * Passes and renders *)

  Lemma pass_shown_fst t w st :
    fst (pass_shown R lim t w st) = filter (shown st) (fst (reformat_pass_all R lim (info_const st) t w)).
  Proof. unfold pass_shown. destruct (reformat_pass_all _ _ _ _ _). reflexivity. Qed.
  Lemma pass_shown_snd t w st :
    snd (pass_shown R lim t w st) = info_after (reformat_pass lim t w) st.
  Proof.
    rewrite <- (proj1 (proj2 (C77_result R lim [] (info_const st) t w st))).
    unfold pass_shown. destruct (reformat_pass_all _ _ _ _ _). reflexivity.
  Qed.

  (** What holds of the records of calls and of debug records of the command holds of all
      records made while the files or the input are formatted, but the warning of interactive
      mode. *)
  Definition outputs_given (a : cli_args) : bool :=
    match output_directory a with Some _ => true | None => false end || negb (nilb (output_files a)).

  Section All.
    Variable ok : log_state -> Prop.
    Variable P : record -> Prop.
    Hypothesis ok_pass : forall st (x : res str), ok st -> ok (info_after x st).
    Hypothesis ok_call : forall t w st, ok st -> ok (snd (reformat_markdown_text_log lim t w st)).
    Hypothesis P_pass : forall t w st, ok st -> Forall P (fst (pass_shown R lim t w st)).
    Hypothesis P_call : forall t w st, ok st -> Forall P (reformat_markdown_text_all R lim t w st).
    Hypothesis P_main : forall st text, ok st -> Forall P (main_shown st DEBUG text).

    Lemma renders_all fs i o w st : ok st -> Forall P (write_renders_shown R lim fs i o w st).
    Proof.
      intros H. unfold write_renders_shown. destruct (render_names (path_name o)) as [n1 n2]. cbv zeta.
      destruct (read_text fs i) as [t|e]; [|constructor].
      assert (G := P_pass t w st H). assert (E := pass_shown_snd t w st).
      destruct (pass_shown R lim t w st) as [rs st1]. cbn [fst snd] in *.
      assert (H1 : ok st1) by (subst st1; apply ok_pass, H).
      apply Forall_app. split; [exact G|]. destruct (reformat_pass lim t w) as [t'|e]; [|constructor].
      apply Forall_app. split; [apply P_main, H1|].
      destruct (write_text _ _ _); [|constructor].
      apply Forall_app. split; [apply P_main, H1|]. apply P_pass, H1.
    Qed.

    Lemma file_all a fs st i o : ok st ->
      Forall P (fst (file_shown R lim a fs st i o)) /\ ok (snd (file_shown R lim a fs st i o)).
    Proof.
      intros H. unfold file_shown. destruct (read_text fs i) as [t|e]; [|split; [constructor|exact H]].
      assert (G := ok_call t (line_length a) st H).
      destruct (reformat_markdown_text_log lim t (line_length a) st) as [x st1]. cbn [fst snd] in *.
      split; [|exact G]. apply Forall_app. split; [apply P_call, H|].
      destruct x as [t'|e]; [constructor|]. destruct (_ && _); [apply renders_all, G|constructor].
    Qed.

    Lemma files_all a fs st pairs : ok st -> Forall P (files_shown R lim a fs st pairs).
    Proof.
      revert fs st. induction pairs as [|[i o] rest IH]; intros fs st H; [constructor|].
      cbn [files_shown]. destruct (file_all a fs st i o H) as [G1 G2].
      destruct (file_shown R lim a fs st i o) as [rs st1]. cbn [fst snd] in *.
      destruct (reformat_file lim a fs i o) as [es [c|e]]; [|exact G1].
      apply Forall_app. split; [exact G1|]. apply IH, G2.
    Qed.

    Lemma stdin_all a input st : ok st ->
      (outputs_given a = true -> Forall P (filter (shown st) [interactive_warning])) ->
      Forall P (stdin_shown R lim a input st).
    Proof.
      intros H Hw. unfold stdin_shown. apply Forall_app. split.
      { unfold outputs_given in Hw. destruct (_ || _); [apply Hw; reflexivity|constructor]. }
      apply Forall_app. split; [apply P_call, H|]. assert (G := ok_call input (line_length a) st H).
      destruct (reformat_markdown_text_log lim input (line_length a) st) as [[t|e] st1]; [constructor|].
      cbn [snd] in G. destruct (_ && _); [|constructor].
      assert (G1 := P_pass input (line_length a) st1 G). assert (E := pass_shown_snd input (line_length a) st1).
      destruct (pass_shown R lim input (line_length a) st1) as [rs st2]. cbn [fst snd] in *.
      assert (H2 : ok st2) by (subst st2; apply ok_pass, G).
      apply Forall_app. split; [exact G1|]. destruct (reformat_pass lim input (line_length a)) as [t|]; [|constructor].
      apply Forall_app. split; [apply P_main, H2|].
      assert (G3 := P_pass t (line_length a) st2 H2). assert (E3 := pass_shown_snd t (line_length a) st2).
      destruct (pass_shown R lim t (line_length a) st2) as [rs' st3]. cbn [fst snd] in *.
      assert (H3 : ok st3) by (subst st3; apply ok_pass, H2).
      apply Forall_app. split; [exact G3|]. destruct (reformat_pass lim t (line_length a)); [|constructor].
      apply P_main, H3.
    Qed.
  End All.

  Lemma main_low st l text : (l <= WARNING)%Z ->
    Forall (fun r => (r_level r <= WARNING)%Z) (main_shown st l text).
  Proof. intros H. apply filter_low. constructor; [exact H|constructor]. Qed.

  Lemma files_low a fs st pairs : moderate st ->
    Forall (fun r => (r_level r <= WARNING)%Z) (files_shown R lim a fs st pairs).
  Proof.
    apply files_all.
    - intros st' x. apply info_after_moderate.
    - apply call_moderate.
    - intros t w st' H. rewrite pass_shown_fst. apply filter_low, pass_low, H.
    - apply call_low.
    - intros st' text _. apply main_low. unfold DEBUG, WARNING. lia.
  Qed.

  Lemma stdin_low a input st : moderate st ->
    Forall (fun r => (r_level r <= WARNING)%Z) (stdin_shown R lim a input st).
  Proof.
    intros Hm. apply (stdin_all moderate); [..|exact Hm|].
    - intros st' x. apply info_after_moderate.
    - apply call_moderate.
    - intros t w st' H. rewrite pass_shown_fst. apply filter_low, pass_low, H.
    - apply call_low.
    - intros st' text _. apply main_low. unfold DEBUG, WARNING. lia.
    - intros _. apply filter_low. constructor; [cbn; lia|constructor].
  Qed.

  Lemma Forall_False {A} (l : list A) : Forall (fun _ => False) l -> l = [].
  Proof. intros H. destruct H; [reflexivity|contradiction]. Qed.

  Definition silent (st : log_state) : Prop := moderate st /\ high st.

  Lemma silent_pass {A} st (x : res A) : silent st -> silent (info_after x st).
  Proof. intros [H1 H2]. split; [apply info_after_moderate, H1|apply info_after_high, H2]. Qed.
  Lemma silent_call t w st : silent st -> silent (snd (reformat_markdown_text_log lim t w st)).
  Proof. intros [H1 H2]. split; [apply call_moderate, H1|apply call_high, H2]. Qed.
  Lemma silent_pass_shown t w st : silent st -> Forall (fun _ => False) (fst (pass_shown R lim t w st)).
  Proof.
    intros [H1 H2]. rewrite pass_shown_fst. rewrite (filter_high st _ H2 (pass_low _ t w H1)). constructor.
  Qed.
  Lemma silent_call_shown t w st : silent st ->
    Forall (fun _ => False) (reformat_markdown_text_all R lim t w st).
  Proof. intros [H1 H2]. rewrite (call_silent t w st H1 H2). constructor. Qed.
  Lemma silent_main st l text : silent st -> (l <= WARNING)%Z ->
    Forall (fun _ => False) (main_shown st l text).
  Proof.
    intros [_ H] Hl. unfold main_shown. rewrite (filter_high st); [constructor|exact H|].
    constructor; [exact Hl|constructor].
  Qed.

  Lemma files_silent a fs st pairs : silent st -> files_shown R lim a fs st pairs = [].
  Proof.
    intros H. apply Forall_False. revert H. apply files_all.
    - intros st' x. apply silent_pass.
    - apply silent_call.
    - apply silent_pass_shown.
    - apply silent_call_shown.
    - intros st' text H. apply silent_main; [exact H|unfold DEBUG, WARNING; lia].
  Qed.

  Lemma stdin_silent a input st : silent st -> stdin_shown R lim a input st = [].
  Proof.
    intros H. apply Forall_False. apply (stdin_all silent); [..|exact H|].
    - intros st' x. apply silent_pass.
    - apply silent_call.
    - apply silent_pass_shown.
    - apply silent_call_shown.
    - intros st' text H'. apply silent_main; [exact H'|unfold DEBUG, WARNING; lia].
    - intros _. apply (silent_main st WARNING); [exact H|lia].
  Qed.

  (** * Loggers *)

  Definition not_warning (r : record) : Prop := r_logger r <> LMain \/ r_level r = DEBUG.

  Lemma pass_logger info t w : Forall (fun r => r_logger r <> LMain) (fst (reformat_pass_all R lim info t w)).
  Proof.
    eapply Forall_impl; [|apply pass_backed]. intros r [Ho|(T & _ & F)].
    - unfold own in Ho. intros E. rewrite E in Ho. discriminate.
    - destruct F as [[-> _]|(T' & a & _ & _ & F)]; [discriminate|].
      destruct a as [n|n]; destruct F as (num & _ & ->); discriminate.
  Qed.

  Lemma filter_Forall {A} (P : A -> Prop) f (l : list A) : Forall P l -> Forall P (filter f l).
  Proof. rewrite !Forall_forall. intros H r Hr. apply filter_In in Hr. apply H, Hr. Qed.

  Lemma call_logger t w st : Forall (fun r => r_logger r <> LMain) (reformat_markdown_text_all R lim t w st).
  Proof.
    unfold reformat_markdown_text_all. assert (G := pass_logger (info_const st) t w).
    destruct (reformat_pass_all R lim (info_const st) t w) as [rs [t'|e]]; cbn [fst] in G; [|apply filter_Forall, G].
    cbv zeta. apply Forall_app. split; [apply filter_Forall, G|]. apply filter_Forall, pass_logger.
  Qed.

  Lemma files_not_warning a fs st pairs : Forall not_warning (files_shown R lim a fs st pairs).
  Proof.
    apply (files_all (fun _ => True)); auto.
    - intros t w st' _. rewrite pass_shown_fst. apply filter_Forall.
      eapply Forall_impl; [|apply pass_logger]. intros r Hr. left. exact Hr.
    - intros t w st' _. eapply Forall_impl; [|apply call_logger]. intros r Hr. left. exact Hr.
    - intros st' text _. apply filter_Forall. constructor; [right; reflexivity|constructor].
  Qed.

  Lemma stdin_not_warning a input st : outputs_given a = false ->
    Forall not_warning (stdin_shown R lim a input st).
  Proof.
    intros H. apply (stdin_all (fun _ => True)); auto.
    - intros t w st' _. rewrite pass_shown_fst. apply filter_Forall.
      eapply Forall_impl; [|apply pass_logger]. intros r Hr. left. exact Hr.
    - intros t w st' _. eapply Forall_impl; [|apply call_logger]. intros r Hr. left. exact Hr.
    - intros st' text _. apply filter_Forall. constructor; [right; reflexivity|constructor].
    - congruence.
  Qed.

  (** * Calls with the same levels *)

  Definition same_levels (st st' : log_state) : Prop :=
    effective_level st' = effective_level st /\ inherited_level st' = inherited_level st
    /\ info_const st' = info_const st.

  Lemma shown_levels st st' r : effective_level st' = effective_level st ->
    inherited_level st' = inherited_level st -> shown st' r = shown st r.
  Proof. unfold shown. intros -> ->. reflexivity. Qed.

  Lemma call_levels t w st st' : same_levels st st' ->
    reformat_markdown_text_all R lim t w st' = reformat_markdown_text_all R lim t w st.
  Proof.
    intros (H1 & H2 & H3). unfold reformat_markdown_text_all. rewrite H3.
    destruct (reformat_pass_all R lim (info_const st) t w) as [rs [t'|e]];
      [|apply filter_ext; intros r; apply shown_levels; assumption].
    cbv zeta. rewrite H1. f_equal; [apply filter_ext; intros r; apply shown_levels; assumption|].
    assert (E : info_const (if Z.ltb DEBUG (effective_level st) then set_level st' ERROR else st')
                = info_const (if Z.ltb DEBUG (effective_level st) then set_level st ERROR else st))
      by (destruct (Z.ltb _ _); exact H3).
    rewrite E. apply filter_ext. intros r. destruct (Z.ltb _ _); apply shown_levels; try assumption.
    reflexivity.
  Qed.

  Lemma call_restores t w st out : effective_level st <> 0%Z ->
    reformat_markdown_text lim t w = Ok out ->
    same_levels st (snd (reformat_markdown_text_log lim t w st))
    /\ fst (reformat_markdown_text_log lim t w st) = Ok out.
  Proof.
    intros Hl H. unfold reformat_markdown_text in H.
    destruct (reformat_pass lim t w) as [t'|] eqn:E1; [|discriminate]. cbn [bind] in H.
    destruct (reformat_pass lim t' w) as [t2|] eqn:E2; [|discriminate]. cbn [bind] in H.
    unfold reformat_markdown_text_log. cbv zeta. rewrite E1. cbn [info_after]. rewrite E2. cbn [info_after].
    destruct (str_eqb t2 t'); [|discriminate]. cbn [fst snd]. split; [|exact H].
    apply Z.eqb_neq in Hl. unfold same_levels, effective_level at 1. cbn [set_level own_level inherited_level info_const].
    rewrite Hl. destruct (Z.ltb _ _); auto.
  Qed.

  (** What a run logs of a file that can be formatted. *)
  Definition file_records (a : cli_args) (fs : fsys) (st : log_state) (p : path) (rs : list record) : Prop :=
    exists old new, formats_to lim fs (line_length a) p old new
      /\ rs = reformat_markdown_text_all R lim old (line_length a) st.

  Lemma same_levels_trans st st' st'' : same_levels st st' -> same_levels st' st'' -> same_levels st st''.
  Proof. intros (A & B & C) (D & E & F). repeat split; congruence. Qed.

  Lemma file_records_eq a fs fs' st p rs : fs' p = fs p ->
    file_records a fs' st p rs -> file_records a fs st p rs.
  Proof.
    intros E (old & new & [H1 H2] & H3). exists old, new. split; [|exact H3]. split; [|exact H2].
    rewrite <- H1. symmetry. apply read_text_eq, E.
  Qed.

  Lemma files_records a fs st st0 pairs es n m :
    effective_level st0 <> 0%Z -> same_levels st0 st -> fresh pairs ->
    files_loop lim a fs pairs = (es, inl (n, m)) ->
    exists groups, Forall2 (file_records a fs st0) (map fst pairs) groups
      /\ files_shown R lim a fs st pairs = concat groups.
  Proof.
    intros H0. revert fs st es n m. induction pairs as [|[i o] rest IH]; intros fs st es n m Hs Hf H.
    { exists []. split; [constructor|reflexivity]. }
    cbn [files_loop files_shown] in *.
    destruct (reformat_file lim a fs i o) as [es1 [c|e]] eqn:E; [|discriminate].
    destruct (files_loop lim a (apply_effects fs es1) rest) as [es2 [[n' m']|]] eqn:E2; [|discriminate].
    destruct Hf as (Hf1 & Hf2 & Hf3).
    destruct (reformat_file_ok lim a fs i o es1 c E) as (old & new & [Hr Hm] & _ & _ & _ & Hq).
    unfold file_shown. rewrite Hr.
    assert (Hl : effective_level st <> 0%Z) by (destruct Hs as (-> & _); exact H0).
    destruct (call_restores old (line_length a) st new Hl Hm) as [G1 G2].
    destruct (reformat_markdown_text_log lim old (line_length a) st) as [x st1]. cbn [fst snd] in G1, G2. subst x.
    rewrite app_nil_r.
    destruct (IH _ st1 _ _ _ (same_levels_trans _ _ _ Hs G1) Hf3 E2) as (groups & IH1 & IH2).
    exists (reformat_markdown_text_all R lim old (line_length a) st0 :: groups). split.
    - cbn [map fst]. constructor; [exists old, new; split; [split; assumption|reflexivity]|].
      assert (D : forall p, In p (map fst rest) -> apply_effects fs es1 p = fs p).
      { intros p Hp. apply Hq. intros ->. contradiction. }
      clear - IH1 D. induction IH1 as [|p rs ps groups H1 H2 IH]; constructor.
      + eapply file_records_eq; [apply D; left; reflexivity|exact H1].
      + apply IH. intros q Hq. apply D. right. exact Hq.
    - cbn [concat]. rewrite IH2. f_equal. apply call_levels, Hs.
  Qed.

  Lemma files_stopped a fs st st0 pairs es err : write_renders a = false ->
    effective_level st0 <> 0%Z -> same_levels st0 st -> fresh pairs ->
    files_loop lim a fs pairs = (es, inr err) ->
    exists before p o after groups here, pairs = before ++ (p, o) :: after
      /\ Forall2 (file_records a fs st0) (map fst before) groups
      /\ (forall old, read_text fs p = Ok old -> here = reformat_markdown_text_all R lim old (line_length a) st0)
      /\ (forall e, read_text fs p = Err e -> here = [])
      /\ files_shown R lim a fs st pairs = concat groups ++ here.
  Proof.
    intros Hw H0. revert fs st es. induction pairs as [|[i o] rest IH]; intros fs st es Hs Hf H; [discriminate|].
    cbn [files_loop files_shown] in *. destruct Hf as (Hf1 & Hf2 & Hf3).
    assert (Hl : effective_level st <> 0%Z) by (destruct Hs as (-> & _); exact H0).
    destruct (reformat_file lim a fs i o) as [es1 [c|e]] eqn:E.
    2:{ exists [], i, o, rest, [], (fst (file_shown R lim a fs st i o)). split; [reflexivity|]. split; [constructor|].
        assert (G : files_shown R lim a fs st ((i, o) :: rest) = fst (file_shown R lim a fs st i o)).
        { cbn [files_shown]. rewrite E. destruct (file_shown R lim a fs st i o). reflexivity. }
        split; [|split; [|destruct (file_shown R lim a fs st i o); reflexivity]].
        - intros old Hr. unfold file_shown. rewrite Hr.
          destruct (reformat_markdown_text_log lim old (line_length a) st) as [x st1]. cbn [fst].
          rewrite Hw. cbn [andb]. destruct x as [t|e0]; [|rewrite andb_false_r]; rewrite app_nil_r;
            apply call_levels, Hs.
        - intros e0 Hr. unfold file_shown. rewrite Hr. reflexivity. }
    destruct (files_loop lim a (apply_effects fs es1) rest) as [es2 [[n' m']|err']] eqn:E2; [discriminate|].
    injection H as He <-.
    destruct (reformat_file_ok lim a fs i o es1 c E) as (old & new & [Hr Hm] & _ & _ & _ & Hq).
    unfold file_shown. rewrite Hr.
    destruct (call_restores old (line_length a) st new Hl Hm) as [G1 G2].
    destruct (reformat_markdown_text_log lim old (line_length a) st) as [x st1]. cbn [fst snd] in G1, G2. subst x.
    rewrite app_nil_r.
    destruct (IH _ st1 _ (same_levels_trans _ _ _ Hs G1) Hf3 E2) as
      (before & p & o' & after & groups & here & H1 & H2 & H3 & H4 & H5).
    assert (D : forall q, In q (map fst rest) -> apply_effects fs es1 q = fs q).
    { intros q Hin. apply Hq. intros ->. contradiction. }
    rewrite H1, map_app in D. cbn [map fst] in D.
    assert (Dp : read_text (apply_effects fs es1) p = read_text fs p).
    { apply read_text_eq, D. apply in_app_iff. right. left. reflexivity. }
    exists ((i, o) :: before), p, o', after, (reformat_markdown_text_all R lim old (line_length a) st0 :: groups), here.
    split; [cbn [app]; rewrite <- H1; reflexivity|]. split; [|split; [|split]].
    - cbn [map fst]. constructor; [exists old, new; split; [split; assumption|reflexivity]|].
      assert (D' : forall q, In q (map fst before) -> apply_effects fs es1 q = fs q)
        by (intros q Hin; apply D, in_app_iff; left; exact Hin).
      clear - H2 D'. induction H2 as [|q rs qs groups K1 K2 IH]; constructor.
      + eapply file_records_eq; [apply D'; left; reflexivity|exact K1].
      + apply IH. intros q' Hin. apply D'. right. exact Hin.
    - intros old' Ho. apply H3. rewrite Dp. exact Ho.
    - intros e0 Ho. apply (H4 e0). rewrite Dp. exact Ho.
    - cbn [concat]. rewrite H5, app_assoc. f_equal. f_equal. apply call_levels, Hs.
  Qed.
End RunLogProofs.
