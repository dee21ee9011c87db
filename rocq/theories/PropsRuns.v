(** Properties C61-C64: which invocations are carried out, how runs of the tool relate to
    each other, and the exit status of the process. *)
From Coq Require Import String.
From Verif Require Import Py Regex Utils TextWrap Lines Detectors Formatters Logging Cli.
From Verif Require Import Base SpecCli ProofsCli PropsApi PropsCli ProofsParser ProofsChars PropsChars.

(** * C61: exactly the valid invocations are carried out *)

Lemma valid_dec fs glob r files :
  work_list fs glob (ra_paths r) files ->
  valid_invocation fs r files \/ ~ valid_invocation fs r files.
Proof.
  intros H. destruct (parse_args_valid fs glob r files H) as [E _].
  destruct (parse_args fs glob r) as [a|s] eqn:Ea.
  - left. apply E. f_equal. destruct (parse_args_accepted _ _ _ _ Ea)
      as (E1 & E2 & E3 & E4 & E5 & E6 & _).
    apply work_list_expand in H. destruct a. cbn in *. congruence.
  - right. rewrite E. discriminate.
Qed.

Lemma main_not_rejected lim fs glob stdin r a s :
  parse_args fs glob r = Accepted a -> (s = 2 \/ s = 255)%Z ->
  main lim fs glob stdin r <> ([], Exit s).
Proof.
  intros Ha Hs H. unfold main in H. rewrite Ha in H. destruct (nilb (paths a)).
  - destruct stdin as [text|]; [|discriminate]. generalize dependent (universal_newlines text). clear text.
    intros text H. unfold reformat_stdin in H.
    destruct (reformat_markdown_text lim text (line_length a)) as [new|e].
    + destruct (check a); [destruct (negb (str_eqb new text))|]; discriminate.
    + destruct (is_runtime_error e && (write_renders a && is_inconsistent e)); [|discriminate].
      destruct (reformat_pass lim text (line_length a)) as [c1|e1]; [|discriminate].
      destruct (reformat_pass lim c1 (line_length a)); discriminate.
  - apply reformat_files_exit in H. destruct H as (es0 & ch & un & _ & H & _).
    destruct es0; discriminate.
Qed.

(** An invocation ends with status 2 or 255 without doing or printing anything (but
    usage messages) if and only if it is not valid. *)
Theorem C61_rejected_iff : forall lim fs glob stdin r files,
  work_list fs glob (ra_paths r) files ->
  ((main lim fs glob stdin r = ([], Exit 2) \/ main lim fs glob stdin r = ([], Exit 255))
   <-> ~ valid_invocation fs r files).
Proof.
  intros lim fs glob stdin r files H. destruct (parse_args_valid fs glob r files H) as [E1 E2].
  split.
  - intros Hm V. apply E1 in V.
    destruct Hm as [Hm|Hm]; revert Hm; eapply main_not_rejected; eauto.
  - intros V. unfold main. destruct (E2 V) as [->| ->]; auto.
Qed.

(** A valid invocation works on exactly its files with exactly its options. *)
Theorem C61_carried_out : forall fs glob r files,
  work_list fs glob (ra_paths r) files -> valid_invocation fs r files ->
  exists a, parse_args fs glob r = Accepted a
    /\ paths a = files /\ check a = ra_check r
    /\ output_directory a = ra_output_directory r /\ output_files a = ra_output_files r
    /\ write_renders a = ra_write_renders r.
Proof.
  intros fs glob r files H V. apply (parse_args_valid fs glob r files H) in V.
  eexists. split; [exact V|]. cbn. auto.
Qed.

Example C61_nonvacuous :
  let r := RawArgs 88 [[lit "a.md"]; [lit "d1"]] false 0 0 false None
             [[lit "b.md"]; [lit "out"; lit "new.md"]] false in
  let files := [[lit "a.md"]; [lit "d1"; lit "x.md"]] in
  work_list ex_fs (fun _ => [[lit "d1"; lit "x.md"]]) (ra_paths r) files
  /\ valid_invocation ex_fs r files
  /\ ~ valid_invocation ex_fs r (tl files).
Proof.
  split; [apply work_list_expand; vm_compute; reflexivity|]. split.
  - constructor; cbn.
    + intros p [<-|[<-|[]]]; vm_compute; discriminate.
    + auto.
    + discriminate.
    + intros p [<-|[<-|[]]]; [left; do 2 eexists|right; split]; vm_compute; reflexivity.
    + reflexivity.
    + reflexivity.
    + intros _ H. discriminate.
  - intros [_ _ _ _ _ V _]. specialize (V ltac:(discriminate)). discriminate.
Qed.

(** * In-place runs file by file *)

Section Loop.
  Variable lim : nat.

  Lemma changes_formats fs w ps l :
    changes lim fs w ps l ->
    forall p, In p ps -> exists old new, formats_to lim fs w p old new.
  Proof.
    induction 1 as [|p ps l text Hf _ IH|p ps l old new Hf Hn _ IH]; intros q Hq.
    - destruct Hq.
    - destruct Hq as [<-|Hq]; eauto.
    - destruct Hq as [<-|Hq]; eauto.
  Qed.

  Lemma formats_changes fs w ps :
    (forall p, In p ps -> exists old new, formats_to lim fs w p old new) ->
    exists l, changes lim fs w ps l.
  Proof.
    induction ps as [|p ps IH]; intros H; [exists []; constructor|].
    destruct IH as (l & Hl); [intros q Hq; apply H; right; exact Hq|].
    destruct (H p (or_introl eq_refl)) as (old & new & Hf).
    destruct (str_eqb new old) eqn:E.
    - apply str_eqb_eq in E. subst new. exists l. econstructor; eauto.
    - apply str_eqb_neq in E. eexists. eapply changes_one; eauto.
  Qed.

  Lemma changes_transfer fs fs' w ps l :
    (forall p, In p ps -> fs' p = fs p) ->
    changes lim fs w ps l -> changes lim fs' w ps l.
  Proof.
    intros Hs H. induction H as [|p ps l text [H1 H2] _ IH|p ps l old new [H1 H2] Hn _ IH].
    - constructor.
    - econstructor; [|apply IH; intros q Hq; apply Hs; right; exact Hq].
      split; [|exact H2]. rewrite <- H1. apply read_text_eq, Hs. left. reflexivity.
    - econstructor; [|exact Hn|apply IH; intros q Hq; apply Hs; right; exact Hq].
      split; [|exact H2]. rewrite <- H1. apply read_text_eq, Hs. left. reflexivity.
  Qed.

  Definition script (a : cli_args) (l : list (path * str)) : list effect :=
    if check a then map (fun c => Out (would_reformat_message (fst c))) l
    else flat_map rewrite_effects l.

  Lemma reformat_file_here a fs p old new :
    formats_to lim fs (line_length a) p old new ->
    (check a = true \/ can_hold_text fs p) ->
    reformat_file lim a fs p p
    = if str_eqb new old then ([], inl false) else (script a [(p, new)], inl true).
  Proof.
    intros [Hr Hm] Hw. unfold reformat_file, script. rewrite Hr, Hm, path_eqb_refl.
    destruct (str_eqb new old); cbn [negb]; [reflexivity|].
    destruct (check a) eqn:Ec; cbn [negb]; [reflexivity|].
    destruct Hw as [Hw|[(s & r & E)|[E _]]]; [discriminate| |].
    - unfold write_text. rewrite E. reflexivity.
    - unfold read_text in Hr. rewrite E in Hr. discriminate.
  Qed.

  Lemma script_other a p new q fs :
    q <> p \/ check a = true -> apply_effects fs (script a [(p, new)]) q = fs q.
  Proof.
    intros H. apply apply_effects_other. intros e He Ht. unfold script in He.
    destruct (check a) eqn:Ec.
    - destruct He as [<-|[]]. exact Ht.
    - destruct H as [H|H]; [|discriminate].
      destruct He as [<-|[<-|[<-|[]]]]; cbn in Ht; try contradiction; congruence.
  Qed.

  Lemma loop_changes a ps l : forall fs,
    NoDup ps \/ check a = true ->
    (check a = true \/ forall p, In p ps -> can_hold_text fs p) ->
    changes lim fs (line_length a) ps l ->
    files_loop lim a fs (twice ps)
    = (script a l, inl (length l, length ps - length l)) /\ length l <= length ps.
  Proof.
    intros fs Hnd Hw H. revert fs l Hnd Hw H.
    induction ps as [|p ps IH]; intros fs l Hnd Hw H.
    - inv H. unfold script. destruct (check a); auto.
    - assert (Hnd' : NoDup ps \/ check a = true)
        by (destruct Hnd as [Hnd|Hc]; [left; inv Hnd; assumption|auto]).
      assert (Hw' : check a = true \/ forall q, In q ps -> can_hold_text fs q)
        by (destruct Hw as [Hw|Hw]; [auto|right; intros q Hq; apply Hw; right; exact Hq]).
      assert (Hwp : check a = true \/ can_hold_text fs p)
        by (destruct Hw as [Hw|Hw]; [auto|right; apply Hw; left; reflexivity]).
      cbn [twice map files_loop]. fold (twice ps).
      inversion H as [|? ? ? text Hf Hch|? ? l0 old new Hf Hn Hch]; subst.
      + rewrite (reformat_file_here a fs p _ _ Hf Hwp), str_eqb_refl.
        change (apply_effects fs []) with fs.
        destruct (IH fs l Hnd' Hw' Hch) as [-> Hl]. split; [|cbn; lia].
        cbn [app length]. do 2 f_equal. f_equal. lia.
      + rewrite (reformat_file_here a fs p _ _ Hf Hwp).
        apply str_eqb_neq in Hn. rewrite Hn.
        set (fs1 := apply_effects fs (script a [(p, new)])).
        assert (Q : forall q, In q ps -> fs1 q = fs q).
        { intros q Hq. apply script_other. destruct Hnd as [Hnd|Hc]; [left|auto].
          inv Hnd. intros ->. contradiction. }
        assert (C1 : changes lim fs1 (line_length a) ps l0)
          by (eapply changes_transfer; [exact Q|assumption]).
        assert (Hw1 : check a = true \/ forall q, In q ps -> can_hold_text fs1 q).
        { destruct Hw' as [Hw'|Hw']; [auto|]. right. intros q Hq.
          destruct (Hw' q Hq) as [(s & r & E)|[E _]].
          - left. exists s, r. rewrite Q by exact Hq. exact E.
          - destruct (changes_formats _ _ _ _ C1 q Hq) as (o & nw & [Hr _]).
            unfold read_text in Hr. rewrite (Q q Hq), E in Hr. discriminate. }
        destruct (IH fs1 l0 Hnd' Hw1 C1) as [-> Hl]. split; [|cbn; lia].
        cbn [length]. rewrite Nat.sub_succ. unfold script.
        destruct (check a); cbn [map flat_map app]; [reflexivity|].
        rewrite app_nil_r. reflexivity.
  Qed.

  Lemma loop_completes a ps : forall fs es n m,
    NoDup ps \/ check a = true ->
    files_loop lim a fs (twice ps) = (es, inl (n, m)) ->
    exists l, changes lim fs (line_length a) ps l.
  Proof.
    induction ps as [|p ps IH]; intros fs es n m Hnd H; [exists []; constructor|].
    cbn [twice map files_loop] in H. fold (twice ps) in H.
    destruct (reformat_file lim a fs p p) as [es1 [ch|err]] eqn:E; [|discriminate].
    destruct (files_loop lim a (apply_effects fs es1) (twice ps)) as [es2 [[n2 m2]|err]] eqn:E2;
      [|discriminate].
    apply IH in E2; [|destruct Hnd as [Hnd|Hc]; [left; inv Hnd; assumption|auto]].
    destruct E2 as (l & Hl).
    apply reformat_file_ok in E. destruct E as (old & new & Hf & -> & Ees & _ & Q).
    assert (Hl' : changes lim fs (line_length a) ps l).
    { eapply changes_transfer; [|exact Hl]. intros q Hq. symmetry.
      destruct (path_eqb q p) eqn:Eq.
      - apply path_eqb_eq in Eq. subst q. destruct Hnd as [Hnd|Hc]; [inv Hnd; contradiction|].
        rewrite Ees, Hc, path_eqb_refl. destruct (negb (str_eqb new old)); reflexivity.
      - apply Q. apply path_eqb_neq. exact Eq. }
    destruct (str_eqb new old) eqn:E.
    - apply str_eqb_eq in E. subst new. exists l. econstructor; eauto.
    - apply str_eqb_neq in E. eexists. eapply changes_one; eauto.
  Qed.

  Lemma changes_in fs w ps l p new :
    changes lim fs w ps l -> In (p, new) l ->
    In p ps /\ exists old, formats_to lim fs w p old new /\ new <> old.
  Proof.
    induction 1 as [|q ps l text Hf _ IH|q ps l old nw Hf Hn _ IH]; intros Hin.
    - destruct Hin.
    - destruct (IH Hin). split; [right|]; assumption.
    - destruct Hin as [E|Hin]; [inv E; split; [left; reflexivity|eauto]|].
      destruct (IH Hin). split; [right|]; assumption.
  Qed.

  Lemma script_touches a l e p : In e (script a l) -> touches p e ->
    check a = false /\ exists new, In (p, new) l.
  Proof.
    unfold script. intros He Ht. destruct (check a).
    - apply in_map_iff in He. destruct He as (c & <- & _). destruct Ht.
    - split; [reflexivity|]. apply in_flat_map in He. destruct He as ([q new] & Hc & He).
      exists new. destruct He as [<-|[<-|[<-|[]]]]; cbn in Ht; try contradiction; subst q; exact Hc.
  Qed.

  Lemma script_keeps a fs w ps l p :
    changes lim fs w ps l -> ~ In p ps \/ check a = true ->
    apply_effects fs (script a l) p = fs p.
  Proof.
    intros H Hp. apply apply_effects_other. intros e He Ht.
    destruct (script_touches a l e p He Ht) as (Hc & new & Hin).
    apply (changes_in fs w ps l) in Hin; [|exact H]. destruct Hp as [Hp|Hp]; [tauto|congruence].
  Qed.
End Loop.

(** Writing files keeps what kind of thing every path is. *)
Lemma apply_effects_shape fs es :
  (forall e p, In e es -> touches p e -> exists s, holds fs p s) ->
  forall p, same_node_shape (fs p) (apply_effects fs es p).
Proof.
  revert fs. induction es as [|e es IH]; intros fs H p.
  - cbn. destruct (fs p) as [[]|]; cbn; auto.
  - change (apply_effects fs (e :: es)) with (apply_effects (apply_effect fs e) es).
    assert (S1 : forall q, same_node_shape (fs q) (apply_effect fs e q)).
    { intros q. assert (R : same_node_shape (fs q) (fs q)) by (destruct (fs q) as [[]|]; cbn; auto).
      destruct e as [p'|p' s|s]; cbn [apply_effect]; [| |exact R].
      - destruct (H _ p' (or_introl eq_refl) eq_refl) as (s0 & r & w & E). rewrite E.
        unfold update. destruct (path_eqb q p') eqn:Eq; [|exact R].
        apply path_eqb_eq in Eq. subst q. rewrite E. cbn. auto.
      - destruct (fs p') as [[c r w|w]|] eqn:E; try exact R.
        unfold update. destruct (path_eqb q p') eqn:Eq; [|exact R].
        apply path_eqb_eq in Eq. subst q. rewrite E. cbn. auto. }
    assert (S2 : same_node_shape (apply_effect fs e p) (apply_effects (apply_effect fs e) es p)).
    { apply IH. intros e' q He Ht. destruct (H e' q (or_intror He) Ht) as (s & r & w & E).
      specialize (S1 q). rewrite E in S1. unfold holds.
      destruct (apply_effect fs e q) as [[c r' w'|w']|]; cbn in S1; try contradiction. eauto. }
    specialize (S1 p). destruct (fs p) as [[]|], (apply_effect fs e p) as [[]|],
      (apply_effects (apply_effect fs e) es p) as [[]|]; cbn in *; try tauto; intuition congruence.
Qed.

Lemma work_list_shape fs fs' glob ps files :
  (forall p, same_node_shape (fs p) (fs' p)) ->
  work_list fs glob ps files -> work_list fs' glob ps files.
Proof.
  intros Hs H. apply work_list_expand in H. apply work_list_expand. subst files.
  unfold expand_paths. apply flat_map_ext. intros p. unfold is_file. specialize (Hs p).
  destruct (fs p) as [[]|], (fs' p) as [[]|]; cbn in Hs; tauto.
Qed.

Lemma can_hold_shape fs fs' p :
  (forall p, same_node_shape (fs p) (fs' p)) -> can_hold_text fs p -> can_hold_text fs' p.
Proof.
  intros Hs [(s & r & E)|[E1 E2]]; [left|right].
  - specialize (Hs p). rewrite E in Hs. destruct (fs' p) as [[]|]; cbn in Hs; try contradiction.
    destruct Hs as [-> ->]. eauto.
  - pose proof (Hs p) as H1. rewrite E1 in H1. destruct (fs' p); [contradiction|].
    pose proof (Hs (removelast p)) as H2. rewrite E2 in H2.
    destruct (fs' (removelast p)) as [[]|]; cbn in H2; try contradiction. subst. auto.
Qed.

Lemma valid_shape fs fs' r files :
  (forall p, same_node_shape (fs p) (fs' p)) ->
  valid_invocation fs r files -> valid_invocation fs' r files.
Proof.
  intros Hs [V1 V2 V3 V4 V5 V6 V7]. constructor; auto.
  - intros p Hp E. apply (V1 p Hp). specialize (Hs p). rewrite E in Hs.
    destruct (fs p); [|reflexivity]. destruct n; contradiction.
  - intros d Hd. specialize (V3 d Hd). specialize (Hs d). rewrite V3 in Hs.
    destruct (fs' d) as [[]|]; cbn in Hs; try contradiction. congruence.
  - intros p Hp. eapply can_hold_shape; eauto.
  - intros E1 E2 E3 p Hp. eapply can_hold_shape; eauto.
Qed.

Lemma valid_checking fs r files :
  valid_invocation fs r files -> valid_invocation fs (checking r) files.
Proof. intros [V1 V2 V3 V4 V5 V6 V7]. constructor; auto. cbn. discriminate. Qed.

Lemma no_cr lim text w out : reformat_markdown_text lim text w = Ok out -> ~ In c_cr out.
Proof.
  intros H Hin. assert (c_cr = c_nl); [|discriminate].
  eapply C04_only_newline_separators; [exact H|exact Hin|cbn; auto 6].
Qed.

(** * Runs over files *)

Section Runs.
  Variables (lim : nat) (fs : fsys) (glob : path -> list path) (stdin : option str)
    (r : raw_args) (files : list path).
  Hypothesis Hwl : work_list fs glob (ra_paths r) files.
  Hypothesis Hne : files <> [].
  Hypothesis Hd : ra_output_directory r = None.
  Hypothesis Ho : ra_output_files r = [].
  Hypothesis Hv : valid_invocation fs r files.
  Hypothesis Hnd : NoDup files \/ ra_check r = true.

  Let w := effective_line_length (ra_line_length r).
  Let a := CliArgs w files (ra_check r) None [] (ra_write_renders r).

  Lemma main_is_loop : main lim fs glob stdin r = reformat_files lim a fs.
  Proof.
    apply (parse_args_valid fs glob r files Hwl) in Hv. rewrite Hd, Ho in Hv.
    unfold main. rewrite Hv. cbn [paths]. apply nilb_false in Hne. rewrite Hne. reflexivity.
  Qed.

  Lemma writable_or_check : check a = true \/ forall p, In p files -> can_hold_text fs p.
  Proof.
    destruct (ra_check r) eqn:Ec; [left; reflexivity|right]. destruct Hv as [_ _ _ _ _ _ V]. auto.
  Qed.

  Lemma main_changes l :
    changes lim fs w files l ->
    main lim fs glob stdin r
    = (script a l ++ [Out (lit "All done!"); Out (summary a (length l) (length files - length l))],
       Exit (if ra_check r && negb (length l =? 0) then 1 else 0)).
  Proof.
    intros H. rewrite main_is_loop. unfold reformat_files.
    change (output_paths a) with files. change (paths a) with files. rewrite zip2_twice.
    destruct (loop_changes lim a files l fs Hnd writable_or_check H) as [-> _]. reflexivity.
  Qed.

  Lemma main_completes es n :
    main lim fs glob stdin r = (es, Exit n) -> exists l, changes lim fs w files l.
  Proof.
    rewrite main_is_loop. intros H. apply reformat_files_exit in H.
    destruct H as (es0 & ch & un & H & _). change (output_paths a) with files in H.
    change (paths a) with files in H. rewrite zip2_twice in H.
    eapply (loop_completes lim a); [exact Hnd|exact H].
  Qed.

  (** [p] cannot be read, or formatting its text raises [e]. *)
  Definition fails (p : path) (e : exn) : Prop :=
    read_text fs p = Err e
    \/ exists text, read_text fs p = Ok text /\ reformat_markdown_text lim text w = Err e.

  Lemma loop_at before p after l :
    files = before ++ p :: after -> changes lim fs w before l ->
    let fs1 := apply_effects fs (script a l) in
    files_loop lim a fs (twice before)
    = (script a l, inl (length l, length before - length l))
    /\ fs1 p = fs p /\ (check a = true \/ can_hold_text fs1 p)
    /\ (forall q, same_node_shape (fs q) (fs1 q)).
  Proof.
    intros Ef Hch fs1.
    assert (Hb : NoDup before \/ check a = true).
    { destruct Hnd as [H|H]; [left|right; exact H]. rewrite Ef in H. eapply NoDup_app_l. exact H. }
    assert (Hwb : check a = true \/ forall q, In q before -> can_hold_text fs q).
    { destruct writable_or_check as [H|H]; [auto|right]. intros q Hq. apply H. rewrite Ef.
      apply in_app_iff. auto. }
    destruct (loop_changes lim a before l fs Hb Hwb Hch) as [El _].
    assert (Hk : fs1 p = fs p).
    { eapply script_keeps; [exact Hch|]. destruct Hnd as [H|H]; [left|right; exact H].
      rewrite Ef in H. apply NoDup_remove_2 in H. intros Hp. apply H, in_app_iff. auto. }
    split; [exact El|]. split; [exact Hk|].
    assert (S : forall q, same_node_shape (fs q) (fs1 q)).
    { apply apply_effects_shape. intros e q He Ht.
      destruct (script_touches a l e q He Ht) as (_ & new & Hin).
      apply (changes_in lim fs w before l) in Hin; [|exact Hch].
      destruct Hin as (_ & old & [Hr _] & _). unfold read_text in Hr. unfold holds.
      destruct (fs q) as [[c [|] w0|]|]; try discriminate. eauto. }
    split; [|exact S].
    destruct (ra_check r) eqn:Ec; [left; reflexivity|right].
    assert (Hp : can_hold_text fs p).
    { destruct Hv as [_ _ _ _ _ _ V]. apply V; auto. rewrite Ef. apply in_app_iff.
      right. left. reflexivity. }
    eapply can_hold_shape; eauto.
  Qed.

  Lemma main_raises es e f :
    ra_write_renders r = false ->
    main lim fs glob stdin r = (es, Raised e f) ->
    exists before p after l,
      files = before ++ p :: after /\ changes lim fs w before l /\ fails p e.
  Proof.
    intros Hw. rewrite main_is_loop. intros H. apply reformat_files_raised in H.
    change (output_paths a) with files in H. change (paths a) with files in H.
    rewrite zip2_twice in H. apply files_loop_err in H.
    destruct H as (bef & i & o & aft & es0 & es1 & n & m & Ep & Hl & Hf & ->).
    unfold twice in Ep. apply map_eq_app in Ep. destruct Ep as (before & rest & Ef & <- & Er).
    destruct rest as [|p after]; [discriminate|]. injection Er as <- <- <-.
    assert (Hb : NoDup before \/ check a = true).
    { destruct Hnd as [H|H]; [left|right; exact H]. rewrite Ef in H. eapply NoDup_app_l. exact H. }
    fold (twice before) in Hl. pose proof (loop_completes lim a before fs es0 n m Hb Hl) as (l & Hch).
    exists before, p, after, l. split; [exact Ef|]. split; [exact Hch|].
    destruct (loop_at before p after l Ef Hch) as (El & Hk & Hwp & _). rewrite El in Hl. inv Hl.
    unfold fails. rewrite <- (read_text_eq fs _ p Hk).
    unfold reformat_file in Hf. cbn [write_renders line_length a] in Hf. rewrite Hw in Hf.
    cbn [andb] in Hf.
    destruct (read_text _ p) as [old|e0] eqn:Er; [|inv Hf; auto].
    right. exists old. split; [reflexivity|].
    destruct (reformat_markdown_text lim old w) as [new|e0] eqn:Em.
    - assert (F : formats_to lim (apply_effects fs (script a l)) (line_length a) p old new)
        by (split; assumption).
      apply (reformat_file_here lim a _ p old new F) in Hwp.
      unfold reformat_file in Hwp. cbn [write_renders line_length a] in Hwp.
      rewrite Er, Em in Hwp. rewrite Hwp in Hf. destruct (str_eqb new old); discriminate.
    - destruct (is_runtime_error e0); inv Hf; reflexivity.
  Qed.

  Lemma main_fails before p after l e :
    ra_write_renders r = false ->
    files = before ++ p :: after -> changes lim fs w before l -> fails p e ->
    exists es f, main lim fs glob stdin r = (es, Raised e f).
  Proof.
    intros Hw Ef Hch Hf. rewrite main_is_loop. unfold reformat_files.
    change (output_paths a) with files. change (paths a) with files. rewrite zip2_twice.
    rewrite Ef. unfold twice. rewrite map_app. fold (twice before). cbn [map].
    destruct (loop_at before p after l Ef Hch) as (El & Hk & _).
    rewrite (files_loop_app lim a _ _ fs _ _ _ El). cbn [files_loop].
    assert (Er : exists es f, reformat_file lim a (apply_effects fs (script a l)) p p
                              = (es, inr (e, f))).
    { unfold reformat_file. rewrite (read_text_eq fs _ p Hk).
      cbn [write_renders line_length a]. rewrite Hw. cbn [andb].
      destruct Hf as [->|(text & -> & ->)]; [eauto|]. destruct (is_runtime_error e); eauto. }
    destruct Er as (es & f & ->). eauto.
  Qed.

  Lemma main_renders before i after l text e :
    ra_write_renders r = true ->
    files = before ++ i :: after -> changes lim fs w before l ->
    read_text fs i = Ok text -> reformat_markdown_text lim text w = Err e ->
    inconsistent e ->
    exists first second c1 c2,
      render_name_spec (last i []) first second
      /\ reformat_pass lim text w = Ok c1 /\ reformat_pass lim c1 w = Ok c2 /\ c1 <> c2
      /\ let p1 := removelast i ++ [first] in
         let p2 := removelast i ++ [second] in
         (can_hold_text fs p1 -> can_hold_text fs p2 ->
          main lim fs glob stdin r
          = (script a l ++ [Truncate p1; Append p1 c1; Truncate p2; Append p2 c2],
             Raised e (Some i))).
  Proof.
    intros Hw Ef Hch Hr He Hi.
    destruct (inconsistent_passes _ _ _ _ He Hi) as (c1 & c2 & H1 & H2 & Hn).
    change (last i []) with (path_name i). change (removelast i) with (path_parent i).
    exists (fst (render_names (path_name i))), (snd (render_names (path_name i))), c1, c2.
    split; [apply render_names_spec|]. do 3 (split; [assumption|]). cbn zeta. intros W1 W2.
    rewrite main_is_loop. unfold reformat_files.
    change (output_paths a) with files. change (paths a) with files. rewrite zip2_twice.
    rewrite Ef. unfold twice. rewrite map_app. fold (twice before). cbn [map].
    destruct (loop_at before i after l Ef Hch) as (El & Hk & _ & S).
    rewrite (files_loop_app lim a _ _ fs _ _ _ El). cbn [files_loop].
    set (fs1 := apply_effects fs (script a l)) in *.
    apply (can_hold_shape fs fs1) in W1; [|exact S]. apply (can_hold_shape fs fs1) in W2; [|exact S].
    pose proof (render_names_spec (path_name i)) as Hns.
    unfold reformat_file. rewrite (read_text_eq fs _ i Hk), Hr.
    cbn [write_renders line_length a]. fold w. rewrite He, Hw, (inconsistent_runtime e Hi).
    apply inconsistent_bool in Hi. rewrite Hi. cbn [andb]. unfold do_write_renders.
    destruct (render_names (path_name i)) as [f1 f2]. cbn [fst snd] in *.
    rewrite (read_text_eq fs _ i Hk), Hr. cbn [bind]. rewrite H1. cbn [bind]. unfold path_join.
    rewrite (write_text_able fs1 _ c1 W1). cbn [bind]. rewrite H2. cbn [bind].
    rewrite write_text_able; [reflexivity|]. apply can_hold_beside; [|exact W2].
    destruct Hns as [(stem & _ & -> & ->)|(_ & -> & ->)]; intros E; apply app_inv_head in E;
      discriminate.
  Qed.
End Runs.

(** * C54: the renders of an inconsistent file *)

(** In-place runs and checks of valid invocations with [--write-renders]: if the first file
    that fails would be changed by formatting its own output, the outputs of the two passes
    are written beside it, after the effects of the files before it. *)
Theorem C54_renders_in_run : forall lim fs glob stdin r files before i after l text e,
  work_list fs glob (ra_paths r) files -> NoDup files \/ ra_check r = true ->
  ra_output_directory r = None -> ra_output_files r = [] -> ra_write_renders r = true ->
  valid_invocation fs r files ->
  let w := effective_line_length (ra_line_length r) in
  files = before ++ i :: after -> changes lim fs w before l ->
  read_text fs i = Ok text -> reformat_markdown_text lim text w = Err e ->
  inconsistent e ->
  exists first second c1 c2,
    render_name_spec (last i []) first second
    /\ reformat_pass lim text w = Ok c1 /\ reformat_pass lim c1 w = Ok c2 /\ c1 <> c2
    /\ let p1 := removelast i ++ [first] in
       let p2 := removelast i ++ [second] in
       (can_hold_text fs p1 -> can_hold_text fs p2 ->
        main lim fs glob stdin r
        = ((if ra_check r then map (fun c => Out (lit "would reformat " ++ printed (fst c))) l
            else flat_map rewrite_effects l)
           ++ [Truncate p1; Append p1 c1; Truncate p2; Append p2 c2], Raised e (Some i))).
Proof.
  intros lim fs glob stdin r files before i after l text e Hwl Hnd Hd Ho Hw V w Ef Hch Hr He Hi.
  assert (Hne : files <> []) by (rewrite Ef; destruct before; discriminate).
  exact (main_renders lim fs glob stdin r files Hwl Hne Hd Ho V Hnd before i after l text e
           Hw Ef Hch Hr He Hi).
Qed.

Example C54_run_nonvacuous :
  main 9 ex_fs no_glob None
    (RawArgs 88 [[lit "a.md"]; [lit "incons.md"]; [lit "b.md"]] false 0 0 false None [] true)
  = (rewrite_effects ([lit "a.md"], lit "# A" ++ [c_nl])
     ++ [Truncate [lit "incons.1.md"]; Append [lit "incons.1.md"] (lit "> foo" ++ [c_nl] ++ lit "> bar" ++ [c_nl]);
         Truncate [lit "incons.2.md"]; Append [lit "incons.2.md"] (lit "> foo bar" ++ [c_nl])],
     Raised ReformatInconsistentException (Some [lit "incons.md"])).
Proof. vm_compute. reflexivity. Qed.

(** * C46: runs with separate outputs come to an end *)

(** If the outputs can be written, a run with separate outputs is completed exactly if all
    inputs can be formatted. *)
Theorem C46_separate_completes : forall lim fs glob stdin r a,
  parse_args fs glob r = Accepted a -> paths a <> [] ->
  (ra_output_directory r <> None \/ ra_output_files r <> []) -> ra_check r = false ->
  ra_write_renders r = false ->
  NoDup (output_paths a) -> (forall p, In p (output_paths a) -> ~ In p (paths a)) ->
  (forall p, In p (output_paths a) -> can_hold_text fs p) ->
  ((exists es n, main lim fs glob stdin r = (es, Exit n))
   <-> forall p, In p (paths a) -> exists old new, formats_to lim fs (line_length a) p old new).
Proof.
  intros lim fs glob stdin r a Ha Hp Hsep Hc Hw Hnd Hdis Hcan. split.
  - intros (es & n & H) p Hin.
    destruct (C46_separate_outputs_partial lim fs glob stdin r a es n Ha Hp Hsep Hc Hnd Hdis H)
      as (Hlen & Hall & _).
    apply In_nth_error in Hin. destruct Hin as (k & Hk).
    destruct (nth_error (output_paths a) k) as [o|] eqn:Eo.
    + destruct (Hall k p o Hk Eo) as (_ & old & new & Hf & _). eauto.
    + apply nth_error_None in Eo. assert (nth_error (paths a) k <> None) by congruence.
      apply nth_error_Some in H0. lia.
  - intros Hall. destruct (main lim fs glob stdin r) as [es [n|e f]] eqn:E; [eauto|exfalso].
    destruct (C44_failing_file_separate lim fs glob stdin r a es e f Ha Hp Hsep Hc Hw Hnd Hdis E)
      as (before & p & after & outs & o & later & Ep & Eo & _ & Hk & Hcase).
    destruct (Hall p) as (old & new & Hr & Hm);
      [rewrite Ep; apply in_app_iff; right; left; reflexivity|].
    destruct Hcase as [[Hcase _]|[(old' & Hr' & Hm' & _)|(_ & _ & _ & Hno & _)]];
      [congruence|congruence|]. apply Hno.
    assert (Ho : ~ In o outs).
    { rewrite Eo in Hnd. apply NoDup_remove_2 in Hnd. rewrite in_app_iff in Hnd. tauto. }
    destruct (Hcan o) as [(s & rd & Es)|[E1 E2]];
      [rewrite Eo; apply in_app_iff; right; left; reflexivity|left|right].
    + exists s, rd. rewrite Hk by exact Ho. exact Es.
    + rewrite Hk by exact Ho. split; [exact E1|]. rewrite Hk; [exact E2|].
      intros Hin. destruct (Hcan (removelast o)) as [(s & rd & Es)|[Es _]];
        [rewrite Eo; apply in_app_iff; auto|congruence|congruence].
Qed.

(** * C62: a second run finds nothing to do *)

(** False: the text written to a file is not always formatted to itself (C03). *)
Theorem C62_second_run_refuted :
  exists fs r es,
    main 9 fs no_glob None r = (es, Exit 0)
    /\ snd (main 9 (apply_effects fs es) no_glob None r) = Raised StopIteration None.
Proof.
  set (r := RawArgs 10 [[lit "ref.md"]] false 0 0 false None [] false).
  exists ex_fs, r, (fst (main 9 ex_fs no_glob None r)). split; vm_compute; reflexivity.
Qed.

(** What is true: after a completed in-place run, [--check] exits with 0 exactly if formatting
    the formatted text of every file changes nothing, and then the same run writes nothing. *)
Theorem C62_second_run_exactly : forall lim fs glob stdin r files es n,
  work_list fs glob (ra_paths r) files -> files <> [] -> NoDup files ->
  ra_output_directory r = None -> ra_output_files r = [] -> ra_check r = false ->
  valid_invocation fs r files ->
  main lim fs glob stdin r = (es, Exit n) ->
  let fs' := apply_effects fs es in
  let w := effective_line_length (ra_line_length r) in
  let stable := forall p old new, In p files -> formats_to lim fs w p old new ->
    reformat_markdown_text lim new w = Ok new in
  ((exists es', main lim fs' glob stdin (checking r) = (es', Exit 0)) -> stable)
  /\ (stable ->
      (exists es', main lim fs' glob stdin (checking r) = (es', Exit 0))
      /\ (exists es', main lim fs' glob stdin r = (es', Exit 0) /\ Forall is_print es')).
Proof.
  intros lim fs glob stdin r files es n Hwl Hne Hnd Hd Ho Hc V H fs' w stable. subst stable.
  destruct (main_completes lim fs glob stdin r files Hwl Hne Hd Ho V (or_introl Hnd) es n H) as (l & Hl).
  rewrite (main_changes lim fs glob stdin r files Hwl Hne Hd Ho V (or_introl Hnd) l Hl) in H.
  set (a := CliArgs w files (ra_check r) None [] (ra_write_renders r)) in H.
  destruct (parse_args_valid fs glob r files Hwl) as [PA _]. apply PA in V as Ha. clear PA.
  assert (S : forall q, same_node_shape (fs q) (fs' q)).
  { apply apply_effects_shape. intros e q He Ht. inv H. apply in_app_iff in He.
    destruct He as [He|[<-|[<-|[]]]]; try (destruct Ht; fail).
    destruct (script_touches a l e q He Ht) as (_ & new & Hin).
    apply (changes_in lim fs w files l) in Hin; [|exact Hl].
    destruct Hin as (_ & old & [Hr _] & _). unfold read_text in Hr. unfold holds.
    destruct (fs q) as [[c [|] w0|]|]; try discriminate. eauto. }
  assert (H0 : main lim fs glob stdin r = (es, Exit n)).
  { rewrite (main_changes lim fs glob stdin r files Hwl Hne Hd Ho V (or_introl Hnd) l Hl). exact H. }
  destruct (C43_in_place_run lim fs glob stdin r _ es n Ha Hne Hnd Hd Ho Hc H0) as [G _].
  cbn [paths line_length] in G. fold fs' w in G.
  assert (R0 : forall p old new, In p files -> formats_to lim fs w p old new -> read_text fs' p = Ok new).
  { intros p old' new' Hp [Hr' Hm']. destruct (G p Hp) as (old & new & [Hr Hm] & Hw & Hs).
    rewrite Hr in Hr'. injection Hr' as <-. rewrite Hm in Hm'. injection Hm' as <-.
    destruct (str_eqb new old) eqn:E.
    - apply str_eqb_eq in E. subst old.
      rewrite <- Hr. apply read_text_eq. apply Hs. reflexivity.
    - apply str_eqb_neq in E. specialize (Hw E). destruct Hw as (rd & wr & Ew).
      unfold read_text. rewrite Ew.
      assert (Hrd : rd = true).
      { unfold read_text in Hr. specialize (S p). rewrite Ew in S.
        destruct (fs p) as [[c [|] w0|w0]|]; try discriminate; cbn in S; tauto || (destruct S; congruence). }
      subst rd. rewrite universal_newlines_id by (eapply no_cr; exact Hm). reflexivity. }
  assert (Hwl' : work_list fs' glob (ra_paths r) files) by (eapply work_list_shape; eauto).
  assert (V' : valid_invocation fs' r files) by (eapply valid_shape; eauto).
  split.
  { intros (es' & H'). destruct (main_completes lim fs' glob stdin (checking r) files Hwl' Hne Hd Ho
      (valid_checking _ _ _ V') (or_introl Hnd) es' 0 H') as (l' & Hl').
    rewrite (main_changes lim fs' glob stdin (checking r) files Hwl' Hne Hd Ho
      (valid_checking _ _ _ V') (or_introl Hnd) l' Hl') in H'.
    destruct l' as [|c l']; [|discriminate H']. intros p old new Hp F. assert (E := R0 p old new Hp F).
    clear - Hl' Hp E. remember [] as l0. induction Hl' as [|q ps l text [Hr Hm] Hc IH|]; [destruct Hp| |discriminate].
    destruct Hp as [->|Hp]; [|auto]. rewrite E in Hr. injection Hr as <-. exact Hm. }
  intros Hst.
  assert (R : forall p, In p files -> exists t, formats_to lim fs' w p t t).
  { intros p Hp. destruct (G p Hp) as (old & new & F & _). exists new. split; [exact (R0 p old new Hp F)|exact (Hst p old new Hp F)]. }
  assert (R' : changes lim fs' w files []).
  { clear - R. induction files as [|p ps IH]; [constructor|].
    destruct (R p (or_introl eq_refl)) as (t & Ht). econstructor; [exact Ht|].
    apply IH. intros q Hq. apply R. right. exact Hq. }
  split.
  - pose proof (main_changes lim fs' glob stdin (checking r) files Hwl' Hne Hd Ho
                  (valid_checking _ _ _ V') (or_introl Hnd) [] R') as E.
    rewrite E. cbn. eauto.
  - pose proof (main_changes lim fs' glob stdin r files Hwl' Hne Hd Ho V' (or_introl Hnd) [] R') as E.
    rewrite E, Hc. unfold script. cbn [check flat_map app andb]. eexists. split; [reflexivity|].
    repeat constructor.
Qed.

(** True if the final trimming removes nothing from the text of any of the files: after a
    completed in-place run the same run writes nothing, and [--check] exits with 0. *)
Theorem C62_second_run_partial : forall lim fs glob stdin r files es n,
  work_list fs glob (ra_paths r) files -> files <> [] -> NoDup files ->
  ra_output_directory r = None -> ra_output_files r = [] -> ra_check r = false ->
  valid_invocation fs r files ->
  main lim fs glob stdin r = (es, Exit n) ->
  (forall p text, In p files -> read_text fs p = Ok text ->
     exists body, reformat_pass lim text (effective_line_length (ra_line_length r))
                  = Ok (body ++ [c_nl]) /\ no_trailing_space body) ->
  let fs' := apply_effects fs es in
  (exists es', main lim fs' glob stdin (checking r) = (es', Exit 0))
  /\ (exists es', main lim fs' glob stdin r = (es', Exit 0) /\ Forall is_print es').
Proof.
  intros lim fs glob stdin r files es n Hwl Hne Hnd Hd Ho Hc V H Hb fs'.
  apply (C62_second_run_exactly lim fs glob stdin r files es n Hwl Hne Hnd Hd Ho Hc V H).
  intros p old new Hp [Hr Hm]. destruct (Hb p old Hp Hr) as (body & Hpass & Hbody).
  apply (C03_idempotence_partial lim old _ body Hpass Hbody new Hm).
Qed.

Example C62_nonvacuous :
  let r := ex_args [[lit "a.md"]; [lit "b.md"]] in
  let fs' := apply_effects ex_fs (fst (main 9 ex_fs no_glob None r)) in
  snd (main 9 ex_fs no_glob None (checking r)) = Exit 1
  /\ snd (main 9 fs' no_glob None (checking r)) = Exit 0
  /\ reformat_pass 9 (lit "#   A" ++ [c_nl]) (WInt 88) = Ok (lit "# A" ++ [c_nl])
  /\ no_trailing_space (lit "# A").
Proof.
  repeat (split; [vm_compute; reflexivity|]). right. exists (lit "# "), 65%N. split; reflexivity.
Qed.

(** * C63: --check tells what the run does *)

(** A run without [--check] and one with it complete for the same files. If they do, and
    [l] are the files that formatting changes, then the one rewrites exactly those files,
    in order, and the other reports exactly those files, in order, and exits with status 1
    if there is any. *)
Theorem C63_check_agrees : forall lim fs glob stdin r files,
  work_list fs glob (ra_paths r) files -> files <> [] -> NoDup files ->
  ra_output_directory r = None -> ra_output_files r = [] -> ra_check r = false ->
  valid_invocation fs r files ->
  let w := effective_line_length (ra_line_length r) in
  ((exists es n, main lim fs glob stdin r = (es, Exit n))
   <-> exists es n, main lim fs glob stdin (checking r) = (es, Exit n))
  /\ forall es n, main lim fs glob stdin r = (es, Exit n) ->
     exists l msg msg',
       changes lim fs w files l
       /\ n = 0%Z
       /\ es = flat_map rewrite_effects l ++ [Out (lit "All done!"); Out msg]
       /\ main lim fs glob stdin (checking r)
          = (map (fun c => Out (lit "would reformat " ++ printed (fst c))) l
             ++ [Out (lit "All done!"); Out msg'],
             Exit (match l with [] => 0 | _ => 1 end)).
Proof.
  intros lim fs glob stdin r files Hwl Hne Hnd Hd Ho Hc V w.
  assert (V' : valid_invocation fs (checking r) files) by (apply valid_checking; exact V).
  assert (R : forall l, changes lim fs w files l -> _)
    by (intros l; exact (main_changes lim fs glob stdin r files Hwl Hne Hd Ho V (or_introl Hnd) l)).
  assert (R' : forall l, changes lim fs w files l -> _)
    by (intros l; exact (main_changes lim fs glob stdin (checking r) files Hwl Hne Hd Ho V'
                           (or_introl Hnd) l)).
  assert (C : forall es n, main lim fs glob stdin r = (es, Exit n) ->
                           exists l, changes lim fs w files l)
    by exact (main_completes lim fs glob stdin r files Hwl Hne Hd Ho V (or_introl Hnd)).
  assert (C' : forall es n, main lim fs glob stdin (checking r) = (es, Exit n) ->
                            exists l, changes lim fs w files l)
    by exact (main_completes lim fs glob stdin (checking r) files Hwl Hne Hd Ho V' (or_introl Hnd)).
  split; [split; intros (es & n & H)|].
  - destruct (C es n H) as (l & Hl). rewrite (R' l Hl). eauto.
  - destruct (C' es n H) as (l & Hl). rewrite (R l Hl). eauto.
  - intros es n H. destruct (C es n H) as (l & Hl). rewrite (R l Hl) in H. rewrite (R' l Hl).
    unfold script in *. cbn [check checking ra_check] in *. rewrite Hc in H. cbn [andb] in H. inv H.
    exists l. do 2 eexists. split; [exact Hl|]. split; [reflexivity|]. split; [reflexivity|].
    destruct l; reflexivity.
Qed.

(** What is in the list. *)
Theorem C63_changes_spec : forall lim fs w files l,
  changes lim fs w files l ->
  (forall p, In p files -> exists old new, formats_to lim fs w p old new)
  /\ (forall p new, In (p, new) l <->
        In p files /\ exists old, formats_to lim fs w p old new /\ new <> old).
Proof.
  intros lim fs w files l H. split; [eapply changes_formats; exact H|].
  intros p new. split; [apply changes_in; exact H|]. intros [Hp (old & Hf & Hn)].
  induction H as [|q ps l text Hq _ IH|q ps l old' new' Hq _ _ IH]; [destruct Hp| |].
  - destruct Hp as [->|Hp]; [|auto]. destruct Hf as [F1 F2], Hq as [Q1 Q2].
    destruct Hn. congruence.
  - destruct Hp as [->|Hp]; [left|right; auto]. destruct Hf as [F1 F2], Hq as [Q1 Q2].
    f_equal. congruence.
Qed.

Example C63_nonvacuous :
  let r := ex_args [[lit "a.md"]; [lit "b.md"]; [lit "twice.md"]] in
  main 9 ex_fs no_glob None (checking r)
  = ([Out (lit "would reformat a.md"); Out (lit "would reformat twice.md");
      Out (lit "All done!");
      Out (lit "**2 files would be reformatted.** 1 file would be left unchanged.")], Exit 1)
  /\ main 9 ex_fs no_glob None r
     = (rewrite_effects ([lit "a.md"], lit "# A" ++ [c_nl])
        ++ rewrite_effects ([lit "twice.md"], lit "a b" ++ [c_nl])
        ++ [Out (lit "All done!");
            Out (lit "**2 files were reformatted.** 1 file was left unchanged.")], Exit 0).
Proof. split; vm_compute; reflexivity. Qed.

(** * C64: the exit status of the process *)

(** A table whose rows have different lengths stops the formatting with this error. *)
Definition ragged_table_error (e : exn) : Prop :=
  exists a b c, exn_base e = MarkdownFormatException a b c.

Lemma quiet_status : forall lim fs glob stdin r files,
  work_list fs glob (ra_paths r) files -> files <> [] ->
  NoDup files \/ ra_check r = true ->
  ra_output_directory r = None -> ra_output_files r = [] -> ra_write_renders r = false ->
  valid_invocation fs r files ->
  let w := effective_line_length (ra_line_length r) in
  let status := exit_status (snd (main lim fs glob stdin r)) in
  (status = 0 \/ status = 1 \/ status = 255)%Z
  /\ (status = 0%Z <->
      exists l, changes lim fs w files l /\ (ra_check r = true -> l = []))
  /\ (status = 255%Z <->
      exists before p after l text e,
        files = before ++ p :: after /\ changes lim fs w before l
        /\ read_text fs p = Ok text
        /\ reformat_markdown_text lim text w = Err e /\ ragged_table_error e).
Proof.
  intros lim fs glob stdin r files Hwl Hne Hnd Hd Ho Hw V w status.
  pose proof (main_changes lim fs glob stdin r files Hwl Hne Hd Ho V Hnd) as MC.
  pose proof (main_completes lim fs glob stdin r files Hwl Hne Hd Ho V Hnd) as MK.
  pose proof (main_raises lim fs glob stdin r files Hwl Hne Hd Ho V Hnd) as MR.
  pose proof (main_fails lim fs glob stdin r files Hwl Hne Hd Ho V Hnd) as MF.
  fold w in MC, MK, MR. unfold status.
  destruct (main lim fs glob stdin r) as [es [n|e f]] eqn:E; cbn [snd exit_status].
  - destruct (MK es n eq_refl) as (l & Hl). specialize (MC l Hl). inv MC.
    assert (NR : forall before p after l0 text e,
               files = before ++ p :: after -> changes lim fs w before l0 ->
               read_text fs p = Ok text -> reformat_markdown_text lim text w = Err e -> False).
    { intros b p af l0 text e Ef Hb Hr He.
      destruct (MF b p af l0 e Hw Ef Hb) as (es & f & H); [right; eauto|]. congruence. }
    split; [|split].
    + destruct (ra_check r && negb (length l =? 0)); auto.
    + split.
      * intros H. exists l. split; [exact Hl|]. intros Hc. rewrite Hc in H.
        destruct l; [reflexivity|discriminate].
      * intros (l' & Hl' & H). assert (El : ra_check r = true -> l = []).
        { intros Hc. specialize (H Hc). subst l'. destruct l as [|[p new] l]; [reflexivity|].
          apply C63_changes_spec in Hl, Hl'. destruct Hl as [_ Hl], Hl' as [_ Hl'].
          destruct (Hl' p new) as [_ G]. destruct G. apply Hl. left. reflexivity. }
        destruct (ra_check r); [|reflexivity]. rewrite El by reflexivity. reflexivity.
    + split; [destruct (ra_check r && negb (length l =? 0)); discriminate|].
      intros (b & p & af & l0 & text & e & Ef & Hb & Hr & He & _). exfalso. eauto.
  - assert (NC : forall l, ~ changes lim fs w files l).
    { intros l Hl. specialize (MC l Hl). discriminate. }
    destruct (MR es e f Hw eq_refl) as (b & p & af & l & Ef & Hb & Hf).
    split; [destruct (exn_base e); auto|]. split.
    + split; [destruct (exn_base e); discriminate|]. intros (l0 & H & _). destruct (NC l0 H).
    + split.
      * intros H. assert (Rg : ragged_table_error e).
        { destruct (exn_base e) as [| | | | |x y z| | | |] eqn:Eb; try discriminate. exists x, y, z. exact Eb. }
        destruct Hf as [Hf|(text & Hr & He)].
        -- unfold read_text in Hf. destruct (fs p) as [[c [|] w0|w0]|]; inv Hf;
             destruct Rg as (? & ? & ? & Rg); discriminate.
        -- exists b, p, af, l, text, e. auto 10.
      * intros (b' & p' & af' & l' & text & e' & Ef' & Hb' & Hr & He & Rg).
        destruct (MF b' p' af' l' e' Hw Ef' Hb') as (es' & f' & H); [right; eauto|].
        inv H. destruct Rg as (x & y & z & ->). reflexivity.
Qed.

(** Writing the renders fails only with errors of the operating system. *)
Lemma renders_error lim fs i o w text e es e' :
  read_text fs i = Ok text -> reformat_markdown_text lim text w = Err e -> inconsistent e ->
  do_write_renders lim fs i o w = (es, Some e') -> e' = OSError.
Proof.
  intros Hr He Hi H. destruct (inconsistent_passes _ _ _ _ He Hi) as (c1 & c2 & H1 & H2 & _).
  unfold do_write_renders in H. destruct (render_names _) as [n1 n2]. rewrite Hr in H. cbn [bind] in H.
  rewrite H1 in H. cbn [bind] in H.
  destruct (write_text fs _ c1) as [es1|e1] eqn:W1; cbn [bind] in H.
  - rewrite H2 in H. cbn [bind] in H. destruct (write_text _ _ c2) as [es2|e2] eqn:W2; [discriminate|].
    injection H as _ <-. apply write_text_err in W2. apply W2.
  - injection H as _ <-. apply write_text_err in W1. apply W1.
Qed.

Lemma status_base e e' f f' : (exn_base e = exn_base e' \/ (inconsistent e' /\ e = OSError)) ->
  exit_status (Raised e f) = exit_status (Raised e' f').
Proof. unfold inconsistent. intros [E|[E ->]]; cbn [exit_status]; rewrite E; reflexivity. Qed.

Section Renders.
  Variables (lim : nat) (w : width) (files : list path) (c : bool) (d : option path) (os : list path).
  Let a b := CliArgs w files c d os b.

  Definition like {A} (x y : A + exn * option path) : Prop :=
    match x, y with
    | inl m, inl n => m = n
    | inr (e, _), inr (e', _) => exn_base e = exn_base e' \/ (inconsistent e' /\ e = OSError)
    | _, _ => False
    end.

  Lemma file_renders fs i o :
    reformat_file lim (a true) fs i o = reformat_file lim (a false) fs i o
    \/ (like (snd (reformat_file lim (a true) fs i o)) (snd (reformat_file lim (a false) fs i o))
        /\ exists err, snd (reformat_file lim (a false) fs i o) = inr err).
  Proof.
    unfold reformat_file. cbn [line_length check write_renders a].
    destruct (read_text fs i) as [text|e] eqn:Er; [|left; reflexivity].
    destruct (reformat_markdown_text lim text w) as [new|e] eqn:Em; [left; reflexivity|].
    destruct (is_runtime_error e) eqn:Et; [|left; reflexivity]. cbn [andb].
    destruct (is_inconsistent e) eqn:Ei; [|left; reflexivity]. apply inconsistent_bool in Ei. right.
    destruct (do_write_renders lim fs i o w) as [es [e'|]] eqn:Ed; cbn [snd like]; (split; [|eauto]).
    - right. split; [exact Ei|]. eapply renders_error; eassumption.
    - left. reflexivity.
  Qed.

  Lemma loop_renders pairs : forall fs,
    like (snd (files_loop lim (a true) fs pairs)) (snd (files_loop lim (a false) fs pairs)).
  Proof.
    induction pairs as [|[i o] pairs IH]; intros fs; [reflexivity|]. cbn [files_loop].
    destruct (file_renders fs i o) as [E|[E (err & E')]].
    - rewrite E. destruct (reformat_file lim (a false) fs i o) as [es [ch|[e f]]]; [|left; reflexivity].
      specialize (IH (apply_effects fs es)).
      destruct (files_loop lim (a true) (apply_effects fs es) pairs) as [es1 [[n m]|[e f]]],
        (files_loop lim (a false) (apply_effects fs es) pairs) as [es2 [[n' m']|[e' f']]];
        cbn [snd like] in *; try contradiction; [|exact IH]. injection IH as -> ->. reflexivity.
    - destruct (reformat_file lim (a true) fs i o) as [es [ch|[e f]]],
        (reformat_file lim (a false) fs i o) as [es' [ch'|[e' f']]]; cbn [snd like] in *;
        try discriminate; [contradiction|exact E].
  Qed.

  Lemma files_renders fs :
    exit_status (snd (reformat_files lim (a true) fs)) = exit_status (snd (reformat_files lim (a false) fs)).
  Proof.
    unfold reformat_files. change (output_paths (a true)) with (output_paths (a false)).
    change (paths (a true)) with (paths (a false)).
    assert (L := loop_renders (zip2 (paths (a false)) (output_paths (a false))) fs).
    destruct (files_loop lim (a true) fs _) as [es1 [[n m]|[e f]]],
      (files_loop lim (a false) fs _) as [es2 [[n' m']|[e' f']]]; cbn [snd like] in *; try contradiction.
    - injection L as -> ->. reflexivity.
    - apply status_base, L.
  Qed.

  Lemma stdin_renders input :
    exit_status (snd (reformat_stdin lim (a true) input)) = exit_status (snd (reformat_stdin lim (a false) input)).
  Proof.
    unfold reformat_stdin. cbn [line_length check write_renders a].
    destruct (reformat_markdown_text lim input w) as [new|e] eqn:Em; [reflexivity|].
    cbn [andb]. rewrite andb_false_r. destruct (is_runtime_error e && is_inconsistent e) eqn:Ei; [|reflexivity].
    apply andb_prop in Ei. destruct Ei as [_ Ei]. apply inconsistent_bool in Ei.
    destruct (inconsistent_passes _ _ _ _ Em Ei) as (c1 & c2 & -> & -> & _). reflexivity.
  Qed.
End Renders.

(** Asking for the renders never changes the status, even if they cannot be written. *)
Theorem C64_renders : forall lim fs glob stdin r,
  exit_status (snd (main lim fs glob stdin r))
  = exit_status (snd (main lim fs glob stdin (without_renders r))).
Proof.
  intros lim fs glob stdin r. destruct r as [n ps c v q h d os [|]]; [|reflexivity].
  unfold main, without_renders, parse_args.
  cbn [ra_paths ra_output_directory ra_output_files ra_developer_help ra_check ra_line_length ra_write_renders].
  destruct (negb (forallb _ ps)); [reflexivity|].
  destruct (match d with Some _ => _ | None => _ end); [reflexivity|].
  destruct (negb (forallb (file_ok fs) os)); [reflexivity|].
  destruct h; [reflexivity|]. destruct (negb (nilb os) && _); [reflexivity|].
  cbn zeta. destruct (nilb os && _ && _ && _); [reflexivity|]. cbn [paths].
  destruct (nilb (expand_paths fs glob ps)).
  - destruct stdin as [input|]; [|reflexivity]. apply stdin_renders.
  - apply files_renders.
Qed.

(** In-place runs and checks of valid invocations: the status is 0, 1 or 255; it is 0
    exactly if all files are formatted and [--check] finds no change; it is 255 exactly if
    the first file that fails has a table with rows of different lengths. *)
Theorem C64_exit_status : forall lim fs glob stdin r files,
  work_list fs glob (ra_paths r) files -> files <> [] ->
  NoDup files \/ ra_check r = true ->
  ra_output_directory r = None -> ra_output_files r = [] ->
  valid_invocation fs r files ->
  let w := effective_line_length (ra_line_length r) in
  let status := exit_status (snd (main lim fs glob stdin r)) in
  (status = 0 \/ status = 1 \/ status = 255)%Z
  /\ (status = 0%Z <->
      exists l, changes lim fs w files l /\ (ra_check r = true -> l = []))
  /\ (status = 255%Z <->
      exists before p after l text e,
        files = before ++ p :: after /\ changes lim fs w before l
        /\ read_text fs p = Ok text
        /\ reformat_markdown_text lim text w = Err e /\ ragged_table_error e).
Proof.
  intros lim fs glob stdin r files H1 H2 H3 H4 H5 V w status. unfold status. rewrite C64_renders.
  apply (quiet_status lim fs glob stdin (without_renders r) files); auto.
  destruct V as [V1 V2 V3 V4 V5 V6 V7]. constructor; assumption.
Qed.

(** Runs with separate outputs, which are different files, none of them an input, and can be
    written. *)
Lemma quiet_separate : forall lim fs glob stdin r a,
  parse_args fs glob r = Accepted a -> paths a <> [] ->
  (ra_output_directory r <> None \/ ra_output_files r <> []) -> ra_check r = false ->
  ra_write_renders r = false ->
  NoDup (output_paths a) -> (forall p, In p (output_paths a) -> ~ In p (paths a)) ->
  (forall p, In p (output_paths a) -> can_hold_text fs p) ->
  let w := effective_line_length (ra_line_length r) in
  let formatted p := exists old new, formats_to lim fs w p old new in
  let status := exit_status (snd (main lim fs glob stdin r)) in
  (status = 0 \/ status = 1 \/ status = 255)%Z
  /\ (status = 0%Z <-> forall p, In p (paths a) -> formatted p)
  /\ (status = 255%Z <->
      exists before p after text e,
        paths a = before ++ p :: after /\ (forall q, In q before -> formatted q)
        /\ read_text fs p = Ok text
        /\ reformat_markdown_text lim text w = Err e /\ ragged_table_error e).
Proof.
  intros lim fs glob stdin r a Ha Hp Hsep Hc Hw Hnd Hdis Hcan w formatted status.
  assert (CC := C46_separate_completes lim fs glob stdin r a Ha Hp Hsep Hc Hw Hnd Hdis Hcan).
  destruct (parse_args_accepted _ _ _ _ Ha) as (Ew & _ & Ec & _). rewrite Ew in CC. fold w in Ew, CC.
  assert (NF : forall p e, In p (paths a) -> (forall p, In p (paths a) -> formatted p) ->
     forall text, read_text fs p = Ok text -> reformat_markdown_text lim text w = Err e -> False).
  { intros p e Hin Hall text Hr He. destruct (Hall p Hin) as (old & new & Hr' & Hm). congruence. }
  unfold status. destruct (main lim fs glob stdin r) as [es [n|e f]] eqn:E; cbn [snd exit_status].
  - assert (n = 0%Z).
    { rewrite (main_files lim fs glob stdin r a Ha Hp) in E. apply reformat_files_exit in E.
      destruct E as (es0 & ch & un & _ & _ & -> & _). rewrite Ec, Hc. reflexivity. }
    subst n. assert (Hall : forall p, In p (paths a) -> formatted p) by (apply CC; eauto).
    split; [auto|]. split; [tauto|]. split; [discriminate|].
    intros (b & p & af & text & e & Ep & _ & Hr & He & _). exfalso. eapply NF; eauto. rewrite Ep. apply in_app_iff. right. left. reflexivity.
  - assert (NA : ~ forall p, In p (paths a) -> formatted p).
    { intros Hall. destruct (proj2 CC Hall) as (es' & n & H). discriminate. }
    split; [destruct (exn_base e); auto|]. split.
    { split; [destruct (exn_base e); discriminate|]. intros H. destruct (NA H). }
    destruct (C44_failing_file_separate lim fs glob stdin r a es e f Ha Hp Hsep Hc Hw Hnd Hdis E)
      as (before & p & after & outs & o & later & Ep & Eo & Hb & Hk & Hcase). rewrite Ew in Hb, Hcase.
    assert (Hb' : forall q, In q before -> formatted q).
    { clear -Hb. induction Hb as [|i out before outs (old & new & H & _) Hb IH]; [intros q []|].
      intros q [<-|Hq]; [exists old, new; exact H|apply IH, Hq]. }
    split.
    + intros H. assert (Rg : ragged_table_error e).
      { destruct (exn_base e) as [| | | | |x y z| | | |] eqn:Eb; try discriminate. exists x, y, z. exact Eb. }
      destruct Hcase as [[Hf _]|[(text & Hr & He & _)|(_ & _ & _ & _ & -> & _)]].
      * unfold read_text in Hf. destruct (fs p) as [[c0 [|] w0|w0]|]; inv Hf; destruct Rg as (? & ? & ? & Rg); discriminate.
      * exists before, p, after, text, e. auto.
      * destruct Rg as (? & ? & ? & Rg). discriminate.
    + intros (b & p' & af & text & e' & Ep' & Hf' & Hr' & He' & Rg).
      assert (Same : before = b /\ p = p').
      { assert (F : ~ formatted p').
        { intros (old & new & H1 & H2). congruence. }
        assert (G : formatted p -> False).
        { intros (old & new & H1 & H2). destruct Hcase as [[Hf _]|[(t & Hr & He & _)|(_ & _ & _ & Hno & _)]]; [congruence|congruence|].
          apply NA. exfalso. apply Hno.
          assert (Ho : ~ In o outs) by (rewrite Eo in Hnd; apply NoDup_remove_2 in Hnd; rewrite in_app_iff in Hnd; tauto).
          destruct (Hcan o) as [(s & rd & Es)|[E1 E2]]; [rewrite Eo; apply in_app_iff; right; left; reflexivity|left|right].
          - exists s, rd. rewrite Hk by exact Ho. exact Es.
          - rewrite Hk by exact Ho. split; [exact E1|]. rewrite Hk; [exact E2|].
            intros Hin. destruct (Hcan (removelast o)) as [(s & rd & Es)|[Es _]];
              [rewrite Eo; apply in_app_iff; auto|congruence|congruence]. }
        rewrite Ep in Ep'. clear -Ep' Hb' Hf' F G. revert b Ep' Hf'.
        induction before as [|x before IH]; intros [|y b] Ep' Hf'; cbn [app] in Ep'.
        - injection Ep' as -> _. auto.
        - injection Ep' as -> _. destruct G. apply Hf'. left. reflexivity.
        - injection Ep' as -> _. destruct F. apply Hb'. left. reflexivity.
        - injection Ep' as -> Ep'. destruct (IH (fun q Hq => Hb' q (or_intror Hq)) b Ep' (fun q Hq => Hf' q (or_intror Hq))) as [-> ->].
          auto. }
      destruct Same as [-> ->]. destruct Hcase as [[Hf _]|[(t & Hr & He & _)|(old & new & [Hr Hm] & _)]]; [congruence| |congruence].
      assert (e = e') by congruence. subst e'. destruct Rg as (x & y & z & ->). reflexivity.
Qed.

Theorem C64_separate : forall lim fs glob stdin r a,
  parse_args fs glob r = Accepted a -> paths a <> [] ->
  (ra_output_directory r <> None \/ ra_output_files r <> []) -> ra_check r = false ->
  NoDup (output_paths a) -> (forall p, In p (output_paths a) -> ~ In p (paths a)) ->
  (forall p, In p (output_paths a) -> can_hold_text fs p) ->
  let w := effective_line_length (ra_line_length r) in
  let formatted p := exists old new, formats_to lim fs w p old new in
  let status := exit_status (snd (main lim fs glob stdin r)) in
  (status = 0 \/ status = 1 \/ status = 255)%Z
  /\ (status = 0%Z <-> forall p, In p (paths a) -> formatted p)
  /\ (status = 255%Z <->
      exists before p after text e,
        paths a = before ++ p :: after /\ (forall q, In q before -> formatted q)
        /\ read_text fs p = Ok text
        /\ reformat_markdown_text lim text w = Err e /\ ragged_table_error e).
Proof.
  intros lim fs glob stdin r a Ha Hp Hsep Hc Hnd Hdis Hcan w formatted status. unfold status. rewrite C64_renders.
  set (a' := CliArgs (line_length a) (paths a) (check a) (output_directory a) (output_files a) false).
  assert (Ha' : parse_args fs glob (without_renders r) = Accepted a').
  { unfold parse_args in *. cbn [without_renders ra_paths ra_output_directory ra_output_files ra_developer_help ra_check ra_line_length ra_write_renders].
    destruct (negb (forallb _ (ra_paths r))); [discriminate|].
    destruct (match ra_output_directory r with Some _ => _ | None => _ end); [discriminate|].
    destruct (negb (forallb (file_ok fs) (ra_output_files r))); [discriminate|].
    destruct (ra_developer_help r); [discriminate|]. cbn zeta in *. destruct (negb (nilb (ra_output_files r)) && _); [discriminate|].
    destruct (nilb (ra_output_files r) && _ && _ && _); [discriminate|]. injection Ha as <-. reflexivity. }
  exact (quiet_separate lim fs glob stdin (without_renders r) a' Ha' Hp Hsep Hc eq_refl Hnd Hdis Hcan).
Qed.

(** A file with such a table next to one that is fine. *)
Definition table_fs : fsys := fun p =>
  if path_eqb p [lit "t.md"] then
    Some (NFile (str_join [c_nl] [lit "|a|"; lit "|-|"; lit "|b|c|"]) true true)
  else ex_fs p.

Example C64_nonvacuous :
  exit_status (snd (main 9 table_fs no_glob None (ex_args [[lit "a.md"]; [lit "t.md"]]))) = 255%Z
  /\ exit_status (snd (main 9 table_fs no_glob None (ex_args [[lit "a.md"]; [lit "bad.md"]; [lit "t.md"]]))) = 1%Z
  /\ exit_status (snd (main 9 table_fs no_glob None (ex_args [[lit "a.md"]; [lit "b.md"]]))) = 0%Z.
Proof. repeat split; vm_compute; reflexivity. Qed.

(** The renders of a file whose outputs differ cannot be written into a directory that is not
    there. *)
Example C64_renders_nonvacuous :
  let r b out := RawArgs 88 [[lit "incons.md"]] false 0 0 false None [out] b in
  let fs p := if path_eqb p [lit "x"; lit "o.md"] then Some (NFile [] true true) else ex_fs p in
  snd (main 9 fs no_glob None (r true [lit "x"; lit "o.md"])) = Raised OSError None
  /\ snd (main 9 fs no_glob None (r false [lit "x"; lit "o.md"])) = Raised ReformatInconsistentException (Some [lit "incons.md"])
  /\ without_renders (r true [lit "x"; lit "o.md"]) = r false [lit "x"; lit "o.md"].
Proof. repeat split; vm_compute; reflexivity. Qed.

Example C64_separate_nonvacuous :
  let r ps := RawArgs 88 ps false 0 0 false (Some [lit "out"]) [] true in
  exit_status (snd (main 9 table_fs no_glob None (r [[lit "a.md"]; [lit "t.md"]]))) = 255%Z
  /\ exit_status (snd (main 9 table_fs no_glob None (r [[lit "a.md"]; [lit "incons.md"]; [lit "t.md"]]))) = 1%Z
  /\ exit_status (snd (main 9 table_fs no_glob None (r [[lit "a.md"]; [lit "b.md"]]))) = 0%Z
  /\ (forall p, In p [[lit "out"; lit "a.md"]; [lit "out"; lit "b.md"]] -> can_hold_text table_fs p)
  /\ exists a, parse_args table_fs no_glob (r [[lit "a.md"]; [lit "b.md"]]) = Accepted a
       /\ output_paths a = [[lit "out"; lit "a.md"]; [lit "out"; lit "b.md"]].
Proof.
  repeat split; try (vm_compute; reflexivity).
  - intros p [<-|[<-|[]]]; right; split; vm_compute; reflexivity.
  - eexists. split; vm_compute; reflexivity.
Qed.
