(** Properties C41-C49, C51, C54-C57: the command line tool.

    [main lim fs glob_md stdin r] is a run of the tool: its effects in order and how it
    ends. [apply_effects fs es] is the file system afterwards. *)
From Coq Require Import String.
From Verif Require Import Py Regex Utils TextWrap Lines Detectors Formatters Logging Cli.
From Verif Require Import Base SpecCli ProofsCli.
From Verif Require SpecList PropsList.

(** * A file system for the examples *)
Section Example.
  Let file s := Some (NFile (lit s) true true).
  Let nl := String (Ascii.ascii_of_nat 10) EmptyString.

  Definition ex_fs : fsys := fun p =>
    if path_eqb p [] then Some (NDir true)
    else if path_eqb p [lit "a.md"] then file ("#   A" ++ nl)%string
    else if path_eqb p [lit "b.md"] then file ("# B" ++ nl)%string
    else if path_eqb p [lit "bad.md"] then file (".gitignore" ++ nl)%string
    else if path_eqb p [lit "twice.md"] then file ("a  b" ++ nl)%string
    else if path_eqb p [lit "ref.md"] then file ("[aaaa]: /bbbb" ++ nl ++ nl)%string
    else if path_eqb p [lit "incons.md"] then file ("> foo  " ++ nl ++ "> bar" ++ nl)%string
    else if path_eqb p [lit "out"] then Some (NDir true)
    else if path_eqb p [lit "d1"] then Some (NDir true)
    else if path_eqb p [lit "d1"; lit "x.md"] then file ("# X" ++ nl)%string
    else if path_eqb p [lit "d2"] then Some (NDir true)
    else if path_eqb p [lit "d2"; lit "x.md"] then file ("# Y" ++ nl)%string
    else None.

  Definition no_glob : path -> list path := fun _ => [].
  Definition ex_args (ps : list path) : raw_args :=
    RawArgs 88 ps false 0 0 false None [] false.
  Definition ex_check (ps : list path) : raw_args :=
    RawArgs 88 ps true 0 0 false None [] false.
End Example.

(** * C41: --check modifies nothing *)

(** False in general: with separate outputs, files that need no change are copied, and
    --write-renders writes its two files. *)
Theorem C41_check_modifies_nothing_refuted :
  exists fs glob stdin r lim p,
    ra_check r = true
    /\ apply_effects fs (fst (main lim fs glob stdin r)) p <> fs p.
Proof.
  exists ex_fs, no_glob, None,
    (RawArgs 88 [[lit "b.md"]] true 0 0 false None [[lit "new.md"]] false),
    9, [lit "new.md"].
  split; [reflexivity|]. vm_compute. discriminate.
Qed.

Theorem C41_check_renders_refuted :
  exists fs glob stdin r lim p,
    ra_check r = true /\ ra_output_files r = [] /\ ra_output_directory r = None
    /\ apply_effects fs (fst (main lim fs glob stdin r)) p <> fs p.
Proof.
  exists ex_fs, no_glob, None,
    (RawArgs 88 [[lit "incons.md"]] true 0 0 false None [] true), 9,
    [lit "incons.1.md"].
  repeat (split; [reflexivity|]). vm_compute. discriminate.
Qed.

(** True without those options, whether or not the run completes. *)
Theorem C41_check_modifies_nothing_partial : forall lim fs glob stdin r es o,
  ra_check r = true -> ra_output_directory r = None -> ra_output_files r = [] ->
  ra_write_renders r = false ->
  main lim fs glob stdin r = (es, o) ->
  Forall is_print es /\ forall p, apply_effects fs es p = fs p.
Proof.
  intros lim fs glob stdin r es o Hc Hd Ho Hw H.
  assert (G : Forall is_print es); [|split; [exact G|intros p; apply apply_effects_prints, G]].
  unfold main in H. destruct (parse_args fs glob r) as [a|s] eqn:Ea; [|inv H; constructor].
  destruct (parse_args_accepted _ _ _ _ Ea) as (_ & _ & Ec & Ed & Eo & Ew & _).
  destruct (nilb (paths a)).
  - destruct stdin as [text|]; [|inv H; repeat constructor].
    generalize dependent (universal_newlines text). clear text. intros text H. unfold reformat_stdin in H.
    destruct (reformat_markdown_text lim text (line_length a)) as [new|e].
    + rewrite Ec, Hc in H. destruct (negb (str_eqb new text)); inv H; repeat constructor.
    + rewrite Ew, Hw in H. rewrite andb_false_r in H. inv H. constructor.
  - assert (Hin : in_place a) by (split; congruence).
    destruct o as [n|e f].
    + apply reformat_files_exit in H.
      destruct H as (es0 & ch & un & Hl & -> & _ & _).
      rewrite (output_paths_in_place _ Hin), zip2_twice in Hl.
      apply Forall_app. split; [|repeat constructor].
      eapply files_loop_check_prints; eauto; congruence.
    + apply reformat_files_raised in H.
      rewrite (output_paths_in_place _ Hin), zip2_twice in H.
      eapply files_loop_check_prints; eauto; congruence.
Qed.

Example C41_nonvacuous :
  exists es, main 9 ex_fs no_glob None (ex_check [[lit "a.md"]; [lit "b.md"]])
             = (es, Exit 1) /\ length es = 3.
Proof. eexists. split; vm_compute; reflexivity. Qed.

(** * C42: exit status *)

Theorem C42_exit_status : forall lim fs glob stdin r a es n,
  parse_args fs glob r = Accepted a -> paths a <> [] ->
  ra_output_directory r = None -> ra_output_files r = [] ->
  main lim fs glob stdin r = (es, Exit n) ->
  if ra_check r then
    (n = 1%Z <-> exists p old new, In p (paths a)
                  /\ formats_to lim fs (line_length a) p old new /\ new <> old)
    /\ (n = 0%Z <-> forall p, In p (paths a) -> exists old,
                      formats_to lim fs (line_length a) p old old)
  else n = 0%Z.
Proof.
  intros lim fs glob stdin r a es n Ha Hp Hd Ho H.
  destruct (parse_args_accepted _ _ _ _ Ha) as (_ & _ & Ec & Ed & Eo & _).
  rewrite (main_files lim fs glob stdin r a Ha Hp) in H.
  apply reformat_files_exit in H. destruct H as (es0 & ch & un & Hl & _ & Hn & _).
  rewrite (output_paths_in_place a) in Hl by (split; congruence). rewrite zip2_twice in Hl.
  rewrite <- Ec. destruct (check a) eqn:Ek; [|exact Hn].
  destruct (files_loop_check_count lim a (paths a) fs es0 ch un Ek Hl) as [Hcnt Hall].
  cbn [andb] in Hn. destruct (Nat.eqb_spec ch 0) as [E|E]; cbn [negb] in Hn; subst n.
  - assert (G : ~ exists p old new, In p (paths a)
                  /\ formats_to lim fs (line_length a) p old new /\ new <> old).
    { intros G. apply Hcnt in G. congruence. }
    split; [split; [discriminate|tauto]|]. split; [|reflexivity].
    intros _ p Hin. destruct (Hall p Hin) as (old & new & Hf). exists old.
    destruct (str_eqb new old) eqn:En; [apply str_eqb_eq in En; subst; exact Hf|].
    exfalso. apply G. exists p, old, new. apply str_eqb_neq in En. auto.
  - apply Hcnt in E. split; [tauto|]. split; [discriminate|].
    destruct E as (p & old & new & Hin & [Hr Hm] & Hne). intros G. exfalso.
    destruct (G p Hin) as (old' & Hr' & Hm'). rewrite Hr in Hr'. inv Hr'.
    rewrite Hm in Hm'. inv Hm'. congruence.
Qed.

Example C42_nonvacuous_changed :
  snd (main 9 ex_fs no_glob None (ex_check [[lit "a.md"]; [lit "b.md"]])) = Exit 1.
Proof. vm_compute. reflexivity. Qed.
Example C42_nonvacuous_unchanged :
  snd (main 9 ex_fs no_glob None (ex_check [[lit "b.md"]])) = Exit 0.
Proof. vm_compute. reflexivity. Qed.

(** The status alone does not tell "would change" from "crashed". *)
Theorem C42_status_one_also_means_crash :
  exists fs r, snd (main 9 fs no_glob None r) = Raised IndexError None
    /\ exit_status (snd (main 9 fs no_glob None r)) = 1%Z /\ ra_check r = true.
Proof.
  exists ex_fs, (ex_check [[lit "bad.md"]]). split; [vm_compute; reflexivity|].
  split; vm_compute; reflexivity.
Qed.

(** * C43: in-place runs *)

Theorem C43_in_place_run : forall lim fs glob stdin r a es n,
  parse_args fs glob r = Accepted a -> paths a <> [] -> NoDup (paths a) ->
  ra_output_directory r = None -> ra_output_files r = [] -> ra_check r = false ->
  main lim fs glob stdin r = (es, Exit n) ->
  let fs' := apply_effects fs es in
  (forall p, In p (paths a) ->
     exists old new, formats_to lim fs (line_length a) p old new
       /\ (new <> old -> holds fs' p new)
       /\ (new = old -> fs' p = fs p /\ forall e, In e es -> ~ touches p e))
  /\ (forall q, ~ In q (paths a) -> fs' q = fs q).
Proof.
  intros lim fs glob stdin r a es n Ha Hp Hnd Hd Ho Hc H fs'.
  destruct (parse_args_accepted _ _ _ _ Ha) as (_ & _ & Ec & Ed & Eo & _).
  rewrite (main_files lim fs glob stdin r a Ha Hp) in H.
  apply reformat_files_exit in H. destruct H as (es0 & ch & un & Hl & Hes & _ & Hq).
  rewrite (output_paths_in_place a) in Hl by (split; congruence). rewrite zip2_twice in Hl.
  assert (Hchk : check a = false) by congruence.
  destruct (files_loop_ok lim a _ _ _ _ _ Hl (fresh_twice _ Hnd)) as (Hin & Hout & _).
  rewrite map_snd_twice in Hout. subst fs'. split.
  - intros p Hi. destruct (Hin p p) as (old & new & Hf & Hd'); [apply in_twice; auto|].
    exists old, new. split; [exact Hf|]. unfold holds. rewrite Hq. rewrite path_eqb_refl, Hchk in Hd'.
    split; [intros Hne; apply str_eqb_neq in Hne; rewrite Hne in Hd'; exact Hd'|].
    intros ->. rewrite str_eqb_refl in Hd'. split; [exact Hd'|].
    (* no effect touches an unchanged file *)
    assert (G : forall ps fs es ch un, NoDup ps ->
      files_loop lim a fs (twice ps) = (es, inl (ch, un)) ->
      forall q, (In q ps -> exists t, formats_to lim fs (line_length a) q t t) ->
      forall e, In e es -> ~ touches q e).
    { clear - Hchk. intros ps fs es ch un Hn. revert fs es ch un.
      induction Hn as [|p ps Hp Hn IH]; intros fs es ch un Hl q Hq e He.
      - inv Hl. destruct He.
      - cbn [twice map files_loop] in Hl. fold (twice ps) in Hl.
        destruct (reformat_file lim a fs p p) as [es1 [changed|err]] eqn:E; [|discriminate].
        destruct (files_loop lim a (apply_effects fs es1) (twice ps)) as [es2 r2] eqn:E2.
        destruct r2 as [[n' m']|err]; [|discriminate].
        injection Hl as Hl Hnm. subst es.
        apply reformat_file_ok in E. destruct E as (old & new & [Hr Hm] & Hch & Hes & _ & Hoth).
        rewrite Hchk, path_eqb_refl in Hes.
        apply in_app_or in He. destruct He as [He|He].
        + destruct changed; [|subst es1; destruct He].
          assert (Hne : q <> p).
          { intros ->. destruct Hq as (t & Hr' & Hm'); [left; auto|].
            rewrite Hr in Hr'. inv Hr'. rewrite Hm in Hm'. inv Hm'.
            rewrite str_eqb_refl in Hch. discriminate. }
          subst es1. destruct He as [<-|[<-|[<-|[]]]]; cbn; congruence.
        + eapply (IH _ _ _ _ E2 q); eauto. intros Hin.
          destruct Hq as (t & Hr' & Hm'); [right; auto|]. exists t. split; [|exact Hm'].
          rewrite <- Hr'. apply read_text_eq. apply Hoth. intros ->. auto. }
    intros e He. rewrite Hes in He. apply in_app_or in He. destruct He as [He|He].
    + eapply (G _ _ _ _ _ Hnd Hl p); eauto.
    + destruct He as [<-|[<-|[]]]; cbn; tauto.
  - intros q Hnq. rewrite Hq. apply Hout. exact Hnq.
Qed.

Example C43_nonvacuous :
  exists es, main 9 ex_fs no_glob None (ex_args [[lit "a.md"]; [lit "b.md"]])
             = (es, Exit 0)
    /\ apply_effects ex_fs es [lit "a.md"]
       = Some (NFile (lit "# A" ++ [c_nl]) true true).
Proof. eexists. split; vm_compute; reflexivity. Qed.

(** * C44: failing files *)

Theorem C44_failing_file : forall lim fs glob stdin r a es e f,
  parse_args fs glob r = Accepted a -> paths a <> [] -> NoDup (paths a) ->
  ra_output_directory r = None -> ra_output_files r = [] -> ra_check r = false ->
  ra_write_renders r = false ->
  main lim fs glob stdin r = (es, Raised e f) ->
  let fs' := apply_effects fs es in
  exists before p after, paths a = before ++ p :: after
    /\ (forall q, In q before ->
          exists old new, formats_to lim fs (line_length a) q old new
            /\ (new <> old -> holds fs' q new) /\ (new = old -> fs' q = fs q))
    /\ (forall q, ~ In q before -> fs' q = fs q)
    /\ ((read_text fs p = Err e /\ f = None)
        \/ (exists old, read_text fs p = Ok old
            /\ reformat_markdown_text lim old (line_length a) = Err e
            /\ (runtime_error e -> f = Some p) /\ (~ runtime_error e -> f = None))
        \/ (exists old new, formats_to lim fs (line_length a) p old new
            /\ ~ can_hold_text fs' p /\ e = OSError /\ f = None)).
Proof.
  intros lim fs glob stdin r a es e f Ha Hp Hnd Hd Ho Hc Hw H fs'.
  destruct (parse_args_accepted _ _ _ _ Ha) as (_ & _ & Ec & Ed & Eo & Ew & _).
  rewrite (main_files lim fs glob stdin r a Ha Hp) in H.
  apply reformat_files_raised in H.
  rewrite (output_paths_in_place a) in H by (split; congruence). rewrite zip2_twice in H.
  apply files_loop_err in H.
  destruct H as (before & i & o & after & es0 & es1 & n & m & Hsp & Hl & Hf & ->).
  assert (Hsplit : exists b aft, before = twice b /\ i = o /\ paths a = b ++ o :: aft).
  { exists (map fst before), (map fst after).
    assert (E : map fst (twice (paths a)) = map fst (before ++ (i, o) :: after))
      by congruence.
    rewrite map_fst_twice, map_app in E. cbn in E.
    assert (Hall : forall x y, In (x, y) (before ++ (i, o) :: after) -> x = y).
    { intros x y Hin. rewrite <- Hsp in Hin. apply in_twice in Hin. tauto. }
    assert (Hio : i = o) by (apply Hall; apply in_or_app; right; left; auto).
    split; [|split; [exact Hio|congruence]].
    unfold twice. rewrite map_map. rewrite <- (map_id before) at 1.
    apply map_ext_in. intros [x y] Hin. cbn. f_equal. symmetry. apply Hall.
    apply in_or_app. left; exact Hin. }
  destruct Hsplit as (b & aft & -> & -> & Epaths).
  assert (Hnb : NoDup b) by (rewrite Epaths in Hnd; eapply NoDup_app_l; eauto).
  destruct (files_loop_ok lim a _ _ _ _ _ Hl (fresh_twice _ Hnb)) as (Hin & Hout & _).
  rewrite map_snd_twice in Hout.
  apply reformat_file_err in Hf; [|congruence]. destruct Hf as [-> Hcase].
  subst fs'. rewrite app_nil_r.
  assert (Hob : ~ In o b).
  { rewrite Epaths in Hnd. apply NoDup_remove_2 in Hnd. rewrite in_app_iff in Hnd. tauto. }
  assert (Hrd : read_text (apply_effects fs es0) o = read_text fs o)
    by (apply read_text_eq, Hout; exact Hob).
  exists b, o, aft. split; [exact Epaths|]. split.
  { intros q Hq. destruct (Hin q q) as (old & new & Hfm & Hdn); [apply in_twice; auto|].
    exists old, new. split; [exact Hfm|]. rewrite path_eqb_refl in Hdn.
    replace (check a) with false in Hdn by congruence.
    split; [intros Hne; apply str_eqb_neq in Hne; rewrite Hne in Hdn; exact Hdn|].
    intros ->. rewrite str_eqb_refl in Hdn. exact Hdn. }
  split; [exact Hout|]. unfold formats_to in *. rewrite Hrd in Hcase.
  exact Hcase.
Qed.

(** A file that cannot be formatted is never passed over silently. *)
Theorem C44_failure_not_ignored : forall lim fs glob stdin r a es n p old e,
  parse_args fs glob r = Accepted a -> NoDup (paths a) ->
  ra_output_directory r = None -> ra_output_files r = [] -> ra_check r = false ->
  In p (paths a) -> read_text fs p = Ok old ->
  reformat_markdown_text lim old (line_length a) = Err e ->
  main lim fs glob stdin r <> (es, Exit n).
Proof.
  intros lim fs glob stdin r a es n p old e Ha Hnd Hd Ho Hc Hin Hr He H.
  assert (Hp : paths a <> []) by (intros E; rewrite E in Hin; destruct Hin).
  destruct (C43_in_place_run lim fs glob stdin r a es n Ha Hp Hnd Hd Ho Hc H) as [G _].
  destruct (G p Hin) as (old' & new & [Hr' Hm] & _). congruence.
Qed.

(** "The error names the failing file" is false for exceptions that are not
    [RuntimeError]s. *)
Theorem C44_error_names_file_refuted :
  exists fs r p, ra_paths r = [p]
    /\ main 9 fs no_glob None r = ([], Raised IndexError None).
Proof.
  exists ex_fs, (ex_args [[lit "bad.md"]]), [lit "bad.md"].
  split; [reflexivity|vm_compute; reflexivity].
Qed.

Example C44_nonvacuous :
  exists es, main 9 ex_fs no_glob None
               (ex_args [[lit "a.md"]; [lit "incons.md"]; [lit "b.md"]])
             = (es, Raised ReformatInconsistentException (Some [lit "incons.md"]))
    /\ length es = 3.
Proof. eexists. split; vm_compute; reflexivity. Qed.

(** * C45: crash safety *)

Theorem C45_crash_safety_refuted :
  exists fs r p old new fs',
    formats_to 9 fs (WInt 88) p old new
    /\ crash_state fs (fst (main 9 fs no_glob None r)) fs'
    /\ ra_paths r = [p]
    /\ fs' p <> fs p /\ ~ holds fs' p new.
Proof.
  exists ex_fs, (ex_args [[lit "a.md"]]), [lit "a.md"].
  exists (lit "#   A" ++ [c_nl]), (lit "# A" ++ [c_nl]).
  exists (apply_effects ex_fs [Truncate [lit "a.md"]]).
  split; [split; vm_compute; reflexivity|]. split.
  - apply (crash_between _ _ [Truncate [lit "a.md"]]
             (tl (fst (main 9 ex_fs no_glob None (ex_args [[lit "a.md"]]))))).
    vm_compute. reflexivity.
  - split; [reflexivity|]. split; [vm_compute; discriminate|].
    intros (r & w & E). vm_compute in E. discriminate.
Qed.

(** At any crash point at most one file, one of the named ones, is neither in its old
    state nor complete, and it holds a prefix of its new text. *)
Theorem C45_crash_safety_partial : forall lim fs glob stdin r a es o fs',
  parse_args fs glob r = Accepted a -> paths a <> [] -> NoDup (paths a) ->
  ra_output_directory r = None -> ra_output_files r = [] ->
  ra_write_renders r = false ->
  main lim fs glob stdin r = (es, o) ->
  crash_state fs es fs' ->
  exists p,
    (forall q, q <> p ->
       fs' q = fs q
       \/ (In q (paths a) /\ exists old new,
             formats_to lim fs (line_length a) q old new /\ holds fs' q new))
    /\ (fs' p = fs p
        \/ (In p (paths a) /\ exists old new s1 s2,
              formats_to lim fs (line_length a) p old new
              /\ new = s1 ++ s2 /\ holds fs' p s1)).
Proof.
  intros lim fs glob stdin r a es o fs' Ha Hp Hnd Hd Ho Hw H Hc.
  destruct (parse_args_accepted _ _ _ _ Ha) as (_ & _ & Ec & Ed & Eo & Ew & _).
  rewrite (main_files lim fs glob stdin r a Ha Hp) in H.
  assert (Hwa : write_renders a = false) by congruence.
  destruct o as [n|e f].
  - apply reformat_files_exit in H. destruct H as (es0 & ch & un & Hl & -> & _ & _).
    rewrite (output_paths_in_place a) in Hl by (split; congruence).
    rewrite zip2_twice in Hl.
    apply crash_tail in Hc; [|repeat constructor]. destruct Hc as (fs'' & Hc & Heq).
    destruct (files_loop_crash lim a _ _ _ _ _ Hwa Hnd Hl Hc) as (p & G1 & G2).
    exists p. split.
    + intros q Hq. unfold holds. rewrite Heq. apply G1. exact Hq.
    + unfold holds. rewrite Heq. exact G2.
  - apply reformat_files_raised in H.
    rewrite (output_paths_in_place a) in H by (split; congruence).
    rewrite zip2_twice in H.
    exact (files_loop_crash lim a _ _ _ _ _ Hwa Hnd H Hc).
Qed.

(** * C46: separate outputs *)

Theorem C46_separate_outputs_refuted :
  exists fs r i1 i2 new1 es,
    ra_paths r = [i1; i2] /\ i1 <> i2 /\ ra_output_directory r = Some [lit "out"]
    /\ main 9 fs no_glob None r = (es, Exit 0)
    /\ formats_to 9 fs (WInt 88) i1 new1 new1
    /\ ~ holds (apply_effects fs es) [lit "out"; path_name i1] new1.
Proof.
  exists ex_fs,
    (RawArgs 88 [[lit "d1"; lit "x.md"]; [lit "d2"; lit "x.md"]] false 0 0 false
             (Some [lit "out"]) [] false),
    [lit "d1"; lit "x.md"], [lit "d2"; lit "x.md"], (lit "# X" ++ [c_nl]).
  eexists. split; [reflexivity|]. split; [discriminate|]. split; [reflexivity|].
  split; [vm_compute; reflexivity|]. split; [split; vm_compute; reflexivity|].
  intros (r & w & H). vm_compute in H. discriminate.
Qed.

Theorem C46_separate_outputs_partial : forall lim fs glob stdin r a es n,
  parse_args fs glob r = Accepted a -> paths a <> [] ->
  (ra_output_directory r <> None \/ ra_output_files r <> []) -> ra_check r = false ->
  (* the outputs are different files, none of them an input *)
  NoDup (output_paths a) -> (forall p, In p (output_paths a) -> ~ In p (paths a)) ->
  main lim fs glob stdin r = (es, Exit n) ->
  let fs' := apply_effects fs es in
  length (output_paths a) = length (paths a)
  /\ (forall k i o, nth_error (paths a) k = Some i -> nth_error (output_paths a) k = Some o ->
        fs' i = fs i
        /\ exists old new, formats_to lim fs (line_length a) i old new /\ holds fs' o new)
  /\ (forall q, ~ In q (output_paths a) -> fs' q = fs q).
Proof.
  intros lim fs glob stdin r a es n Ha Hp Hsep Hc Hnd Hdis H fs'.
  destruct (parse_args_accepted _ _ _ _ Ha) as (_ & _ & Ec & Ed & Eo & _ & Hlen & _).
  rewrite (main_files lim fs glob stdin r a Ha Hp) in H.
  apply reformat_files_exit in H. destruct H as (es0 & ch & un & Hl & Hes & _ & Hq).
  assert (Hln : length (output_paths a) = length (paths a)).
  { unfold output_paths. destruct (output_directory a); [apply map_length|].
    destruct (output_files a) as [|o os] eqn:Eof; [reflexivity|].
    cbn [nilb]. apply Hlen. discriminate. }
  assert (Hfr : fresh (zip2 (paths a) (output_paths a))).
  { apply fresh_disjoint; rewrite zip2_snd by lia; [exact Hnd|].
    rewrite zip2_fst by lia. exact Hdis. }
  destruct (files_loop_ok lim a _ _ _ _ _ Hl Hfr) as (Hin & Hout & _).
  rewrite zip2_snd in Hout by lia. subst fs'.
  split; [exact Hln|]. split; [|intros q Hnq; rewrite Hq; apply Hout; exact Hnq].
  intros k i o Hi Ho. split.
  { rewrite Hq. apply Hout. intros Hio. apply (Hdis i Hio). eapply nth_error_In; eauto. }
  assert (Hz : In (i, o) (zip2 (paths a) (output_paths a))).
  { clear - Hi Ho. revert k Hi Ho. generalize (output_paths a) as l2.
    induction (paths a) as [|x l1 IH]; intros [|y l2] [|k] Hi Ho; cbn in *;
      try discriminate.
    - inv Hi. inv Ho. left. reflexivity.
    - right. eapply IH; eauto. }
  destruct (Hin i o Hz) as (old & new & Hf & Hd'). exists old, new. split; [exact Hf|].
  unfold holds in *. rewrite Hq. replace (check a) with false in Hd' by congruence.
  destruct (negb (str_eqb new old)); [exact Hd'|].
  destruct (path_eqb o i) eqn:Eoi; [|exact Hd']. exfalso.
  apply path_eqb_eq in Eoi. subst o. apply (Hdis i); [eapply nth_error_In; eauto|].
  eapply nth_error_In; eauto.
Qed.

Example C46_nonvacuous :
  exists es, main 9 ex_fs no_glob None
      (RawArgs 88 [[lit "a.md"]; [lit "b.md"]] false 0 0 false (Some [lit "out"]) [] false)
    = (es, Exit 0)
    /\ apply_effects ex_fs es [lit "out"; lit "b.md"]
       = Some (NFile (lit "# B" ++ [c_nl]) true true).
Proof. eexists. split; vm_compute; reflexivity. Qed.

(** C44 with separate outputs: the outputs before the failing file are written, nothing
    else is changed, and the error names the file that cannot be formatted, not its
    output. *)
Theorem C44_failing_file_separate : forall lim fs glob stdin r a es e f,
  parse_args fs glob r = Accepted a -> paths a <> [] ->
  (ra_output_directory r <> None \/ ra_output_files r <> []) -> ra_check r = false ->
  ra_write_renders r = false ->
  NoDup (output_paths a) -> (forall p, In p (output_paths a) -> ~ In p (paths a)) ->
  main lim fs glob stdin r = (es, Raised e f) ->
  let fs' := apply_effects fs es in
  exists before p after outs o later,
    paths a = before ++ p :: after /\ output_paths a = outs ++ o :: later
    /\ Forall2 (fun i out => exists old new,
         formats_to lim fs (line_length a) i old new /\ holds fs' out new) before outs
    /\ (forall q, ~ In q outs -> fs' q = fs q)
    /\ ((read_text fs p = Err e /\ f = None)
        \/ (exists old, read_text fs p = Ok old
            /\ reformat_markdown_text lim old (line_length a) = Err e
            /\ (runtime_error e -> f = Some p) /\ (~ runtime_error e -> f = None))
        \/ (exists old new, formats_to lim fs (line_length a) p old new
            /\ ~ can_hold_text fs' o /\ e = OSError /\ f = None)).
Proof.
  intros lim fs glob stdin r a es e f Ha Hp Hsep Hc Hw Hnd Hdis H fs'.
  destruct (parse_args_accepted _ _ _ _ Ha) as (_ & _ & Ec & Ed & Eo & Ew & Hlen & _).
  rewrite (main_files lim fs glob stdin r a Ha Hp) in H.
  apply reformat_files_raised in H. apply files_loop_err in H.
  destruct H as (before & i & o & after & es0 & es1 & n & m & Hsp & Hl & Hf & ->).
  assert (Hln : length (output_paths a) = length (paths a)).
  { unfold output_paths. destruct (output_directory a); [apply map_length|].
    destruct (output_files a) as [|x xs] eqn:Eof; [reflexivity|].
    cbn [nilb]. apply Hlen. discriminate. }
  assert (E1 : paths a = map fst before ++ i :: map fst after).
  { rewrite <- (zip2_fst (paths a) (output_paths a)) by lia. rewrite Hsp, map_app. reflexivity. }
  assert (E2 : output_paths a = map snd before ++ o :: map snd after).
  { rewrite <- (zip2_snd (paths a) (output_paths a)) by lia. rewrite Hsp, map_app. reflexivity. }
  assert (Hfr : fresh before).
  { apply fresh_disjoint; [rewrite E2 in Hnd; eapply NoDup_app_l; eauto|].
    intros p Hin Hi. apply (Hdis p); [rewrite E2|rewrite E1]; apply in_or_app; left; assumption. }
  destruct (files_loop_ok lim a _ _ _ _ _ Hl Hfr) as (Hin & Hout & _).
  apply reformat_file_err in Hf; [|congruence]. destruct Hf as [-> Hcase].
  subst fs'. rewrite app_nil_r.
  assert (Hrd : read_text (apply_effects fs es0) i = read_text fs i).
  { apply read_text_eq, Hout. intros G. apply (Hdis i); [rewrite E2; apply in_or_app; left; exact G|].
    rewrite E1. apply in_or_app. right. left. reflexivity. }
  exists (map fst before), i, (map fst after), (map snd before), o, (map snd after).
  split; [exact E1|]. split; [exact E2|]. split; [|split; [exact Hout|]].
  - assert (G : forall x y, In (x, y) before -> exists old new,
      formats_to lim fs (line_length a) x old new /\ holds (apply_effects fs es0) y new).
    { intros x y Hxy. destruct (Hin x y Hxy) as (old & new & Hfm & Hdn). exists old, new. split; [exact Hfm|].
      replace (check a) with false in Hdn by congruence. destruct (negb (str_eqb new old)); [exact Hdn|].
      destruct (path_eqb y x) eqn:Exy; [|exact Hdn]. exfalso. apply path_eqb_eq in Exy. subst y.
      apply (Hdis x); [rewrite E2|rewrite E1]; apply in_or_app; left.
      - apply (in_map snd) in Hxy. exact Hxy.
      - apply (in_map fst) in Hxy. exact Hxy. }
    clear - G. induction before as [|[x y] before IH]; constructor.
    + apply G. left. reflexivity.
    + apply IH. intros x' y' H. apply G. right. exact H.
  - unfold formats_to in *. rewrite Hrd in Hcase. exact Hcase.
Qed.

Example C44_separate_nonvacuous :
  exists es, main 9 ex_fs no_glob None
               (RawArgs 88 [[lit "a.md"]; [lit "incons.md"]; [lit "b.md"]] false 0 0 false (Some [lit "out"]) [] false)
             = (es, Raised ReformatInconsistentException (Some [lit "incons.md"]))
    /\ apply_effects ex_fs es [lit "out"; lit "a.md"] = Some (NFile (lit "# A" ++ [c_nl]) true true).
Proof. eexists. split; vm_compute; reflexivity. Qed.

(** * C47: line length *)

Theorem C47_line_length : forall fs glob r a,
  parse_args fs glob r = Accepted a ->
  ((ra_line_length r < 1)%Z -> line_length a = WInf)
  /\ ((1 <= ra_line_length r)%Z -> line_length a = WInt (ra_line_length r)).
Proof.
  intros fs glob r a H.
  destruct (parse_args_accepted _ _ _ _ H) as (-> & _).
  unfold effective_line_length.
  destruct (Z.ltb_spec (ra_line_length r) 1); split; intros; try reflexivity; lia.
Qed.

(** All line lengths below one give the same run. *)
Theorem C47_below_one_equivalent : forall lim fs glob stdin n m ps c v q h d fl wr,
  (n < 1)%Z -> (m < 1)%Z ->
  main lim fs glob stdin (RawArgs n ps c v q h d fl wr)
  = main lim fs glob stdin (RawArgs m ps c v q h d fl wr).
Proof.
  intros. unfold main, parse_args, effective_line_length. cbn.
  apply Z.ltb_lt in H. apply Z.ltb_lt in H0. rewrite H, H0. reflexivity.
Qed.

Example C47_nonvacuous :
  exists a, parse_args ex_fs no_glob (RawArgs 0 [[lit "a.md"]] false 0 0 false None [] false)
            = Accepted a /\ line_length a = WInf.
Proof. eexists. split; vm_compute; reflexivity. Qed.

(** * C48: verbosity *)

(** DEBUG, INFO, WARNING, ERROR, CRITICAL are 10, 20, 30, 40, 50. *)
Theorem C48_verbosity : forall v q,
  log_level v q = Z.max 10 (Z.min 50 (40 - 10 * Z.of_nat v + 10 * Z.of_nat q)).
Proof.
  intros v q. unfold log_level. cbn [length logging_levels].
  set (k := (3 - Z.of_nat v + Z.of_nat q)%Z).
  replace (40 - 10 * Z.of_nat v + 10 * Z.of_nat q)%Z with (10 * k + 10)%Z by lia.
  clearbody k.
  assert (H : (k <= 0 \/ k = 1 \/ k = 2 \/ k = 3 \/ 4 <= k)%Z) by lia.
  destruct H as [H|[->|[->|[->|H]]]]; try reflexivity.
  - replace (Z.max 0 (Z.min k (Z.of_nat 5 - 1))) with 0%Z by lia.
    change (nth (Z.to_nat 0) logging_levels 0%Z) with 10%Z. lia.
  - replace (Z.max 0 (Z.min k (Z.of_nat 5 - 1))) with 4%Z by lia.
    change (nth (Z.to_nat 4) logging_levels 0%Z) with 50%Z. lia.
Qed.

Example C48_nonvacuous : log_level 1 0 = 30%Z /\ log_level 9 0 = 10%Z
                         /\ log_level 0 7 = 50%Z /\ log_level 0 0 = 40%Z.
Proof. repeat split. Qed.

(** * C49: standard input *)

(** The text is what is read, with a newline at the end of each line. *)
Theorem C49_stdin : forall lim fs glob r a input text,
  parse_args fs glob r = Accepted a -> paths a = [] ->
  same_lines input text -> ~ In c_cr text ->
  let '(es, o) := main lim fs glob (Some input) r in
  Forall is_print es
  /\ (forall p, apply_effects fs es p = fs p)
  /\ (forall new, reformat_markdown_text lim text (line_length a) = Ok new ->
        if ra_check r then
          (new <> text -> es = [Out (lit "STDIN would be reformatted.")] /\ o = Exit 1)
          /\ (new = text -> es = [Out (lit "STDIN would be unchanged.")] /\ o = Exit 0)
        else es = [Out new] /\ o = Exit 0)
  /\ (forall e, reformat_markdown_text lim text (line_length a) = Err e ->
        exists e', o = Raised e' None).
Proof.
  intros lim fs glob r a input text Ha Hp Hs Hr.
  destruct (parse_args_accepted _ _ _ _ Ha) as (_ & _ & Ec & _).
  unfold main. rewrite Ha, Hp, (universal_read _ _ Hs Hr). cbn [nilb]. unfold reformat_stdin. rewrite Ec.
  assert (G : forall es, Forall is_print es -> forall p, apply_effects fs es p = fs p)
    by (intros es H p; apply apply_effects_prints; exact H).
  destruct (reformat_markdown_text lim text (line_length a)) as [new|e] eqn:E.
  - destruct (ra_check r).
    + destruct (str_eqb new text) eqn:En; cbn [negb].
      * apply str_eqb_eq in En. subst new.
        split; [repeat constructor|]. split; [apply G; repeat constructor|].
        split; [|intros e He; discriminate].
        intros new Hn. inv Hn. split; [congruence|auto].
      * apply str_eqb_neq in En.
        split; [repeat constructor|]. split; [apply G; repeat constructor|].
        split; [|intros e He; discriminate].
        intros new' Hn. inv Hn. split; [auto|congruence].
    + split; [repeat constructor|]. split; [apply G; repeat constructor|].
      split; [|intros e He; discriminate]. intros new' Hn. inv Hn. auto.
  - destruct (is_runtime_error e && (write_renders a && is_inconsistent e)).
    + destruct (reformat_pass lim text (line_length a)) as [c1|e1].
      * destruct (reformat_pass lim c1 (line_length a)) as [c2|e2].
        -- split; [repeat constructor|]. split; [apply G; repeat constructor|].
           split; [discriminate|eauto].
        -- split; [repeat constructor|]. split; [apply G; repeat constructor|].
           split; [discriminate|eauto].
      * split; [repeat constructor|]. split; [apply G; repeat constructor|].
        split; [discriminate|eauto].
    + split; [repeat constructor|]. split; [apply G; repeat constructor|].
      split; [discriminate|eauto].
Qed.

Example C49_nonvacuous :
  let input := lit "#   A" ++ [c_cr; c_nl] in
  let text := lit "#   A" ++ [c_nl] in
  same_lines input text /\ ~ In c_cr text
  /\ main 9 ex_fs no_glob (Some input) (ex_args []) = ([Out (lit "# A" ++ [c_nl])], Exit 0).
Proof.
  cbv zeta. split; [|split; [cbn; intuition discriminate|vm_compute; reflexivity]].
  do 5 (apply same_lines_char; [discriminate|discriminate|]).
  apply (same_lines_ending [c_cr; c_nl] [c_nl] [] []); [cbn; auto|cbn; auto|discriminate|discriminate|constructor].
Qed.

(** Checking an input with other line endings does not report them. *)
Theorem C49_endings_unchanged : forall lim fs glob r a input text,
  parse_args fs glob r = Accepted a -> paths a = [] -> ra_check r = true ->
  same_lines input text -> ~ In c_cr text -> reformat_markdown_text lim text (line_length a) = Ok text ->
  main lim fs glob (Some input) r = ([Out (lit "STDIN would be unchanged.")], Exit 0).
Proof.
  intros lim fs glob r a input text Ha Hp Hc Hs Hr E.
  assert (G := C49_stdin lim fs glob r a input text Ha Hp Hs Hr).
  destruct (main lim fs glob (Some input) r) as [es o]. destruct G as (_ & _ & G & _).
  specialize (G text E). rewrite Hc in G. destruct G as [_ G]. destruct (G eq_refl) as [-> ->]. reflexivity.
Qed.

(** At a terminal nothing is read: the run says so, changes nothing and succeeds. *)
Theorem C49_terminal : forall lim fs glob r a,
  parse_args fs glob r = Accepted a -> paths a = [] ->
  main lim fs glob None r = ([Out (lit "**No path provided. Nothing to do.**")], Exit 0).
Proof. intros lim fs glob r a Ha Hp. unfold main. rewrite Ha, Hp. reflexivity. Qed.

(** When the text read cannot be formatted, the run fails with the formatter's error. With
    [--write-renders], if the formatter reports that formatting its own output would
    change it, the two texts are printed first, each on a line of its own. *)
Theorem C49_stdin_fails : forall lim fs glob r a input text e,
  parse_args fs glob r = Accepted a -> paths a = [] ->
  same_lines input text -> ~ In c_cr text ->
  reformat_markdown_text lim text (line_length a) = Err e ->
  ((ra_write_renders r = false \/ ~ inconsistent e) ->
     main lim fs glob (Some input) r = ([], Raised e None))
  /\ (ra_write_renders r = true -> inconsistent e ->
      exists first second, reformat_pass lim text (line_length a) = Ok first
        /\ reformat_pass lim first (line_length a) = Ok second /\ first <> second
        /\ main lim fs glob (Some input) r
           = ([Out (first ++ [c_nl]); Out (second ++ [c_nl])], Raised e None)).
Proof.
  intros lim fs glob r a input text e Ha Hp Hs Hr He.
  destruct (parse_args_accepted _ _ _ _ Ha) as (_ & _ & _ & _ & _ & Ew & _).
  unfold main. rewrite Ha, Hp, (universal_read _ _ Hs Hr). cbn [nilb]. unfold reformat_stdin. rewrite He, Ew.
  split.
  - intros [-> | Hi]; [|rewrite (consistent_bool e Hi)]; rewrite ?andb_false_r; reflexivity.
  - intros -> Hi. destruct (inconsistent_passes _ _ _ _ He Hi) as (c1 & c2 & H1 & H2 & Hn).
    exists c1, c2. split; [exact H1|]. split; [exact H2|]. split; [exact Hn|].
    rewrite (inconsistent_runtime e Hi). apply inconsistent_bool in Hi. rewrite Hi. cbn [andb]. rewrite H1, H2. reflexivity.
Qed.

Example C49_fails_nonvacuous :
  exists text,
    read_text ex_fs [lit "incons.md"] = Ok text
    /\ main 9 ex_fs no_glob (Some text) (RawArgs 88 [] false 0 0 false None [] true)
       = ([Out (lit "> foo" ++ [c_nl] ++ lit "> bar" ++ [c_nl; c_nl]);
           Out (lit "> foo bar" ++ [c_nl; c_nl])], Raised ReformatInconsistentException None).
Proof.
  exists (lit "> foo  " ++ [c_nl] ++ lit "> bar" ++ [c_nl]).
  split; vm_compute; reflexivity.
Qed.

(** * C51: bad arguments *)

Theorem C51_output_count_mismatch : forall lim fs fs' glob stdin r files,
  work_list fs glob (ra_paths r) files ->
  ra_output_files r <> [] -> length files <> length (ra_output_files r) ->
  (forall p, same_node_shape (fs p) (fs' p)) ->
  exists status, status <> 0%Z /\ main lim fs glob stdin r = ([], Exit status)
    /\ main lim fs' glob stdin r = ([], Exit status).
Proof.
  intros lim fs fs' glob stdin r files Hwl Hne Hlen Hs.
  apply work_list_expand in Hwl. subst files.
  assert (G : exists status, status <> 0%Z /\ parse_args fs glob r = Rejected status).
  { unfold parse_args.
    destruct (negb (forallb (existing_path_ok fs) (ra_paths r)));
      [exists 2%Z; split; [discriminate|reflexivity]|].
    destruct (match ra_output_directory r with
              | Some d => negb (directory_ok fs d) || negb (nilb (ra_output_files r))
              | None => false end); [exists 2%Z; split; [discriminate|reflexivity]|].
    destruct (negb (forallb (file_ok fs) (ra_output_files r)));
      [exists 2%Z; split; [discriminate|reflexivity]|].
    exists 255%Z. split; [discriminate|].
    destruct (ra_developer_help r); [reflexivity|]. cbn zeta.
    apply nilb_false in Hne. rewrite Hne. apply Nat.eqb_neq in Hlen. rewrite Hlen.
    reflexivity. }
  destruct G as (status & Hst & Hr). exists status. split; [exact Hst|].
  split; [unfold main; rewrite Hr; reflexivity|].
  eapply main_shape; eauto.
Qed.

Theorem C51_unwritable_target : forall lim fs fs' glob stdin r files p,
  work_list fs glob (ra_paths r) files ->
  ra_output_files r = [] -> ra_output_directory r = None -> ra_check r = false ->
  In p files ->
  (is_dir fs p = true \/ (exists_ fs p = true /\ can_write fs p = false)) ->
  (forall p, same_node_shape (fs p) (fs' p)) ->
  exists status, status <> 0%Z /\ main lim fs glob stdin r = ([], Exit status)
    /\ main lim fs' glob stdin r = ([], Exit status).
Proof.
  intros lim fs fs' glob stdin r files p Hwl Hf Hd Hc Hin Hbad Hs.
  apply work_list_expand in Hwl. subst files.
  assert (Hfo : forallb (file_ok fs) (expand_paths fs glob (ra_paths r)) = false).
  { destruct (forallb (file_ok fs) (expand_paths fs glob (ra_paths r))) eqn:E; [|auto].
    rewrite forallb_forall in E. specialize (E p Hin). unfold file_ok in E.
    assert (Hex : exists_ fs p = true).
    { destruct Hbad as [Hb|[Hb _]]; [|exact Hb].
      unfold is_dir, exists_ in *. destruct (fs p); [reflexivity|discriminate]. }
    rewrite Hex in E. apply andb_true_iff in E. destruct E as [E1 E2].
    apply negb_true_iff in E1. destruct Hbad as [Hb|[_ Hb]]; congruence. }
  assert (G : exists status, status <> 0%Z /\ parse_args fs glob r = Rejected status).
  { unfold parse_args. rewrite Hf, Hd, Hc.
    destruct (negb (forallb (existing_path_ok fs) (ra_paths r)));
      [exists 2%Z; split; [discriminate|reflexivity]|].
    cbn [forallb negb]. exists 255%Z. split; [discriminate|].
    destruct (ra_developer_help r); [reflexivity|]. cbn [nilb negb andb].
    rewrite Hfo. reflexivity. }
  destruct G as (status & Hst & Hr). exists status. split; [exact Hst|].
  split; [unfold main; rewrite Hr; reflexivity|].
  eapply main_shape; eauto.
Qed.

Example C51_nonvacuous :
  main 9 ex_fs no_glob None
    (RawArgs 88 [[lit "a.md"]; [lit "b.md"]] false 0 0 false None [[lit "o.md"]] false)
  = ([], Exit 255).
Proof. vm_compute. reflexivity. Qed.
Example C51_nonvacuous_dir :
  main 9 ex_fs (fun _ => [[lit "d1"]]) None (ex_args [[lit "d1"]]) = ([], Exit 255).
Proof. vm_compute. reflexivity. Qed.

(** * C54: render files *)

(** The render file names for an output file called [name]. *)
Definition render_name_spec (name first second : str) : Prop :=
  (exists stem, name = stem ++ lit ".md"
     /\ first = stem ++ lit ".1.md" /\ second = stem ++ lit ".2.md")
  \/ ((forall stem, name <> stem ++ lit ".md")
      /\ first = name ++ lit ".1" /\ second = name ++ lit ".2").

Lemma render_names_spec name :
  render_name_spec name (fst (render_names name)) (snd (render_names name)).
Proof.
  unfold render_names, render_name_spec.
  destruct (endswith (lit ".md") name) eqn:E.
  - left. apply endswith_spec in E. destruct E as (stem & ->). exists stem.
    rewrite app_length. change (length (lit ".md")) with 3.
    replace (length stem + 3 - 3) with (length stem) by lia.
    rewrite firstn_app, Nat.sub_diag, firstn_all. cbn [firstn fst snd].
    rewrite app_nil_r. auto.
  - right. split; [|auto]. intros stem ->.
    assert (endswith (lit ".md") (stem ++ lit ".md") = true)
      by (apply endswith_spec; eauto). congruence.
Qed.

(** With an inconsistent file the two passes are written next to the output (here: a run
    over one file). *)
Theorem C54_renders_written : forall lim fs glob stdin r a i o old e es out,
  parse_args fs glob r = Accepted a -> paths a = [i] -> output_paths a = [o] ->
  ra_write_renders r = true ->
  read_text fs i = Ok old ->
  reformat_markdown_text lim old (line_length a) = Err e ->
  inconsistent e ->
  main lim fs glob stdin r = (es, out) ->
  exists first second,
    render_name_spec (last o []) first second
    /\ let p1 := removelast o ++ [first] in
       let p2 := removelast o ++ [second] in
       (forall ef p, In ef es -> touches p ef -> p = p1 \/ p = p2)
       /\ (out = Raised e (Some i) ->
           exists c1 c2,
             reformat_pass lim old (line_length a) = Ok c1
             /\ reformat_pass lim c1 (line_length a) = Ok c2
             /\ es = [Truncate p1; Append p1 c1; Truncate p2; Append p2 c2]).
Proof.
  intros lim fs glob stdin r a i o old e es out Ha Hi Ho Hw Hr He Hinc H.
  destruct (parse_args_accepted _ _ _ _ Ha) as (_ & _ & _ & _ & _ & Ew & _).
  assert (Hp : paths a <> []) by (rewrite Hi; discriminate).
  rewrite (main_files lim fs glob stdin r a Ha Hp) in H.
  unfold reformat_files in H. rewrite Hi, Ho in H. cbn [zip2 files_loop] in H.
  change (last o []) with (path_name o). change (removelast o) with (path_parent o).
  exists (fst (render_names (path_name o))), (snd (render_names (path_name o))).
  split; [apply render_names_spec|].
  set (first := fst (render_names (path_name o))).
  set (second := snd (render_names (path_name o))). cbn zeta.
  assert (Hrt : is_runtime_error e = true).
  { apply inconsistent_runtime. exact Hinc. }
  apply inconsistent_bool in Hinc.
  unfold reformat_file in H. rewrite Hr, He, Hrt in H. rewrite Ew, Hw, Hinc in H.
  cbn [andb] in H.
  unfold do_write_renders in H.
  destruct (render_names (path_name o)) as [f1 f2] eqn:En. cbn in first, second.
  subst first second. unfold path_join in *. rewrite Hr in H. cbn [bind] in H.
  destruct (reformat_pass lim old (line_length a)) as [c1|e1] eqn:E1; cbn [bind] in H.
  2:{ inv H. split; [intros ef p []|].
      intros G. exfalso. congruence. }
  destruct (write_text fs (path_parent o ++ [f1]) c1) as [es1|e1] eqn:Ew1; cbn [bind] in H.
  2:{ inv H. split; [intros ef p []|]. intros G. exfalso. congruence. }
  apply write_text_ok in Ew1. destruct Ew1 as (-> & _ & _).
  destruct (reformat_pass lim c1 (line_length a)) as [c2|e2] eqn:E2; cbn [bind] in H.
  2:{ inv H. split; [|intros G; exfalso; congruence].
      intros ef p [<-|[<-|[]]] <-; auto. }
  match type of H with context [write_text ?x ?y ?z] =>
    destruct (write_text x y z) as [es2|e2] eqn:Ew2 end.
  2:{ inv H. split; [|intros G; exfalso; congruence].
      intros ef p [<-|[<-|[]]] <-; auto. }
  apply write_text_ok in Ew2. destruct Ew2 as (-> & _ & _).
  inv H. split.
  - intros ef p Hin. cbn in Hin.
    destruct Hin as [<-|[<-|[<-|[<-|[]]]]]; intros <-; auto.
  - intros _. exists c1, c2. auto.
Qed.

(** Otherwise nothing but the output file itself is touched. *)
Theorem C54_renders_only_when_inconsistent : forall lim fs glob stdin r a i o es out,
  parse_args fs glob r = Accepted a -> paths a = [i] -> output_paths a = [o] ->
  (ra_write_renders r = false
   \/ (forall old e, read_text fs i = Ok old ->
         reformat_markdown_text lim old (line_length a) = Err e ->
         ~ inconsistent e)) ->
  main lim fs glob stdin r = (es, out) ->
  forall ef p, In ef es -> touches p ef -> p = o.
Proof.
  intros lim fs glob stdin r a i o es out Ha Hi Ho Hno H ef p Hin Ht.
  destruct (parse_args_accepted _ _ _ _ Ha) as (_ & _ & _ & _ & _ & Ew & _).
  assert (Hp : paths a <> []) by (rewrite Hi; discriminate).
  rewrite (main_files lim fs glob stdin r a Ha Hp) in H.
  unfold reformat_files in H. rewrite Hi, Ho in H. cbn [zip2 files_loop] in H.
  destruct (reformat_file lim a fs i o) as [es1 [changed|[e f]]] eqn:E.
  - apply reformat_file_ok in E. destruct E as (old & new & _ & _ & Hes & _).
    assert (Hes2 : exists msgs, es = es1 ++ [Out (lit "All done!"); Out msgs]).
    { destruct changed; inv H; rewrite app_nil_r; eexists; reflexivity. }
    destruct Hes2 as (msgs & ->). apply in_app_or in Hin. destruct Hin as [Hin|Hin].
    + subst es1. destruct changed; [destruct (check a)|destruct (path_eqb o i)];
        repeat (destruct Hin as [<-|Hin]; [cbn in Ht; try tauto; congruence|]);
        destruct Hin.
    + destruct Hin as [<-|[<-|[]]]; cbn in Ht; tauto.
  - injection H as H _. subst es1. unfold reformat_file in E.
    destruct (read_text fs i) as [old|e'] eqn:Er; [|inv E; destruct Hin].
    destruct (reformat_markdown_text lim old (line_length a)) as [new|e'] eqn:Ef.
    + destruct (negb (str_eqb new old)).
      * destruct (negb (check a)); [|discriminate].
        destruct (write_text fs o new); inv E. destruct Hin.
      * destruct (negb (path_eqb o i)); [|discriminate].
        destruct (write_text fs o new); inv E. destruct Hin.
    + assert (Hf : write_renders a && is_inconsistent e' = false).
      { destruct Hno as [Hno|Hno]; [rewrite Ew, Hno; reflexivity|].
        rewrite (consistent_bool _ (Hno old e' eq_refl Ef)). apply andb_false_r. }
      rewrite Hf in E. destruct (is_runtime_error e'); inv E; destruct Hin.
Qed.

Example C54_nonvacuous :
  map (fun e => match e with Truncate p => p | _ => [] end)
      (fst (main 9 ex_fs no_glob None
              (RawArgs 88 [[lit "incons.md"]] false 0 0 false None [] true)))
  = [[lit "incons.1.md"]; []; [lit "incons.2.md"]; []].
Proof. vm_compute. reflexivity. Qed.

(** * C55: named paths are not ignored *)

(** False: a directory without Markdown files makes the tool read standard input. *)
Theorem C55_paths_not_ignored_refuted :
  exists fs glob text r es,
    ra_paths r <> []
    /\ main 9 fs glob (Some text) r = (es, Exit 0)
    /\ es = [Out (lit "# A" ++ [c_nl])] /\ text = lit "#  A".
Proof.
  exists ex_fs, no_glob, (lit "#  A"), (ex_args [[lit "out"]]).
  eexists. split; [discriminate|]. split; [vm_compute; reflexivity|].
  split; reflexivity.
Qed.

(** True when some file is named or found: standard input is then never looked at. *)
Theorem C55_paths_not_ignored_partial : forall lim fs glob stdin stdin' r files,
  work_list fs glob (ra_paths r) files -> files <> [] ->
  main lim fs glob stdin r = main lim fs glob stdin' r.
Proof.
  intros lim fs glob stdin stdin' r files Hwl Hne.
  apply work_list_expand in Hwl. subst files.
  unfold main. destruct (parse_args fs glob r) as [a|s] eqn:Ha; [|reflexivity].
  destruct (parse_args_accepted _ _ _ _ Ha) as (_ & Ep & _).
  rewrite <- Ep in Hne. apply nilb_false in Hne. rewrite Hne. reflexivity.
Qed.

(** Every file named or found is worked on, and nothing else (what is done with the paths
    of an accepted invocation is stated by C42, C43, C46 and C56). *)
Theorem C55_all_files_partial : forall fs glob r a,
  parse_args fs glob r = Accepted a -> work_list fs glob (ra_paths r) (paths a).
Proof.
  intros fs glob r a H. destruct (parse_args_accepted _ _ _ _ H) as (_ & E & _).
  apply work_list_expand. exact E.
Qed.

Example C55_nonvacuous :
  work_list ex_fs (fun _ => [[lit "d1"; lit "x.md"]; [lit "d1"; lit "y.md"]])
    [[lit "b.md"]; [lit "d1"]; [lit "a.md"]]
    [[lit "b.md"]; [lit "d1"; lit "x.md"]; [lit "d1"; lit "y.md"]; [lit "a.md"]].
Proof. apply work_list_expand. vm_compute. reflexivity. Qed.

(** * C56: the summary counts *)


Lemma contains_app_r p a b : contains p b = true -> contains p (a ++ b) = true.
Proof.
  rewrite !contains_spec. intros (x & y & ->). exists (a ++ x), y.
  rewrite <- !app_assoc. reflexivity.
Qed.
Lemma contains_app_l p a b : contains p a = true -> contains p (a ++ b) = true.
Proof.
  rewrite !contains_spec. intros (x & y & ->). exists x, (y ++ b).
  rewrite <- !app_assoc. reflexivity.
Qed.

Lemma contains_join p q sep ps :
  contains p q = true -> In q ps -> contains p (str_join sep ps) = true.
Proof.
  intros Hc. induction ps as [|x ps IH]; [intros []|]. intros [->|Hin].
  - destruct ps; [exact Hc|]. rewrite str_join_cons by discriminate.
    apply contains_app_l. exact Hc.
  - destruct ps as [|y ps]; [destruct Hin|]. rewrite str_join_cons by discriminate.
    do 2 apply contains_app_r. apply IH. exact Hin.
Qed.

Theorem C56_summary : forall lim fs glob stdin r a es n,
  parse_args fs glob r = Accepted a -> paths a <> [] ->
  ra_output_directory r = None -> ra_output_files r = [] ->
  (NoDup (paths a) \/ ra_check r = true) ->
  main lim fs glob stdin r = (es, Exit n) ->
  exists flags es0 msg,
    Forall2 (fun p (flag : bool) => exists old new,
               formats_to lim fs (line_length a) p old new
               /\ (flag = true <-> new <> old)) (paths a) flags
    /\ es = es0 ++ [Out msg]
    /\ let changed := count_occ Bool.bool_dec flags true in
       let unchanged := count_occ Bool.bool_dec flags false in
       exists c u, tells (ra_check r) changed (lit "reformatted.") c
         /\ tells (ra_check r) unchanged (lit "left unchanged.") u
         /\ msg = str_join [c_sp] (map (fun s => lit "**" ++ s ++ lit "**") c ++ u).
Proof.
  intros lim fs glob stdin r a es n Ha Hp Hd Ho Hnd H.
  destruct (parse_args_accepted _ _ _ _ Ha) as (_ & _ & Ec & Ed & Eo & _).
  rewrite (main_files lim fs glob stdin r a Ha Hp) in H.
  apply reformat_files_exit in H. destruct H as (es0 & ch & un & Hl & Hes & _).
  rewrite (output_paths_in_place a) in Hl by (split; congruence). rewrite zip2_twice in Hl.
  rewrite <- Ec in Hnd.
  destruct (files_loop_flags lim a _ _ _ _ _ Hnd Hl) as (flags & Hf & -> & ->).
  set (ch := count_occ Bool.bool_dec flags true) in *.
  set (un := count_occ Bool.bool_dec flags false) in *.
  exists flags, (es0 ++ [Out (lit "All done!")]), (summary a ch un).
  split; [exact Hf|]. split; [rewrite <- app_assoc; exact Hes|]. cbn zeta.
  fold ch un. rewrite <- Ec. clearbody ch un. clear. unfold summary.
  assert (T : forall k what, k <> 0 -> tells (check a) k what
    [dec (N.of_nat k) ++ (lit " " ++ file_word k ++ lit " ") ++ (if check a then lit "would be " else file_verb k ++ lit " ") ++ what]).
  { intros k what Hk. right. split; [exact Hk|]. exists (dec (N.of_nat k)), (lit " " ++ file_word k ++ lit " "), (if check a then lit "would be " else file_verb k ++ lit " ").
    split; [apply PropsList.dec_decimal|].
    unfold file_word, file_verb. destruct (Nat.eqb_spec k 1), (check a); repeat split; intros; try contradiction; try discriminate; reflexivity. }
  assert (U : forall k what, exists l, tells (check a) k what l
    /\ l = if k =? 0 then [] else [dec (N.of_nat k) ++ (lit " " ++ file_word k ++ lit " ") ++ (if check a then lit "would be " else file_verb k ++ lit " ") ++ what]).
  { intros k what. destruct (Nat.eqb_spec k 0) as [->|Hk]; eexists; (split; [|reflexivity]); [left; auto|apply T; exact Hk]. }
  destruct (U ch (lit "reformatted.")) as (c & Tc & ->). destruct (U un (lit "left unchanged.")) as (u & Tu & ->).
  do 2 eexists. split; [exact Tc|]. split; [exact Tu|]. f_equal.
  destruct (check a), (ch =? 0), (un =? 0); cbn [map app]; rewrite <- ?app_assoc; reflexivity.
Qed.

Example C56_nonvacuous :
  main 9 ex_fs no_glob None (ex_check [[lit "a.md"]; [lit "b.md"]])
  = ([Out (lit "would reformat a.md"); Out (lit "All done!");
      Out (lit "**1 file would be reformatted.** 1 file would be left unchanged.")], Exit 1).
Proof. vm_compute. reflexivity. Qed.
