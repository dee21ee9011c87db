(** C79 and C80: what a run of the command logs. *)
From Coq Require Import String.
From Verif Require Import Py Regex Utils TextWrap Lines Detectors Formatters Logging Cli Records Notices RunLog Base
  SpecParser SpecFormat SpecCli SpecErrors SpecRecords SpecNotices SpecRunLog
  ProofsCli ProofsRecords ProofsNotices ProofsAlarms ProofsRunLog PropsCli PropsRecords PropsNotices.
Local Open Scope nat_scope.

Lemma level_error v q : (log_level v q <= ERROR)%Z <-> q <= v.
Proof. rewrite C48_verbosity. unfold ERROR. lia. Qed.
Lemma level_warning v q : (log_level v q <= WARNING)%Z <-> q < v.
Proof. rewrite C48_verbosity. unfold WARNING. lia. Qed.
Lemma level_positive v q : (log_level v q <> 0)%Z.
Proof. rewrite C48_verbosity. lia. Qed.

Definition start (r : raw_args) : log_state := LogState 0 (log_level (ra_verbose r) (ra_quiet r)) INFO.

Lemma start_effective r : effective_level (start r) = log_level (ra_verbose r) (ra_quiet r).
Proof. reflexivity. Qed.
Lemma start_moderate r : moderate (start r).
Proof. unfold moderate. cbn. lia. Qed.
Lemma start_silent r : ra_verbose r <= ra_quiet r -> silent (start r).
Proof.
  intros H. split; [apply start_moderate|]. unfold high. rewrite start_effective. cbn [start inherited_level].
  assert (G := level_warning (ra_verbose r) (ra_quiet r)). lia.
Qed.

(** The records of a run: those made while formatting, and the error at its end. *)
Lemma run_split R lim fs glob stdin r : exists body last,
  run_shown R lim fs glob stdin r = body ++ last
  /\ Forall (fun x => (r_level x <= WARNING)%Z) body
  /\ (ra_verbose r <= ra_quiet r -> body = [])
  /\ (last = []
        /\ (ra_verbose r < ra_quiet r
            \/ forall e f n a b, snd (main lim fs glob stdin r) = Raised e f ->
                 exn_base e <> MarkdownFormatException n a b)
      \/ ra_quiet r <= ra_verbose r
         /\ exists e f n a b x, snd (main lim fs glob stdin r) = Raised e f
              /\ exn_base e = MarkdownFormatException n a b /\ complains n a b x /\ last = [x]).
Proof.
  unfold run_shown. destruct (parse_args fs glob r) as [a|status] eqn:Ha.
  2:{ exists [], []. split; [reflexivity|]. split; [constructor|]. split; [reflexivity|]. left. split; [reflexivity|].
      right. intros e f n a b H. unfold main in H. rewrite Ha in H. discriminate. }
  cbv zeta. fold (start r). eexists _, _. split; [reflexivity|]. split; [|split].
  - destruct (nilb (paths a)); [|apply files_low, start_moderate].
    destruct stdin as [input|]; [|constructor]. apply stdin_low, start_moderate.
  - intros H. destruct (nilb (paths a)); [|apply files_silent, start_silent, H].
    destruct stdin as [input|]; [|reflexivity]. apply stdin_silent, start_silent, H.
  - destruct (snd (main lim fs glob stdin r)) as [k|e f] eqn:Em.
    { left. split; [reflexivity|]. right. intros; discriminate. }
    destruct (exn_base e) as [| | | | |line expected actual| | | |] eqn:Ee;
      try (left; split; [reflexivity|]; right; intros e' f' n' a' b' H; injection H as <- <-; congruence).
    unfold main_shown. cbn [filter shown r_logger r_level]. cbn [start inherited_level].
    assert (G := level_error (ra_verbose r) (ra_quiet r)).
    destruct (Z.leb_spec (log_level (ra_verbose r) (ra_quiet r)) ERROR) as [L|L].
    + right. split; [tauto|]. exists e, f, line, expected, actual. eexists. repeat (split; [solve [auto]|]).
      split; [|reflexivity]. exists (decn line), (decn expected), (decn actual).
      repeat (split; [apply decn_number|]). reflexivity.
    + left. split; [reflexivity|]. left. lia.
Qed.

(** * C79 *)

(** Unless there are more -v than -q, a run logs nothing but the error that ends it. *)
Theorem C79_default : forall R lim fs glob stdin r, ra_verbose r <= ra_quiet r ->
  run_shown R lim fs glob stdin r = []
  \/ exists e f n a b x, snd (main lim fs glob stdin r) = Raised e f
       /\ exn_base e = MarkdownFormatException n a b
       /\ complains n a b x /\ run_shown R lim fs glob stdin r = [x].
Proof.
  intros R lim fs glob stdin r H. destruct (run_split R lim fs glob stdin r) as (body & last & E & _ & Hb & Hl).
  rewrite E, (Hb H). cbn [app]. destruct Hl as [[-> _]|(_ & e & f & n & a & b & x & H1 & H2 & H3 & ->)]; [auto|].
  right. exists e, f, n, a, b, x. auto.
Qed.

(** With more -q than -v, it logs nothing. *)
Theorem C79_quiet : forall R lim fs glob stdin r, ra_verbose r < ra_quiet r ->
  run_shown R lim fs glob stdin r = [].
Proof.
  intros R lim fs glob stdin r H. destruct (run_split R lim fs glob stdin r) as (body & last & E & _ & Hb & Hl).
  rewrite E, Hb by lia. destruct Hl as [[-> _]|[Hl _]]; [reflexivity|lia].
Qed.

(** The error is logged once, last, whenever a table that is not a rectangle ends the run and
    there are not more -q than -v, *)
Theorem C79_error : forall R lim fs glob stdin r e f n a b, ra_quiet r <= ra_verbose r ->
  snd (main lim fs glob stdin r) = Raised e f -> exn_base e = MarkdownFormatException n a b ->
  exists rs x, run_shown R lim fs glob stdin r = rs ++ [x] /\ complains n a b x
    /\ Forall (fun y => (r_level y <= WARNING)%Z) rs.
Proof.
  intros R lim fs glob stdin r e f n a b H Hm He.
  destruct (run_split R lim fs glob stdin r) as (body & last & E & Hw & _ & Hl).
  destruct Hl as [[_ [Hl|Hl]]|(_ & e' & f' & n' & a' & b' & x & H1 & H2 & H3 & ->)].
  - lia.
  - exfalso. exact (Hl e f n a b Hm He).
  - rewrite H1 in Hm. injection Hm as -> ->. rewrite H2 in He. injection He as -> -> ->.
    exists body, x. auto.
Qed.

(** and no other run logs an error. *)
Theorem C79_no_error : forall R lim fs glob stdin r,
  (forall e f n a b, snd (main lim fs glob stdin r) = Raised e f -> exn_base e <> MarkdownFormatException n a b) ->
  Forall (fun y => (r_level y <= WARNING)%Z) (run_shown R lim fs glob stdin r).
Proof.
  intros R lim fs glob stdin r H. destruct (run_split R lim fs glob stdin r) as (body & last & E & Hw & _ & Hl).
  rewrite E. destruct Hl as [[-> _]|(_ & e & f & n & a & b & x & H1 & H2 & _)]; [rewrite app_nil_r; exact Hw|].
  exfalso. exact (H e f n a b H1 H2).
Qed.

(** The warning of interactive mode is logged exactly when standard input is read although an
    output directory was named, and there are more -v than -q. *)
Theorem C79_interactive : forall R lim fs glob stdin r a, parse_args fs glob r = Accepted a ->
  (In interactive_warning (run_shown R lim fs glob stdin r)
   <-> paths a = [] /\ stdin <> None /\ ra_output_directory r <> None /\ ra_quiet r < ra_verbose r).
Proof.
  intros R lim fs glob stdin r a Ha.
  destruct (parse_args_accepted _ _ _ _ Ha) as (_ & _ & _ & Ed & Eo & _ & Hlen & _).
  assert (Hlast : forall x, In interactive_warning (match snd (main lim fs glob stdin r) with
           | Raised e _ => match exn_base e with
               | MarkdownFormatException line expected actual =>
                   main_shown (start r) ERROR (format_exception_text line expected actual)
               | _ => [] end
           | Exit _ => [] end) -> x).
  { intros x H. exfalso. destruct (snd (main lim fs glob stdin r)) as [k|e f]; [exact H|].
    destruct (exn_base e); try exact H. unfold main_shown in H. apply filter_In in H.
    destruct H as [[H|[]] _]. discriminate. }
  unfold run_shown. rewrite Ha. cbv zeta. fold (start r). rewrite in_app_iff. split.
  - intros [H|H]; [|apply (Hlast _ H)].
    destruct (nilb (paths a)) eqn:Ep.
    2:{ exfalso. assert (G := files_not_warning R lim a fs (start r) (zip2 (paths a) (output_paths a))).
        rewrite Forall_forall in G. destruct (G _ H) as [G'|G']; [apply G'; reflexivity|discriminate]. }
    destruct (paths a) eqn:Ep2; [|discriminate]. split; [reflexivity|].
    destruct stdin as [input|]; [|destruct H]. split; [discriminate|].
    assert (Ho : output_files a = []).
    { destruct (output_files a) as [|o l]; [reflexivity|]. assert (G : o :: l <> []) by discriminate.
      specialize (Hlen G). discriminate. }
    destruct (outputs_given a) eqn:Eg.
    2:{ exfalso. assert (G := stdin_not_warning R lim a (universal_newlines input) (start r) Eg).
        rewrite Forall_forall in G. destruct (G _ H) as [G'|G']; [apply G'; reflexivity|discriminate]. }
    split.
    + unfold outputs_given in Eg. rewrite Ho in Eg. rewrite <- Ed. destruct (output_directory a); [discriminate|].
      discriminate.
    + destruct (Nat.ltb_spec (ra_quiet r) (ra_verbose r)) as [L|L]; [exact L|]. exfalso.
      rewrite (stdin_silent R lim a (universal_newlines input) (start r) (start_silent r L)) in H. destruct H.
  - intros (Hp & Hs & Hd & Hv). left. rewrite Hp. cbn [nilb]. destruct stdin as [input|]; [|congruence].
    unfold stdin_shown. apply in_app_iff. left. rewrite Ed.
    destruct (ra_output_directory r); [|congruence]. cbn [orb]. apply filter_In. split; [left; reflexivity|].
    cbn [shown r_logger r_level]. apply Z.leb_le. cbn [start inherited_level]. apply level_warning, Hv.
Qed.

(** * C80 *)

(** A run that completes logs, file by file, what formatting the text of the file logs by
    itself. *)
Theorem C80_records : forall R lim fs glob stdin r a es n,
  parse_args fs glob r = Accepted a -> paths a <> [] -> NoDup (paths a) ->
  ra_output_directory r = None -> ra_output_files r = [] ->
  main lim fs glob stdin r = (es, Exit n) ->
  exists groups,
    Forall2 (fun p rs => exists old new, formats_to lim fs (line_length a) p old new
               /\ rs = reformat_markdown_text_all R lim old (line_length a)
                         (LogState 0 (log_level (ra_verbose r) (ra_quiet r)) INFO))
            (paths a) groups
    /\ run_shown R lim fs glob stdin r = concat groups.
Proof.
  intros R lim fs glob stdin r a es n Ha Hp Hnd Hd Ho H.
  destruct (parse_args_accepted _ _ _ _ Ha) as (_ & _ & _ & Ed & Eo & _).
  unfold run_shown. rewrite Ha, H. cbn [snd]. cbv zeta. fold (start r).
  rewrite (main_files lim fs glob stdin r a Ha Hp) in H.
  apply reformat_files_exit in H. destruct H as (es0 & ch & un & Hl & _).
  apply nilb_false in Hp. rewrite Hp, app_nil_r.
  rewrite (output_paths_in_place a) in * by (split; congruence). rewrite zip2_twice in *.
  destruct (files_records R lim a fs (start r) (start r) (twice (paths a)) es0 ch un) as (groups & G1 & G2).
  - rewrite start_effective. apply level_positive.
  - repeat split.
  - apply fresh_twice, Hnd.
  - exact Hl.
  - rewrite map_fst_twice in G1. exists groups. split; [exact G1|exact G2].
Qed.

Lemma at_level_concat level groups : at_level level (concat groups) = concat (map (at_level level) groups).
Proof.
  induction groups as [|g groups IH]; [reflexivity|]. cbn [concat map]. rewrite at_level_app, IH. reflexivity.
Qed.

Lemma call_info R lim t w st :
  at_level INFO (reformat_markdown_text_all R lim t w st) = at_level INFO (reformat_markdown_text_shown R lim t w st).
Proof.
  destruct (C77_result R lim [] DEBUG t w st) as (_ & _ & <-). unfold at_level. rewrite filter_swap.
  symmetry. apply filter_all.
  assert (G : forall info u, Forall (fun r => own r = true \/ r_level r <> INFO) (fst (reformat_pass_all R lim info u w))).
  { intros info u. eapply Forall_impl; [|apply pass_backed]. intros r [Ho|(T & _ & F)]; [auto|]. right.
    destruct F as [[_ ->]|(T' & a & _ & _ & F)]; [discriminate|].
    destruct a as [k|k]; destruct F as (num & _ & ->); discriminate. }
  assert (G' : Forall (fun r => own r = true \/ r_level r <> INFO) (reformat_markdown_text_all R lim t w st)).
  { unfold reformat_markdown_text_all. assert (G1 := G (info_const st) t).
    destruct (reformat_pass_all R lim (info_const st) t w) as [rs [u|e]]; cbn [fst] in G1; [|apply filter_Forall, G1].
    cbv zeta. apply Forall_app. split; [apply filter_Forall, G1|]. apply filter_Forall, G. }
  rewrite Forall_forall in *. intros r Hr. apply filter_In in Hr. destruct Hr as [Hr Hi].
  destruct (G' r Hr) as [Ho|Hn]; [exact Ho|]. apply Z.eqb_eq in Hi. contradiction.
Qed.

(** So with two more -v than -q, it lists the sections of every file, in order. *)
Theorem C80_verbose : forall R lim fs glob stdin r a es n,
  parse_args fs glob r = Accepted a -> paths a <> [] -> NoDup (paths a) ->
  ra_output_directory r = None -> ra_output_files r = [] -> ra_verbose r = ra_quiet r + 2 ->
  main lim fs glob stdin r = (es, Exit n) ->
  exists listings,
    Forall2 (fun p texts => exists old new lim' secs, formats_to lim fs (line_length a) p old new
               /\ parse_markdown lim' (splitlines old) = Ok secs /\ concat (map snd secs) = splitlines old
               /\ reports R 1 secs texts)
            (paths a) listings
    /\ map r_text (filter (fun x => Z.eqb (r_level x) INFO) (run_shown R lim fs glob stdin r)) = concat listings.
Proof.
  intros R lim fs glob stdin r a es n Ha Hp Hnd Hd Ho Hv H.
  destruct (C80_records R lim fs glob stdin r a es n Ha Hp Hnd Hd Ho H) as (groups & G1 & G2).
  assert (L := proj1 (proj2 (proj2 (C75_cli (ra_verbose r) (ra_quiet r)))) Hv).
  exists (map (fun g => map r_text (at_level INFO g)) groups). split.
  - clear - G1 L. induction G1 as [|p rs ps groups (old & new & Hf & ->) H IH]; cbn [map]; constructor; [|exact IH].
    destruct (C75_verbose R lim old (line_length a) (start r) new eq_refl ltac:(unfold start; rewrite L; unfold DEBUG, INFO; lia) (proj2 Hf))
      as (lim' & secs & H1 & H2 & H3).
    exists old, new, lim', secs. split; [exact Hf|]. split; [exact H1|]. split; [exact H2|].
    rewrite call_info. exact H3.
  - rewrite G2. change (filter (fun x => Z.eqb (r_level x) INFO)) with (at_level INFO).
    rewrite at_level_concat, concat_map, map_map. reflexivity.
Qed.

(** A run that an exception ends has logged the same of the files before the one that it was
    working on, and nothing of those after it. *)
Theorem C80_stopped : forall R lim fs glob stdin r a es e f,
  parse_args fs glob r = Accepted a -> paths a <> [] -> NoDup (paths a) ->
  ra_output_directory r = None -> ra_output_files r = [] -> ra_write_renders r = false ->
  main lim fs glob stdin r = (es, Raised e f) ->
  let st := LogState 0 (log_level (ra_verbose r) (ra_quiet r)) INFO in
  exists before p after groups here last, paths a = before ++ p :: after
    /\ Forall2 (fun p rs => exists old new, formats_to lim fs (line_length a) p old new
                  /\ rs = reformat_markdown_text_all R lim old (line_length a) st)
               before groups
    /\ (forall old, read_text fs p = Ok old -> here = reformat_markdown_text_all R lim old (line_length a) st)
    /\ (forall e', read_text fs p = Err e' -> here = [])
    /\ (last = [] \/ exists n k j x, exn_base e = MarkdownFormatException n k j /\ complains n k j x /\ last = [x])
    /\ run_shown R lim fs glob stdin r = concat groups ++ here ++ last.
Proof.
  intros R lim fs glob stdin r a es e f Ha Hp Hnd Hd Ho Hr H. cbv zeta. fold (start r).
  destruct (parse_args_accepted _ _ _ _ Ha) as (_ & _ & _ & Ed & Eo & Er & _).
  unfold run_shown. rewrite Ha, H. cbn [snd]. cbv zeta. fold (start r).
  rewrite (main_files lim fs glob stdin r a Ha Hp) in H.
  assert (Hl : exists err, files_loop lim a fs (zip2 (paths a) (output_paths a)) = (es, inr err)).
  { unfold reformat_files in H. destruct (files_loop _ _ _ _) as [es0 [[ch un]|[e0 f0]]]; [discriminate|].
    injection H as -> _ _. eauto. }
  destruct Hl as [err Hl]. apply nilb_false in Hp. rewrite Hp.
  rewrite (output_paths_in_place a) in * by (split; congruence). rewrite zip2_twice in *.
  destruct (files_stopped R lim a fs (start r) (start r) (twice (paths a)) es err) as
    (before & p & o & after & groups & here & G1 & G2 & G3 & G4 & G5).
  - congruence.
  - rewrite start_effective. apply level_positive.
  - repeat split.
  - apply fresh_twice, Hnd.
  - exact Hl.
  - exists (map fst before), p, (map fst after), groups, here.
    eexists. split; [|split; [exact G2|split; [exact G3|split; [exact G4|split; [|rewrite G5, app_assoc; reflexivity]]]]].
    + rewrite <- (map_fst_twice (paths a)), G1, map_app. reflexivity.
    + destruct (exn_base e) as [| | | | |line expected actual| | | |] eqn:Ee; auto.
      unfold main_shown. cbn [filter shown r_logger r_level]. destruct (Z.leb _ _); [|auto].
      right. exists line, expected, actual. eexists. split; [reflexivity|]. split; [|reflexivity].
      exists (decn line), (decn expected), (decn actual).
      repeat (split; [apply decn_number|]). reflexivity.
Qed.

(** * Examples *)

Definition ex_run (verbose quiet : nat) (names : list path) : raw_args :=
  RawArgs 88 names false verbose quiet false None [] false.

Definition ex_tables : fsys := fun p =>
  if path_eqb p [] then Some (NDir true)
  else if path_eqb p [lit "a.md"] then Some (NFile (lit "#   A" ++ [c_nl]) true true)
  else if path_eqb p [lit "z.md"] then Some (NFile (lit "# Z" ++ [c_nl]) true true)
  else if path_eqb p [lit "t.md"] then
    Some (NFile (lit "|a|b|" ++ [c_nl] ++ lit "|-|-|" ++ [c_nl] ++ lit "|c|" ++ [c_nl]) true true)
  else None.

Example C79_nonvacuous :
  run_shown quoted 9 ex_fs no_glob None (ex_run 0 0 [[lit "a.md"]; [lit "b.md"]]) = []
  /\ run_shown quoted 9 ex_tables no_glob None (ex_run 0 1 [[lit "a.md"]; [lit "t.md"]]) = []
  /\ exists x, run_shown quoted 9 ex_tables no_glob None (ex_run 0 0 [[lit "a.md"]; [lit "t.md"]]) = [x]
       /\ complains 3 2 1 x.
Proof.
  split; [vm_compute; reflexivity|]. split; [vm_compute; reflexivity|]. eexists. split; [vm_compute; reflexivity|].
  exists (decn 3), (decn 2), (decn 1). repeat (split; [apply decn_number|]). vm_compute. reflexivity.
Qed.

Example C79_nonvacuous_interactive :
  In interactive_warning
    (run_shown quoted 9 ex_fs no_glob (Some (lit "a")) (RawArgs 88 [] false 1 0 false (Some [lit "out"]) [] false)).
Proof. vm_compute. auto. Qed.

Example C80_nonvacuous :
  (exists es n, main 9 ex_fs no_glob None (ex_run 2 0 [[lit "a.md"]; [lit "b.md"]]) = (es, Exit n))
  /\ map r_text (run_shown quoted 9 ex_fs no_glob None (ex_run 2 0 [[lit "a.md"]; [lit "b.md"]]))
     = [lit "Line 1: <MarkdownATXHeading: depth=1; content='A'>";
        lit "Line 1: <MarkdownATXHeading: depth=1; content='B'>"].
Proof. split; [eexists _, _|]; vm_compute; reflexivity. Qed.

(** The error does not say which file it is about. *)
Example C80_nonvacuous_stopped :
  map r_text (run_shown quoted 9 ex_tables no_glob None (ex_run 2 0 [[lit "a.md"]; [lit "t.md"]; [lit "z.md"]]))
  = [lit "Line 1: <MarkdownATXHeading: depth=1; content='A'>";
     lit "Lines 1-3: <MarkdownTable: ToDo>";
     lit "Line 3 has unexpected number of columns (expected: 2, actual: 1)"].
Proof. vm_compute. reflexivity. Qed.
