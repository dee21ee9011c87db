(** Property C67: how the lines of a file end does not matter. *)
From Coq Require Import String.
From Verif Require Import Py Regex Utils TextWrap Lines Detectors Formatters Logging Cli.
From Verif Require Import Base SpecCli ProofsCli PropsCli.

(** * Runs *)

Section Same.
  Context (fs fs' : fsys) (H : same_files fs fs').

  Lemma same_read p : read_text fs p = read_text fs' p.
  Proof.
    specialize (H p). unfold read_text. destruct (fs p) as [[s r w|w]|], (fs' p) as [[s' r' w'|w']|]; try contradiction; auto.
    destruct H as (Hs & -> & _). destruct r'; [|reflexivity]. f_equal. apply universal_lines. exact Hs.
  Qed.
  Lemma same_write p t : write_text fs p t = write_text fs' p t.
  Proof.
    assert (G := H (path_parent p)). specialize (H p). unfold write_text.
    destruct (fs p) as [[s r w|w]|], (fs' p) as [[s' r' w'|w']|]; try contradiction; auto.
    - destruct H as (_ & _ & ->). reflexivity.
    - destruct (fs (path_parent p)) as [[]|], (fs' (path_parent p)) as [[]|]; try contradiction; subst; auto.
  Qed.
  Lemma same_exists p : exists_ fs p = exists_ fs' p.
  Proof. specialize (H p). unfold exists_. destruct (fs p) as [[]|], (fs' p) as [[]|]; try contradiction; auto. Qed.
  Lemma same_is_dir p : is_dir fs p = is_dir fs' p.
  Proof. specialize (H p). unfold is_dir. destruct (fs p) as [[]|], (fs' p) as [[]|]; try contradiction; auto. Qed.
  Lemma same_is_file p : is_file fs p = is_file fs' p.
  Proof. specialize (H p). unfold is_file. destruct (fs p) as [[]|], (fs' p) as [[]|]; try contradiction; auto. Qed.
  Lemma same_can_write p : can_write fs p = can_write fs' p.
  Proof. specialize (H p). unfold can_write. destruct (fs p) as [[]|], (fs' p) as [[]|]; try contradiction; auto; tauto. Qed.
  Lemma same_file_ok p : file_ok fs p = file_ok fs' p.
  Proof. unfold file_ok. rewrite !same_exists, !same_is_dir, !same_can_write. reflexivity. Qed.
  Lemma same_parse glob r : parse_args fs glob r = parse_args fs' glob r.
  Proof.
    assert (F : forall f g (l : list path), (forall x, f x = g x) -> forallb f l = forallb g l).
    { intros f g l E. induction l as [|x l IH]; cbn; [reflexivity|]. rewrite E, IH. reflexivity. }
    unfold parse_args. rewrite (F (existing_path_ok fs) (existing_path_ok fs')) by (intros; apply same_exists).
    rewrite (F (file_ok fs) (file_ok fs')) by apply same_file_ok.
    assert (E : expand_paths fs glob (ra_paths r) = expand_paths fs' glob (ra_paths r)).
    { unfold expand_paths. apply flat_map_ext. intros p. rewrite same_is_file. reflexivity. }
    rewrite E. rewrite (F (file_ok fs) (file_ok fs')) by apply same_file_ok.
    destruct (ra_output_directory r) as [d|]; [|reflexivity]. unfold directory_ok.
    rewrite same_exists, same_is_dir, same_can_write. reflexivity.
  Qed.
  (** Writing makes the files equal. *)
  Lemma same_written p t es : write_text fs p t = Ok es -> same_files (apply_effects fs es) (apply_effects fs' es).
  Proof.
    intros E q. assert (Hes : es = [Truncate p; Append p t]).
    { unfold write_text in E. destruct (fs p) as [[? ? []|]|]; try discriminate; [injection E as <-; reflexivity|].
      destruct (fs (path_parent p)) as [[|[]]|]; try discriminate. injection E as <-. reflexivity. }
    subst es. unfold apply_effects. cbn [fold_left].
    assert (G := H q). assert (Gp := H p). cbn [apply_effect].
    destruct (fs p) as [[s r w|w]|] eqn:Ep, (fs' p) as [[s' r' w'|w']|] eqn:Ep'; try contradiction.
    - destruct Gp as (_ & -> & ->). rewrite !update_same. cbn [app].
      destruct (path_eqb q p) eqn:Eq.
      + apply path_eqb_eq in Eq. subst q. rewrite !update_same. split; [apply same_lines_refl|auto].
      + apply path_eqb_neq in Eq. rewrite !update_other by exact Eq. exact G.
    - rewrite Ep, Ep'. exact G.
    - rewrite !update_same. cbn [app]. destruct (path_eqb q p) eqn:Eq.
      + apply path_eqb_eq in Eq. subst q. rewrite !update_same. split; [apply same_lines_refl|auto].
      + apply path_eqb_neq in Eq. rewrite !update_other by exact Eq. exact G.
  Qed.
End Same.

Lemma same_files_out fs fs' s : same_files fs fs' ->
  same_files (apply_effects fs [Out s]) (apply_effects fs' [Out s]).
Proof. intros H. exact H. Qed.

Lemma same_renders lim fs fs' i o w : same_files fs fs' ->
  do_write_renders lim fs i o w = do_write_renders lim fs' i o w
  /\ same_files (apply_effects fs (fst (do_write_renders lim fs i o w)))
                (apply_effects fs' (fst (do_write_renders lim fs i o w))).
Proof.
  intros H. unfold do_write_renders. destruct (render_names _) as [n1 n2]. rewrite (same_read fs fs' H i).
  destruct (read_text fs' i) as [t|e]; cbn [bind]; [|split; [reflexivity|exact H]].
  destruct (reformat_pass lim t w) as [c1|e]; cbn [bind]; [|split; [reflexivity|exact H]].
  set (p1 := path_join (path_parent o) n1). set (p2 := path_join (path_parent o) n2).
  assert (W := same_written fs fs' H p1 c1). rewrite <- (same_write fs fs' H p1).
  destruct (write_text fs p1 c1) as [es1|e]; cbn [bind]; [|split; [reflexivity|exact H]].
  specialize (W es1 eq_refl). destruct (reformat_pass lim c1 w) as [c2|e]; cbn [bind]; [|split; [reflexivity|exact W]].
  assert (W2 := same_written _ _ W p2 c2). rewrite <- (same_write _ _ W p2).
  destruct (write_text (apply_effects fs es1) p2 c2) as [es2|e]; [|split; [reflexivity|exact W]].
  split; [reflexivity|]. cbn [fst]. rewrite !apply_effects_app. apply W2. reflexivity.
Qed.

Lemma same_reformat_file lim a fs fs' i o : same_files fs fs' ->
  reformat_file lim a fs i o = reformat_file lim a fs' i o
  /\ same_files (apply_effects fs (fst (reformat_file lim a fs i o)))
                (apply_effects fs' (fst (reformat_file lim a fs i o))).
Proof.
  intros H. unfold reformat_file. rewrite (same_read fs fs' H i).
  destruct (read_text fs' i) as [t|e]; [|split; [reflexivity|exact H]].
  destruct (reformat_markdown_text lim t (line_length a)) as [t'|e].
  - assert (W := same_written fs fs' H o t'). rewrite <- (same_write fs fs' H o).
    destruct (negb (str_eqb t' t)); [destruct (negb (check a))|destruct (negb (path_eqb o i))];
      try (split; [reflexivity|exact H]).
    + destruct (write_text fs o t') as [es|e]; [|split; [reflexivity|exact H]]. split; [reflexivity|].
      cbn [fst]. rewrite !apply_effects_app. apply same_files_out. apply W. reflexivity.
    + destruct (write_text fs o t') as [es|e]; [|split; [reflexivity|exact H]]. split; [reflexivity|].
      apply W. reflexivity.
  - destruct (is_runtime_error e); [|split; [reflexivity|exact H]].
    destruct (write_renders a && is_inconsistent e); [|split; [reflexivity|exact H]].
    destruct (same_renders lim fs fs' i o (line_length a) H) as [E S]. rewrite <- E.
    destruct (do_write_renders lim fs i o (line_length a)) as [es [e'|]]; split; auto.
Qed.

Lemma same_files_loop lim a ps fs fs' : same_files fs fs' ->
  files_loop lim a fs ps = files_loop lim a fs' ps
  /\ same_files (apply_effects fs (fst (files_loop lim a fs ps)))
                (apply_effects fs' (fst (files_loop lim a fs ps))).
Proof.
  revert fs fs'. induction ps as [|[i o] ps IH]; intros fs fs' H; cbn [files_loop]; [split; [reflexivity|exact H]|].
  destruct (same_reformat_file lim a fs fs' i o H) as [E S]. rewrite <- E.
  destruct (reformat_file lim a fs i o) as [es [changed|err]]; cbn [fst] in S; [|split; [reflexivity|exact S]].
  destruct (IH _ _ S) as [E2 S2]. rewrite <- E2.
  destruct (files_loop lim a (apply_effects fs es) ps) as [es2 r]. cbn [fst] in *.
  split; [reflexivity|]. rewrite !apply_effects_app. exact S2.
Qed.

(** A file is read as its lines, with a newline at the end of each. *)
Theorem C67_lines_read : forall fs p s w,
  fs p = Some (NFile s true w) ->
  exists text, read_text fs p = Ok text /\ same_lines s text /\ ~ In c_cr text.
Proof.
  intros fs p s w E. exists (universal_newlines s). unfold read_text. rewrite E. split; [reflexivity|].
  apply universal_same.
Qed.

(** Runs on files, or a standard input, that differ in their line endings only do and say
    the same. *)
Theorem C67_line_endings_do_not_matter : forall lim fs fs' glob stdin stdin' r,
  same_files fs fs' -> same_input stdin stdin' ->
  main lim fs glob stdin r = main lim fs' glob stdin' r
  /\ forall es o, main lim fs glob stdin r = (es, o) ->
       same_files (apply_effects fs es) (apply_effects fs' es).
Proof.
  intros lim fs fs' glob stdin stdin' r H Hi.
  assert (G : main lim fs glob stdin r = main lim fs' glob stdin' r
    /\ same_files (apply_effects fs (fst (main lim fs glob stdin r)))
                  (apply_effects fs' (fst (main lim fs glob stdin r)))).
  { unfold main. rewrite <- (same_parse fs fs' H). destruct (parse_args fs glob r) as [a|st]; [|split; [reflexivity|exact H]].
    destruct (nilb (paths a)).
    - destruct stdin as [t|], stdin' as [t'|]; try contradiction; [|split; [reflexivity|exact H]].
      cbn in Hi. rewrite <- (universal_lines _ _ Hi). split; [reflexivity|]. generalize (universal_newlines t). clear t t' Hi. intros t.
      assert (P : forall es, (forall e, In e es -> is_print e) -> same_files (apply_effects fs es) (apply_effects fs' es)).
      { intros es He q. assert (K : forall f, apply_effects f es q = f q).
        { intros f. apply apply_effects_other. intros e Hi. specialize (He e Hi). destruct e; cbn in *; tauto. }
        rewrite !K. apply H. }
      apply P. unfold reformat_stdin. intros e He.
      destruct (reformat_markdown_text lim t (line_length a)); [destruct (check a); [destruct (negb _)|]|];
        try (destruct He as [<-|[]]; exact I).
      destruct (_ && _); [|destruct He]. destruct (reformat_pass lim t (line_length a)) as [c|]; [|destruct He].
      destruct (reformat_pass lim c (line_length a)); [destruct He as [<-|[<-|[]]]|destruct He as [<-|[]]]; exact I.
    - unfold reformat_files. destruct (same_files_loop lim a (zip2 (paths a) (output_paths a)) fs fs' H) as [E S].
      rewrite <- E. destruct (files_loop lim a fs (zip2 (paths a) (output_paths a))) as [es [[c u]|[e f]]]; cbn [fst] in *.
      + split; [reflexivity|]. rewrite !apply_effects_app. exact S.
      + split; [reflexivity|exact S]. }
  destruct G as [G1 G2]. split; [exact G1|]. intros es o E. rewrite E in G2. exact G2.
Qed.

Definition ex_endings (e : str) : fsys := fun p =>
  if path_eqb p [] then Some (NDir true)
  else if path_eqb p [lit "a.md"] then Some (NFile (lit "#   A" ++ e ++ lit "a  b" ++ e) true true)
  else None.

Example C67_nonvacuous :
  same_files (ex_endings [c_cr]) (ex_endings [c_cr; c_nl])
  /\ ex_endings [c_cr] <> ex_endings [c_cr; c_nl]
  /\ exists es, main 9 (ex_endings [c_cr]) no_glob None (ex_args [[lit "a.md"]]) = (es, Exit 0)
     /\ apply_effects (ex_endings [c_cr]) es [lit "a.md"]
        = Some (NFile (lit "# A" ++ [c_nl] ++ lit "a b" ++ [c_nl]) true true).
Proof.
  split; [|split; [|eexists; split; vm_compute; reflexivity]].
  - intros p. unfold ex_endings. destruct (path_eqb p []); [reflexivity|].
    destruct (path_eqb p [lit "a.md"]); [|exact I]. split; [|auto].
    do 5 (apply same_lines_char; [discriminate|discriminate|]).
    apply same_lines_ending; [cbn; auto|cbn; auto|discriminate|discriminate|].
    do 4 (apply same_lines_char; [discriminate|discriminate|]).
    apply (same_lines_ending [c_cr] [c_cr; c_nl] [] []); [cbn; auto|cbn; auto|discriminate|discriminate|constructor].
  - intros E. apply (f_equal (fun f : fsys => f [lit "a.md"])) in E. vm_compute in E. discriminate.
Qed.

Example C67_input_nonvacuous :
  let input e := lit "#   A" ++ e ++ lit "a" in
  same_input (Some (input [c_cr])) (Some (input [c_cr; c_nl]))
  /\ main 9 (ex_endings [c_cr]) no_glob (Some (input [c_cr])) (ex_args [])
     = ([Out (lit "# A" ++ [c_nl] ++ lit "a" ++ [c_nl])], Exit 0).
Proof.
  cbv zeta. split; [|vm_compute; reflexivity].
  do 5 (apply same_lines_char; [discriminate|discriminate|]).
  apply same_lines_ending; [cbn; auto|cbn; auto|discriminate|discriminate|].
  apply same_lines_char; [discriminate|discriminate|constructor].
Qed.
