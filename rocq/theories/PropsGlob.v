(** C81: a directory argument stands for the Markdown files below it. *)
From Coq Require Import String.
From Verif Require Import Py Regex Utils TextWrap Lines Detectors Formatters Logging Cli Glob Base
  SpecCli SpecGlob ProofsCli ProofsGlob PropsCli.
Local Open Scope nat_scope.

(** The paths found below a directory whose path has no special characters are those of the
    visible entries whose names end in .md, at any depth, each once. *)
Theorem C81_found_partial : forall fs names depth d w,
  lists_names fs names -> no_deeper depth fs -> fs d = Some (NDir w) -> Forall ordinary d ->
  NoDup (glob_md fs names depth d)
  /\ forall p, In p (glob_md fs names depth d) <-> markdown_below fs d p.
Proof.
  intros fs names depth d w Hn Hd Hw Ho. split; [apply glob_md_nodup; assumption|].
  intros p. apply glob_md_spec; try assumption. unfold is_dir. rewrite Hw. reflexivity.
Qed.

Lemma parse_one fs glob r d w a :
  fs d = Some (NDir w) -> ra_paths r = [d] -> parse_args fs glob r = Accepted a -> paths a = glob d.
Proof.
  intros Hw Hp Ha. destruct (parse_args_accepted _ _ _ _ Ha) as (_ & E & _). rewrite E, Hp.
  unfold expand_paths. cbn [flat_map]. unfold is_file. rewrite Hw, app_nil_r. reflexivity.
Qed.

(** So a run on such a directory, if it completes, formats exactly these, and changes nothing
    else. *)
Theorem C81_run_partial : forall lim fs names depth stdin r d w es,
  lists_names fs names -> no_deeper depth fs -> fs d = Some (NDir w) -> Forall ordinary d ->
  ra_paths r = [d] -> ra_output_directory r = None -> ra_output_files r = [] -> ra_check r = false ->
  main lim fs (glob_md fs names depth) stdin r = (es, Exit 0) ->
  let fs' := apply_effects fs es in
  (forall p, markdown_below fs d p ->
     exists old new, formats_to lim fs (effective_line_length (ra_line_length r)) p old new
       /\ (new <> old -> holds fs' p new) /\ (new = old -> fs' p = fs p))
  /\ (forall q, ~ markdown_below fs d q -> fs' q = fs q).
Proof.
  intros lim fs names depth stdin r d w es Hn Hd Hw Ho Hp Hod Hof Hc H fs'.
  destruct (C81_found_partial fs names depth d w Hn Hd Hw Ho) as [G1 G2].
  destruct (parse_args fs (glob_md fs names depth) r) as [a|status] eqn:Ha.
  2:{ exfalso. unfold main in H. rewrite Ha in H. injection H as _ ->. unfold parse_args in Ha.
      repeat match type of Ha with context[if ?b then _ else _] => destruct b end; discriminate. }
  assert (Ep := parse_one fs _ r d w a Hw Hp Ha).
  destruct (paths a) as [|p0 ps] eqn:Eps.
  - assert (E : forall p, ~ markdown_below fs d p).
    { intros p Hm. apply G2 in Hm. rewrite <- Ep in Hm. exact Hm. }
    split; [intros p Hm; destruct (E p Hm)|]. intros q _. subst fs'.
    assert (F : Forall is_print es).
    { unfold main in H. rewrite Ha, Eps in H. cbn [nilb] in H. destruct stdin as [input|].
      - unfold reformat_stdin in H.
        repeat match type of H with context[match ?b with _ => _ end] => destruct b end; inv H; repeat constructor.
      - inv H. repeat constructor. }
    clear - F. revert fs. induction F as [|e es He F IH]; intros fs; [reflexivity|].
    unfold apply_effects in *. cbn [fold_left]. destruct e; try contradiction. apply IH.
  - rewrite <- Eps in Ep.
    destruct (C43_in_place_run lim fs (glob_md fs names depth) stdin r a es 0%Z Ha) as [H1 H2]; try assumption.
    + rewrite Eps. discriminate.
    + rewrite Ep. exact G1.
    + destruct (parse_args_accepted _ _ _ _ Ha) as (El & _). rewrite Ep, El in *. split.
      * intros p Hm. apply G2 in Hm. destruct (H1 p Hm) as (old & new & F1 & F2 & F3). exists old, new.
        split; [exact F1|]. split; [exact F2|]. intros E. apply (F3 E).
      * intros q Hm. apply H2. intros Hin. apply Hm, G2, Hin.
Qed.

(** But what is found need not be a file: a directory whose name ends in .md is found as well,
    and then no file is formatted at all. *)
Theorem C81_directory : forall lim fs names depth stdin r d w p w',
  lists_names fs names -> no_deeper depth fs -> fs d = Some (NDir w) -> Forall ordinary d ->
  In d (ra_paths r) -> ra_output_directory r = None -> ra_output_files r = [] -> ra_check r = false ->
  markdown_below fs d p -> fs p = Some (NDir w') ->
  exists status, main lim fs (glob_md fs names depth) stdin r = ([], Exit status) /\ status <> 0%Z.
Proof.
  intros lim fs names depth stdin r d w p w' Hn Hd Hw Ho Hp Hod Hof Hc Hm Hw'.
  destruct (C81_found_partial fs names depth d w Hn Hd Hw Ho) as [_ G2]. apply G2 in Hm.
  assert (E : forallb (file_ok fs) (expand_paths fs (glob_md fs names depth) (ra_paths r)) = false).
  { apply not_true_is_false. intros E. rewrite forallb_forall in E. specialize (E p).
    assert (F : file_ok fs p = true).
    { apply E. apply in_flat_map. exists d. split; [exact Hp|]. unfold is_file. rewrite Hw. exact Hm. }
    unfold file_ok, exists_, is_dir in F. rewrite Hw' in F. discriminate. }
  unfold main, parse_args. rewrite Hod, Hof, Hc, E. cbn [nilb negb andb forallb].
  destruct (negb _); [eexists; split; [reflexivity|discriminate]|].
  destruct (ra_developer_help r); eexists; split; try reflexivity; discriminate.
Qed.

(** * Examples *)

(** A file system given by its entries, and the names in its directories. *)
Definition entries_fs (l : list (path * node)) : fsys := fun p =>
  match find (fun e => path_eqb (fst e) p) l with Some e => Some (snd e) | None => None end.
Definition entry_names (l : list (path * node)) (d : path) : list str :=
  flat_map (fun e => match fst e with
                     | [] => []
                     | _ => if path_eqb (removelast (fst e)) d then [last (fst e) []] else []
                     end) l.

Lemma find_entry l p : NoDup (map fst l) ->
  (entries_fs l p <> None <-> In p (map fst l)).
Proof.
  intros H. unfold entries_fs. destruct (find (fun e => path_eqb (fst e) p) l) as [[q n]|] eqn:E.
  - apply find_some in E. destruct E as [E1 E2]. apply path_eqb_eq in E2. cbn in E2. subst q.
    split; [intros _; apply in_map_iff; exists (p, n); auto|discriminate].
  - split; [congruence|]. intros Hin. apply in_map_iff in Hin. destruct Hin as ([q n] & <- & Hin).
    assert (G := find_none _ _ E _ Hin). cbn in G. rewrite path_eqb_refl in G. discriminate.
Qed.

Lemma entry_names_spec l d n : In n (entry_names l d) <-> In (d ++ [n]) (map fst l).
Proof.
  unfold entry_names. rewrite in_flat_map, in_map_iff. split.
  - intros ([q x] & Hin & H). cbn [fst] in H. destruct q as [|c q]; [destruct H|].
    destruct (path_eqb (removelast (c :: q)) d) eqn:E; [|destruct H]. apply path_eqb_eq in E.
    destruct H as [<-|[]]. exists (c :: q, x). split; [|exact Hin]. cbn [fst]. rewrite <- E.
    apply app_removelast_last. discriminate.
  - intros ([q x] & E & Hin). cbn [fst] in E. subst q. exists (d ++ [n], x). split; [exact Hin|]. cbn [fst].
    destruct (d ++ [n]) as [|c q] eqn:E; [destruct d; discriminate|]. rewrite <- E, removelast_last, path_eqb_refl, last_last.
    left. reflexivity.
Qed.

Lemma entry_names_nodup l d : NoDup (map fst l) -> NoDup (entry_names l d).
Proof.
  induction l as [|[q x] l IH]; intros H; [constructor|]. inv H. unfold entry_names. cbn [flat_map fst].
  destruct q as [|c q]; [apply IH; assumption|]. destruct (path_eqb (removelast (c :: q)) d) eqn:E; [|apply IH; assumption].
  apply path_eqb_eq in E. cbn [app]. constructor; [|apply IH; assumption].
  intros Hin. apply entry_names_spec in Hin. rewrite <- E in Hin. rewrite <- app_removelast_last in Hin by discriminate.
  contradiction.
Qed.

Lemma entries_listed l : NoDup (map fst l) -> lists_names (entries_fs l) (entry_names l).
Proof.
  intros H d w _. split; [apply entry_names_nodup, H|]. intros n. rewrite find_entry by exact H. apply entry_names_spec.
Qed.

Lemma entries_depth l k : NoDup (map fst l) -> Forall (fun p => length p <= k) (map fst l) ->
  no_deeper k (entries_fs l).
Proof. intros H Hk p Hp. rewrite Forall_forall in Hk. apply Hk, find_entry; assumption. Qed.

Fixpoint distinctb (l : list path) : bool :=
  match l with [] => true | p :: l' => negb (existsb (path_eqb p) l') && distinctb l' end.
Lemma distinct_dec l : distinctb l = true -> NoDup l.
Proof.
  induction l as [|p l IH]; intros H; [constructor|]. cbn in H. apply andb_prop in H. destruct H as [H1 H2].
  constructor; [|apply IH, H2]. intros Hin. apply negb_true_iff in H1. apply not_true_iff_false in H1. apply H1.
  apply existsb_exists. exists p. split; [exact Hin|apply path_eqb_refl].
Qed.

Definition text_file : node := NFile (lit "#   A" ++ [c_nl]) true true.
Definition ex_tree : list (path * node) :=
  [([], NDir true); ([lit "docs"], NDir true); ([lit "docs"; lit "a.md"], text_file);
   ([lit "docs"; lit "b.txt"], text_file); ([lit "docs"; lit ".c.md"], text_file);
   ([lit "docs"; lit "sub"], NDir true); ([lit "docs"; lit "sub"; lit "d.md"], text_file);
   ([lit "docs"; lit ".git"], NDir true); ([lit "docs"; lit ".git"; lit "e.md"], text_file);
   ([lit "old"], NDir true); ([lit "old"; lit "a.md"], text_file); ([lit "old"; lit "x.md"], NDir true);
   ([lit "v[1]"], NDir true); ([lit "v[1]"; lit "a.md"], text_file);
   ([lit "v1"], NDir true); ([lit "v1"; lit "b.md"], text_file)].

Example C81_nonvacuous :
  lists_names (entries_fs ex_tree) (entry_names ex_tree) /\ no_deeper 9 (entries_fs ex_tree)
  /\ Forall ordinary [lit "docs"]
  /\ glob_md (entries_fs ex_tree) (entry_names ex_tree) 9 [lit "docs"]
     = [[lit "docs"; lit "a.md"]; [lit "docs"; lit "sub"; lit "d.md"]]
  /\ snd (main 9 (entries_fs ex_tree) (glob_md (entries_fs ex_tree) (entry_names ex_tree) 9) None
            (RawArgs 88 [[lit "docs"]] false 0 0 false None [] false)) = Exit 0.
Proof.
  assert (D : NoDup (map fst ex_tree)) by (apply distinct_dec; vm_compute; reflexivity).
  split; [apply entries_listed, D|]. split.
  { apply entries_depth; [exact D|]. apply Forall_forall. intros p Hp.
    assert (G : forallb (fun p => length p <=? 9) (map fst ex_tree) = true) by (vm_compute; reflexivity).
    rewrite forallb_forall in G. apply Nat.leb_le, G, Hp. }
  split; [constructor; [apply magic_ordinary; reflexivity|constructor]|]. split; vm_compute; reflexivity.
Qed.

Example C81_nonvacuous_directory :
  main 9 (entries_fs ex_tree) (glob_md (entries_fs ex_tree) (entry_names ex_tree) 9) None
    (RawArgs 88 [[lit "old"]] false 0 0 false None [] false) = ([], Exit 255).
Proof. vm_compute. reflexivity. Qed.

(** The path of the directory is read as a pattern: the files in a directory whose name has
    brackets are not found, and those of another one are. *)
Theorem C81_refuted :
  ~ (forall fs names depth d w, lists_names fs names -> no_deeper depth fs -> fs d = Some (NDir w) ->
       forall p, In p (glob_md fs names depth d) <-> markdown_below fs d p).
Proof.
  intros H. destruct C81_nonvacuous as (H1 & H2 & _).
  assert (G := H _ _ 9 [lit "v[1]"] true H1 H2 eq_refl).
  assert (E : glob_md (entries_fs ex_tree) (entry_names ex_tree) 9 [lit "v[1]"] = [[lit "v1"; lit "b.md"]])
    by (vm_compute; reflexivity).
  assert (F : In [lit "v[1]"; lit "a.md"] (glob_md (entries_fs ex_tree) (entry_names ex_tree) 9 [lit "v[1]"])).
  { apply G. exists [lit "v[1]"], (lit "a"). split; [eapply under_self; reflexivity|]. split; [intros r; discriminate|].
    split; [reflexivity|]. vm_compute. discriminate. }
  rewrite E in F. destruct F as [F|[]]. vm_compute in F. discriminate.
Qed.

Theorem C81_files_refuted :
  ~ (forall fs names depth d w, lists_names fs names -> no_deeper depth fs -> fs d = Some (NDir w) -> Forall ordinary d ->
       forall p, In p (glob_md fs names depth d) -> exists s, holds fs p s).
Proof.
  intros H. destruct C81_nonvacuous as (H1 & H2 & _).
  destruct (H _ _ 9 [lit "old"] true H1 H2 eq_refl ltac:(constructor; [apply magic_ordinary; reflexivity|constructor])
    [lit "old"; lit "x.md"] ltac:(vm_compute; auto)) as (s & r & w & E). vm_compute in E. discriminate.
Qed.
