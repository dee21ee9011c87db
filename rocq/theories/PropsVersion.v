(** C72: starting, and the version. *)
From Coq Require Import String.
From Verif Require Import Py Regex Base SpecLines ProofsRegex Formatters Cli SpecCli Version SpecVersion.

(** * The patterns *)

Lemma run_unique (p : char -> bool) a c x : forall a' c' x',
  Forall (fun d => p d = true) a -> Forall (fun d => p d = true) a' -> p c = false -> p c' = false ->
  a ++ c :: x = a' ++ c' :: x' -> a = a' /\ c = c' /\ x = x'.
Proof.
  induction a as [|d a IH]; intros [|d' a'] c' x' H H' Hc Hc' E; cbn [app] in E.
  - injection E as -> ->. auto.
  - injection E as E _. apply Forall_inv in H'. congruence.
  - injection E as E _. apply Forall_inv in H. congruence.
  - injection E as -> E. apply IH in E; eauto using Forall_inv_tail. destruct E as (-> & -> & ->). auto.
Qed.

Lemma den_app r1 r2 : forall s, den (r1 ++ r2) s <-> exists a b, s = a ++ b /\ den r1 a /\ den r2 b.
Proof.
  induction r1 as [|[p|p|p k] r1 IH]; intros s; cbn [app den].
  - split; [intros H; exists [], s; auto|intros (a & b & -> & -> & H); exact H].
  - split.
    + intros (c & s' & -> & Hc & H). apply IH in H. destruct H as (a & b & -> & H1 & H2). exists (c :: a), b. split; [reflexivity|]. eauto 12.
    + intros (a & b & -> & (c & s' & -> & Hc & H1) & H2). exists c, (s' ++ b). split; [reflexivity|]. split; [exact Hc|]. apply IH. eauto 12.
  - split.
    + intros (u & v & -> & Hu & H). apply IH in H. destruct H as (a & b & -> & H1 & H2). exists (u ++ a), b. rewrite app_assoc. split; [reflexivity|]. eauto 12.
    + intros (a & b & -> & (u & v & -> & Hu & H1) & H2). exists u, (v ++ b). rewrite app_assoc. split; [reflexivity|]. split; [exact Hu|]. apply IH. eauto 12.
  - split.
    + intros (u & v & -> & Hu & Hk & H). apply IH in H. destruct H as (a & b & -> & H1 & H2). exists (u ++ a), b. rewrite app_assoc. split; [reflexivity|]. eauto 12.
    + intros (a & b & -> & (u & v & -> & Hu & Hk & H1) & H2). exists u, (v ++ b). rewrite app_assoc. split; [reflexivity|]. split; [exact Hu|]. split; [exact Hk|]. apply IH. eauto 12.
Qed.

Lemma den_literally l s : den (literally l) s <-> s = l.
Proof.
  revert s. induction l as [|c l IH]; intros s; cbn; [reflexivity|]. split.
  - intros (d & s' & -> & Hc & H). apply N.eqb_eq in Hc. apply IH in H. congruence.
  - intros ->. exists c, l. split; [reflexivity|]. split; [apply N.eqb_refl|]. apply IH. reflexivity.
Qed.

Lemma den_prefix s : den PYPROJECT_VERSION_PREFIX s <->
  exists a b c, spaces a /\ spaces b /\ spaces c /\ s = a ++ lit "version" ++ b ++ [c_eq] ++ c ++ [c_dquote].
Proof.
  unfold PYPROJECT_VERSION_PREFIX. cbn [app]. cbn [den]. split.
  - intros (a & s1 & -> & Ha & H). rewrite den_app in H. destruct H as (v & s2 & -> & Hv & H). apply den_literally in Hv. subst v.
    cbn [den Is] in H. destruct H as (b & s3 & -> & Hb & x & s4 & -> & Hx & c & s5 & -> & Hc & y & s6 & -> & Hy & ->).
    apply N.eqb_eq in Hx, Hy. subst x y. exists a, b, c. auto.
  - intros (a & b & c & Ha & Hb & Hc & ->). do 2 eexists. split; [reflexivity|]. split; [exact Ha|].
    apply den_app. do 2 eexists. split; [reflexivity|]. split; [apply den_literally; reflexivity|].
    cbn [den Is]. exists b. eexists. split; [reflexivity|]. split; [exact Hb|]. do 2 eexists. split; [reflexivity|]. split; [reflexivity|].
    exists c. eexists. split; [reflexivity|]. split; [exact Hc|]. do 2 eexists. split; [reflexivity|]. split; reflexivity.
Qed.

Lemma version_char_spec c : version_char c = true <-> (48 <= c <= 57)%N \/ c = c_dot.
Proof. unfold version_char, is_digit. rewrite Bool.orb_true_iff, Bool.andb_true_iff, !N.leb_le, N.eqb_eq. reflexivity. Qed.

Lemma den_version s r : den (Plus version_char ++ r) s <-> exists v t, s = v ++ t /\ plain_version v /\ den r t.
Proof.
  unfold Plus. cbn [app den]. split.
  - intros (c & s' & -> & Hc & a & b & -> & Ha & H). exists (c :: a), b. split; [reflexivity|]. split; [|exact H].
    split; [discriminate|]. constructor; [apply version_char_spec; exact Hc|]. eapply Forall_impl; [|exact Ha]. intros d. apply version_char_spec.
  - intros (v & t & -> & (Hn & Hv) & H). destruct v as [|c v]; [congruence|]. inversion Hv as [|? ? H1 H2]; subst. exists c. eexists. split; [reflexivity|].
    split; [apply version_char_spec; assumption|]. exists v, t. split; [reflexivity|]. split; [|exact H].
    eapply Forall_impl; [|exact H2]. intros d. apply version_char_spec.
Qed.

Lemma plain_version_chars v : plain_version v -> Forall (fun c => version_char c = true) v.
Proof. intros [_ H]. eapply Forall_impl; [|exact H]. intros c. apply version_char_spec. Qed.

Lemma prefix_unique p p' x x' : den PYPROJECT_VERSION_PREFIX p -> den PYPROJECT_VERSION_PREFIX p' -> p ++ x = p' ++ x' -> p = p' /\ x = x'.
Proof.
  intros H H' E. apply den_prefix in H. apply den_prefix in H'.
  destruct H as (a & b & c & Ha & Hb & Hc & ->). destruct H' as (a' & b' & c' & Ha' & Hb' & Hc' & ->).
  repeat rewrite <- app_assoc in E. change (lit "version") with (118%N :: lit "ersion") in E. cbn [app] in E.
  apply (run_unique is_space) in E; auto. destruct E as (-> & _ & E). apply app_inv_head in E.
  apply (run_unique is_space) in E; auto. destruct E as (-> & _ & E). apply (run_unique is_space) in E; auto. destruct E as (-> & _ & ->).
  auto.
Qed.

Lemma firstn_prefix {A} n (s : list A) : exists t, s = firstn n s ++ t.
Proof. exists (skipn n s). symmetry. apply firstn_skipn. Qed.

Lemma declares_prefix line v : declares line v <-> exists p rest, den PYPROJECT_VERSION_PREFIX p /\ plain_version v /\ line = p ++ v ++ c_dquote :: rest.
Proof.
  split.
  - intros (a & b & c & rest & Ha & Hb & Hc & Hv & ->). exists (a ++ lit "version" ++ b ++ [c_eq] ++ c ++ [c_dquote]), rest.
    split; [apply den_prefix; eauto 8|]. split; [exact Hv|]. repeat rewrite <- app_assoc. reflexivity.
  - intros (p & rest & Hp & Hv & ->). apply den_prefix in Hp. destruct Hp as (a & b & c & Ha & Hb & Hc & ->).
    exists a, b, c, rest. do 4 (split; [assumption|]). repeat rewrite <- app_assoc. reflexivity.
Qed.

Lemma pyproject_version_spec line v : pyproject_version line = Some v <-> declares line v.
Proof.
  assert (S : forall v, pyproject_version line = Some v -> declares line v).
  { intros u H. unfold pyproject_version in H.
    destruct (rmatch PYPROJECT_VERSION_PREFIX line) as [n|] eqn:E1; [|discriminate].
    destruct (rmatch PYPROJECT_VERSION_REGEX line) as [m|] eqn:E2; [|discriminate]. injection H as <-.
    apply rmatch_den in E1, E2. destruct E1 as [L1 D1]. destruct E2 as [L2 D2].
    unfold PYPROJECT_VERSION_REGEX in D2. apply den_app in D2. destruct D2 as (p & x & Ep & Dp & Dx).
    apply den_version in Dx. destruct Dx as (u & t & -> & Hu & Dt).
    cbn [den Is] in Dt. destruct Dt as (q & z & -> & Hq & ->). apply N.eqb_eq in Hq. subst q.
    destruct (firstn_prefix n line) as [r1 R1]. destruct (firstn_prefix m line) as [r2 R2]. rewrite Ep in R2.
    assert (Em : m = length p + (length u + 1)).
    { rewrite <- (firstn_length_le line L2), Ep, !app_length. reflexivity. }
    assert (En : n = length p).
    { assert (E : firstn n line ++ r1 = p ++ (u ++ [c_dquote]) ++ r2) by (rewrite <- R1, R2, <- app_assoc; reflexivity).
      apply prefix_unique in E; auto. destruct E as [<- _]. symmetry. apply firstn_length_le. exact L1. }
    apply declares_prefix. exists p, r2. split; [exact Dp|].
    assert (Eu : slice line n (m - 1) = u).
    { unfold slice. rewrite R2, Em, En. rewrite <- app_assoc, skipn_app, skipn_all, Nat.sub_diag. cbn [skipn app].
      replace (length p + (length u + 1) - 1 - length p) with (length u) by lia.
      rewrite <- app_assoc, firstn_app, firstn_all, Nat.sub_diag. cbn [firstn]. apply app_nil_r. }
    rewrite Eu. split; [exact Hu|]. rewrite R2. repeat rewrite <- app_assoc. reflexivity. }
  split; [apply S|]. intros H. apply declares_prefix in H. destruct H as (p & rest & Hp & Hv & E).
  assert (E1 : rmatch PYPROJECT_VERSION_PREFIX line <> None) by (rewrite E; apply den_rmatch; exact Hp).
  assert (E2 : rmatch PYPROJECT_VERSION_REGEX line <> None).
  { rewrite E. change (c_dquote :: rest) with ([c_dquote] ++ rest). rewrite (app_assoc v), app_assoc. apply den_rmatch. unfold PYPROJECT_VERSION_REGEX.
    apply den_app. do 2 eexists. split; [reflexivity|]. split; [exact Hp|]. apply den_version. do 2 eexists. split; [reflexivity|].
    split; [exact Hv|]. cbn [den Is]. do 2 eexists. split; [reflexivity|]. split; reflexivity. }
  assert (G : exists u, pyproject_version line = Some u).
  { unfold pyproject_version. destruct (rmatch PYPROJECT_VERSION_PREFIX line); [|congruence].
    destruct (rmatch PYPROJECT_VERSION_REGEX line); [|congruence]. eauto. }
  destruct G as [u G]. rewrite G. apply S in G. apply declares_prefix in G. destruct G as (p' & rest' & Hp' & Hu & E').
  rewrite E in E'. apply prefix_unique in E'; auto. destruct E' as [_ E'].
  apply (run_unique version_char) in E'; auto using plain_version_chars. destruct E' as (<- & _). reflexivity.
Qed.

Lemma ships_unique name folder v v' : ships name folder v -> ships name folder v' -> v = v'.
Proof.
  intros (r & Hv & ->) (r' & Hv' & E). apply app_inv_head in E. apply app_inv_head in E.
  change (lit ".dist-info") with ([c_dot] ++ [100%N] ++ lit "ist-info") in E.
  rewrite <- !app_assoc in E. rewrite (app_assoc v), (app_assoc v') in E. cbn [app] in E.
  apply (run_unique version_char) in E; [|apply Forall_app; split; [apply plain_version_chars; assumption|repeat constructor]..|reflexivity|reflexivity].
  destruct E as (E & _). apply app_inj_tail in E. tauto.
Qed.

Lemma folder_version_spec name folder v : folder_version name folder = Some v <-> ships name folder v.
Proof.
  assert (S : forall v, folder_version name folder = Some v -> ships name folder v).
  { intros u H. unfold folder_version in H. destruct (rmatch _ folder) as [m|] eqn:E; [|discriminate]. apply (f_equal (fun x => match x with Some y => y | None => [] end)) in H. cbn beta iota in H. subst u.
    apply rmatch_den in E. destruct E as [L D]. unfold SITE_PACKAGES_VERSION_REGEX in D. apply den_app in D.
    destruct D as (p & x & Ep & Dp & Dx). apply den_literally in Dp. subst p. apply den_version in Dx.
    destruct Dx as (u & t & -> & Hu & Dt). apply den_literally in Dt. subst t.
    destruct (firstn_prefix m folder) as [r R]. rewrite Ep in R.
    assert (Em : m = length (name ++ [c_dash]) + (length u + length (lit ".dist-info"))).
    { rewrite <- (firstn_length_le folder L), Ep, !app_length. reflexivity. }
    assert (Eu : slice folder (length name + 1) (m - length (lit ".dist-info")) = u).
    { unfold slice. rewrite R, Em. replace (length name + 1) with (length (name ++ [c_dash])) by (rewrite app_length; reflexivity).
      rewrite <- app_assoc, skipn_app, skipn_all, Nat.sub_diag. cbn [skipn app].
      match goal with |- firstn ?k _ = _ => replace k with (length u) by lia end.
      rewrite <- app_assoc, firstn_app, firstn_all, Nat.sub_diag. cbn [firstn]. apply app_nil_r. }
    rewrite Eu. exists r. split; [exact Hu|]. rewrite R. repeat rewrite <- app_assoc. reflexivity. }
  split; [apply S|]. intros H. assert (H' := H). destruct H as (rest & Hv & E).
  assert (E2 : rmatch (SITE_PACKAGES_VERSION_REGEX name) folder <> None).
  { rewrite E. rewrite (app_assoc name), (app_assoc v), app_assoc. apply den_rmatch. unfold SITE_PACKAGES_VERSION_REGEX.
    apply den_app. do 2 eexists. split; [reflexivity|]. split; [apply den_literally; reflexivity|]. apply den_version.
    do 2 eexists. split; [reflexivity|]. split; [exact Hv|]. apply den_literally. reflexivity. }
  assert (G : exists u, folder_version name folder = Some u).
  { unfold folder_version. destruct (rmatch _ folder); [eauto|congruence]. }
  destruct G as [u G]. rewrite G. apply S in G. f_equal. eapply ships_unique; eassumption.
Qed.

Lemma first_some_spec (f : str -> option str) (P : str -> str -> Prop) :
  (forall x v, f x = Some v <-> P x v) ->
  forall l, (forall v, first_some f l = Some v <-> first_with P l v)
    /\ (first_some f l = None <-> forall x v, In x l -> ~ P x v).
Proof.
  intros S. induction l as [|x l [IH1 IH2]]; cbn [first_some].
  - split.
    + intros v. split; [discriminate|]. intros (b & y & a & E & _). destruct b; discriminate.
    + split; [intros _ x v []|reflexivity].
  - destruct (f x) as [u|] eqn:E.
    + assert (Pu := proj1 (S _ _) E). split.
      * intros v. split.
        -- intros G. injection G as <-. exists [], x, l. auto.
        -- intros (b & y & a & El & Py & Hb). destruct b as [|z b]; cbn [app] in El; injection El as <- ->.
           ++ apply S in Py. congruence.
           ++ exfalso. apply Forall_inv in Hb. exact (Hb u Pu).
      * split; [discriminate|]. intros H. exfalso. apply (H x u); [left; reflexivity|exact Pu].
    + assert (Nx : forall v, ~ P x v) by (intros v Hv; apply S in Hv; congruence). split.
      * intros v. rewrite IH1. split.
        -- intros (b & y & a & -> & Py & Hb). exists (x :: b), y, a. auto.
        -- intros (b & y & a & El & Py & Hb). destruct b as [|z b]; cbn [app] in El; injection El as <- ->.
           ++ exfalso. exact (Nx v Py).
           ++ exists b, y, a. split; [reflexivity|]. split; [exact Py|]. exact (Forall_inv_tail Hb).
      * rewrite IH2. split.
        -- intros H y v [<-|Hy]; [apply Nx|apply H; exact Hy].
        -- intros H y v Hy. apply H. right. exact Hy.
Qed.

(** * The version *)

(** Beside a pyproject.toml the version is that of its first line that declares one, whatever
    section the line is in; there is none if no line declares a version of digits and dots. *)
Theorem C72_development : forall text folders name,
  (forall shown, get_version (Installation (Some text) folders name) = Some shown
     <-> exists v, first_with declares (splitlines text) v /\ shown = v ++ lit " (development)")
  /\ (get_version (Installation (Some text) folders name) = None
      <-> forall line v, In line (splitlines text) -> ~ declares line v).
Proof.
  intros text folders name. unfold get_version. cbn [in_pyproject].
  destruct (first_some_spec pyproject_version declares pyproject_version_spec (splitlines text)) as [H1 H2]. split.
  - intros shown. split.
    + intros H. destruct (first_some pyproject_version (splitlines text)) as [v|] eqn:E; [|discriminate]. cbn [option_map] in H.
      injection H as <-. exists v. split; [apply H1; reflexivity|reflexivity].
    + intros (v & H & ->). apply H1 in H. rewrite H. reflexivity.
  - rewrite <- H2. destruct (first_some pyproject_version (splitlines text)); cbn [option_map]; split; congruence.
Qed.

(** Otherwise it is in the name of the first folder for an installed version. *)
Theorem C72_installed : forall folders name,
  (forall shown, get_version (Installation None folders name) = Some shown <-> first_with (ships name) folders shown)
  /\ (get_version (Installation None folders name) = None
      <-> forall folder v, In folder folders -> ~ ships name folder v).
Proof.
  intros folders name. unfold get_version. cbn [in_pyproject in_folders in_install_name].
  apply first_some_spec. apply folder_version_spec.
Qed.

(** Without a version nothing can be run: whatever the arguments, the process writes nothing
    and ends with status 1. With one, it does not influence the run. *)
Theorem C72_needed_for_every_run : forall inst lim fs glob stdin r,
  (get_version inst = None ->
     launch inst lim fs glob stdin r = NoVersion /\ launched_status (launch inst lim fs glob stdin r) = 1%Z)
  /\ (forall v, get_version inst = Some v ->
     exists es o, main lim fs glob stdin r = (es, o) /\ launch inst lim fs glob stdin r = Launched es o
       /\ launched_status (launch inst lim fs glob stdin r) = exit_status o).
Proof.
  intros inst lim fs glob stdin r. unfold launch. split.
  - intros ->. auto.
  - intros v ->. destruct (main lim fs glob stdin r) as [es o]. exists es, o. auto.
Qed.

(** So "whatever version is installed, the command can be run" is false: a release candidate
    does not start. *)
Theorem C72_any_version_refuted : ~ (forall v, v <> [] -> Forall (fun c => is_space c = false /\ c <> c_dquote) v ->
  forall name, get_version (Installation None [name ++ [c_dash] ++ v ++ lit ".dist-info"] name) <> None).
Proof.
  intros H. apply (H (lit "1.0rc1")) with (name := lit "markflow"); [discriminate| |vm_compute; reflexivity].
  repeat constructor; discriminate.
Qed.

Example C72_nonvacuous :
  get_version (Installation (Some (str_join [c_nl] [lit "[tool.poetry]"; lit "name = ""markflow"""; lit "version = ""0.2.1"""])) [] (lit "markflow"))
    = Some (lit "0.2.1 (development)")
  /\ get_version (Installation None [lit "rich-9.0.dist-info"; lit "markflow"; lit "markflow-0.2.1.dist-info"] (lit "markflow")) = Some (lit "0.2.1")
  /\ get_version (Installation (Some (str_join [c_nl] [lit "dependency_version = ""1.0"""; lit "version = ""0.3.0b1"""])) [] (lit "markflow")) = None
  /\ launch (Installation None [lit "markflow-0.2.1.dist-info"] (lit "markflow")) 50 (fun _ => None) (fun _ => []) (Some (lit "a  b"))
       (RawArgs 88 [] false 0 0 false None [] false)
     = Launched [Out (lit "a b" ++ [c_nl])] (Exit 0).
Proof. repeat split; vm_compute; reflexivity. Qed.
