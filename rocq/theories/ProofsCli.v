(** Proofs about the command line tool. *)
From Coq Require Import String.
From Verif Require Import Py Regex Utils TextWrap Lines Detectors Formatters Logging Cli.
From Verif Require Import Base SpecCli ProofsErrors.

Lemma path_eqb_eq a b : path_eqb a b = true <-> a = b.
Proof.
  revert b. induction a as [|x a IH]; intros [|y b]; cbn; try (split; congruence).
  rewrite andb_true_iff, str_eqb_eq, IH. split; [intros [-> ->]; reflexivity|].
  intros H; inversion H; auto.
Qed.

Lemma path_eqb_refl a : path_eqb a a = true.
Proof. apply path_eqb_eq; reflexivity. Qed.

Lemma path_eqb_neq a b : path_eqb a b = false <-> a <> b.
Proof. rewrite <- path_eqb_eq. destruct (path_eqb a b); split; congruence. Qed.

Lemma update_same fs p n : update fs p n p = Some n.
Proof. unfold update. rewrite path_eqb_refl. reflexivity. Qed.

Lemma update_other fs p n q : q <> p -> update fs p n q = fs q.
Proof. intros H. unfold update. apply path_eqb_neq in H. rewrite H. reflexivity. Qed.

Lemma apply_effects_app fs es1 es2 :
  apply_effects fs (es1 ++ es2) = apply_effects (apply_effects fs es1) es2.
Proof. apply fold_left_app. Qed.

Lemma apply_effect_other fs e q : ~ touches q e -> apply_effect fs e q = fs q.
Proof.
  destruct e as [p|p s|s]; cbn; intros H; [| |reflexivity].
  - destruct (fs p) as [[c r w|w]|]; try reflexivity; apply update_other; congruence.
  - destruct (fs p) as [[c r w|w]|]; try reflexivity; apply update_other; congruence.
Qed.

Lemma apply_effects_other fs es q :
  (forall e, In e es -> ~ touches q e) -> apply_effects fs es q = fs q.
Proof.
  revert fs. induction es as [|e es IH]; intros fs H; [reflexivity|].
  change (apply_effects fs (e :: es)) with (apply_effects (apply_effect fs e) es).
  rewrite IH by (intros e' He'; apply H; right; exact He').
  apply apply_effect_other. apply H. left; reflexivity.
Qed.

(** Applying effects only depends pointwise on the file system. *)
Lemma apply_effects_prints fs es q :
  Forall is_print es -> apply_effects fs es q = fs q.
Proof.
  intros H. apply apply_effects_other. intros e He. rewrite Forall_forall in H.
  specialize (H e He). destruct e; cbn in *; tauto.
Qed.

Lemma write_text_ok fs p s es :
  write_text fs p s = Ok es ->
  es = [Truncate p; Append p s] /\ holds (apply_effects fs es) p s
  /\ (forall q, q <> p -> apply_effects fs es q = fs q).
Proof.
  intros H.
  assert (E : es = [Truncate p; Append p s]).
  { unfold write_text in H. destruct (fs p) as [[c r [|]|w]|]; try (inv H; reflexivity).
    destruct (fs (path_parent p)) as [[|[|]]|]; inv H; reflexivity. }
  split; [exact E|]. split.
  - subst es. unfold apply_effects. cbn [fold_left apply_effect].
    unfold write_text in H.
    destruct (fs p) as [[c r w|w]|] eqn:Ep.
    + rewrite !update_same. exists r, w. apply update_same.
    + destruct w; discriminate H.
    + rewrite !update_same. exists true, true. apply update_same.
  - intros q Hq. apply apply_effects_other. subst es. cbn.
    intros e [<-|[<-|[]]]; cbn; congruence.
Qed.

Lemma write_text_err fs p s e :
  write_text fs p s = Err e -> ~ can_hold_text fs p /\ e = OSError.
Proof.
  unfold write_text, can_hold_text, path_parent. intros H.
  destruct (fs p) as [[c r [|]|w]|] eqn:Ep; inv H.
  - split; [|reflexivity]. intros [(s' & r' & E)|[E _]]; discriminate.
  - split; [|reflexivity]. intros [(s' & r' & E)|[E _]]; discriminate.
  - destruct (fs (removelast p)) as [[|[|]]|] eqn:Eq; inv H1;
      (split; [|reflexivity]); intros [(s' & r' & E)|[_ E]]; discriminate.
Qed.

Lemma inconsistent_bool e : inconsistent e <-> is_inconsistent e = true.
Proof. unfold inconsistent, is_inconsistent. destruct (exn_base e); split; congruence. Qed.

Lemma consistent_bool e : ~ inconsistent e -> is_inconsistent e = false.
Proof. rewrite inconsistent_bool. apply not_true_is_false. Qed.

Lemma runtime_bool e : runtime_error e <-> is_runtime_error e = true.
Proof.
  unfold runtime_error, inconsistent, is_runtime_error.
  destruct (exn_base e); split; try discriminate; eauto; try reflexivity;
    intros [(k & H)|[H|H]]; discriminate.
Qed.

Lemma named_file e (p : path) : let f := if is_runtime_error e then Some p else None in
  (runtime_error e -> f = Some p) /\ (~ runtime_error e -> f = None).
Proof.
  cbv zeta. destruct (is_runtime_error e) eqn:E; rewrite runtime_bool, E; split; congruence.
Qed.

(** The exception that says that the output is not stable means just that. *)
Lemma inconsistent_passes lim text w e :
  reformat_markdown_text lim text w = Err e -> inconsistent e ->
  exists first second, reformat_pass lim text w = Ok first
    /\ reformat_pass lim first w = Ok second /\ first <> second.
Proof.
  intros H Hi. apply inconsistent_bool in Hi.
  assert (G : forall t e', reformat_pass lim t w = Err e' -> is_inconsistent e' = false).
  { intros t e' E. destruct (pass_reason _ _ _ _ E) as (lines & _ & R). unfold is_inconsistent.
    destruct R as [| | | | | |e0 _ [-> | ->]|]; reflexivity. }
  unfold reformat_markdown_text in H.
  destruct (reformat_pass lim text w) as [c1|e1] eqn:E1; cbn [bind] in H;
    [|apply G in E1; congruence].
  destruct (reformat_pass lim c1 w) as [c2|e2] eqn:E2; cbn [bind] in H;
    [|apply G in E2; congruence].
  exists c1, c2. split; [reflexivity|]. split; [exact E2|].
  intros <-. rewrite str_eqb_refl in H. discriminate.
Qed.

Lemma inconsistent_runtime e : inconsistent e -> is_runtime_error e = true.
Proof. intros H. apply runtime_bool. right. right. exact H. Qed.

Lemma write_text_able fs p s :
  can_hold_text fs p -> write_text fs p s = Ok [Truncate p; Append p s].
Proof.
  intros [(c & r & E)|[E1 E2]]; unfold write_text, path_parent.
  - rewrite E. reflexivity.
  - rewrite E1, E2. reflexivity.
Qed.

Lemma snoc_not_self (d : path) n : d <> d ++ [n].
Proof. intros E. apply (f_equal (@length _)) in E. rewrite app_length in E. cbn in E. lia. Qed.

(** Writing a file next to another one. *)
Lemma can_hold_beside fs d a b s :
  a <> b -> can_hold_text fs (d ++ [b]) ->
  can_hold_text (apply_effects fs [Truncate (d ++ [a]); Append (d ++ [a]) s]) (d ++ [b]).
Proof.
  intros Hab H.
  assert (K : forall q, q <> d ++ [a] ->
    apply_effects fs [Truncate (d ++ [a]); Append (d ++ [a]) s] q = fs q).
  { intros q Hq. apply apply_effects_other. cbn.
    intros e [<-|[<-|[]]]; cbn; congruence. }
  assert (Hb : d ++ [b] <> d ++ [a]) by (intros E; apply app_inj_tail in E; destruct E; congruence).
  destruct H as [(c & r & E)|[E1 E2]]; [left|right].
  - exists c, r. rewrite K by exact Hb. exact E.
  - rewrite removelast_last in *. rewrite !K; auto. apply snoc_not_self.
Qed.

Section Run.
  Variable lim : nat.

  (** What a file of a successful run has gone through. *)
  Definition file_done (a : cli_args) (fs fs' : fsys) (i o : path) : Prop :=
    exists old new, formats_to lim fs (line_length a) i old new
      /\ (if negb (str_eqb new old) then
            if check a then fs' o = fs o else holds fs' o new
          else if path_eqb o i then fs' o = fs o else holds fs' o new).

  Lemma reformat_file_ok a fs i o es changed :
    reformat_file lim a fs i o = (es, inl changed) ->
    exists old new, formats_to lim fs (line_length a) i old new
      /\ changed = negb (str_eqb new old)
      /\ es = (if changed then
                 if check a then [Out (would_reformat_message i)]
                 else [Truncate o; Append o new; Out (reformatted_message i)]
               else if path_eqb o i then [] else [Truncate o; Append o new])
      /\ (if changed then
            if check a then apply_effects fs es o = fs o
            else holds (apply_effects fs es) o new
          else if path_eqb o i then apply_effects fs es o = fs o
               else holds (apply_effects fs es) o new)
      /\ (forall q, q <> o -> apply_effects fs es q = fs q).
  Proof.
    unfold reformat_file, formats_to. intros H.
    destruct (read_text fs i) as [old|e] eqn:Er; [|discriminate].
    destruct (reformat_markdown_text lim old (line_length a)) as [new|e] eqn:Ef.
    2:{ destruct (is_runtime_error e); [|discriminate].
        destruct (write_renders a && is_inconsistent e); [|discriminate].
        destruct (do_write_renders lim fs i o (line_length a)) as [es' [e'|]];
          discriminate. }
    exists old, new. split; [auto|].
    destruct (str_eqb new old) eqn:Eq; cbn [negb] in *.
    - destruct (path_eqb o i) eqn:Ep; cbn [negb] in *.
      + inv H. auto.
      + destruct (write_text fs o new) as [es'|e] eqn:Ew; inv H.
        apply write_text_ok in Ew. destruct Ew as (-> & Hh & Hq). auto.
    - destruct (check a) eqn:Ec; cbn [negb] in *.
      + inv H. auto.
      + destruct (write_text fs o new) as [es'|e] eqn:Ew; inv H.
        apply write_text_ok in Ew. destruct Ew as (-> & Hh & Hq).
        split; [auto|]. split; [auto|]. split.
        * rewrite apply_effects_app. exact Hh.
        * intros q Hne. rewrite apply_effects_app. cbn. auto.
  Qed.

  (** Outputs are pairwise distinct and no output is a later input. *)
  Fixpoint fresh (pairs : list (path * path)) : Prop :=
    match pairs with
    | [] => True
    | (_, o) :: rest => ~ In o (map snd rest) /\ ~ In o (map fst rest) /\ fresh rest
    end.

  Lemma read_text_eq fs fs' p : fs' p = fs p -> read_text fs' p = read_text fs p.
  Proof. unfold read_text. intros ->. reflexivity. Qed.

  Lemma files_loop_ok a pairs fs es n m :
    files_loop lim a fs pairs = (es, inl (n, m)) ->
    fresh pairs ->
    (forall i o, In (i, o) pairs -> file_done a fs (apply_effects fs es) i o)
    /\ (forall q, ~ In q (map snd pairs) -> apply_effects fs es q = fs q)
    /\ n + m = length pairs.
  Proof.
    revert fs es n m. induction pairs as [|[i o] rest IH]; intros fs es n m H Hf.
    - inv H. split; [intros ? ? []|]. split; [reflexivity|reflexivity].
    - cbn [files_loop] in H.
      destruct (reformat_file lim a fs i o) as [es1 [changed|err]] eqn:E1; [|discriminate].
      destruct (files_loop lim a (apply_effects fs es1) rest) as [es2 r] eqn:E2.
      destruct r as [[n' m']|err]; [|discriminate].
      injection H as He Hnm; subst es. destruct Hf as (Hs & Hi & Hf).
      apply reformat_file_ok in E1.
      destruct E1 as (old & new & Hfmt & Hc & Hes & Ho & Hq).
      destruct (IH _ _ _ _ E2 Hf) as (IHin & IHout & IHn).
      assert (Hfin : apply_effects fs (es1 ++ es2) o = apply_effects fs es1 o).
      { rewrite apply_effects_app. apply IHout. exact Hs. }
      split; [|split].
      + intros i' o' [E|Hin].
        * inv E. exists old, new. split; [exact Hfmt|].
          rewrite Hfin. unfold holds in *. rewrite Hfin. exact Ho.
        * destruct (IHin _ _ Hin) as (old' & new' & [Hr Hm] & Hd).
          assert (Hne : o' <> o) by (intros ->; apply Hs; apply (in_map snd) in Hin; auto).
          assert (Hne' : i' <> o) by (intros ->; apply Hi; apply (in_map fst) in Hin; auto).
          exists old', new'. split.
          { split; [|exact Hm]. rewrite <- Hr. symmetry. apply read_text_eq. auto. }
          rewrite apply_effects_app. rewrite (Hq o' Hne) in Hd. exact Hd.
      + intros q Hn. cbn in Hn. rewrite apply_effects_app, IHout by tauto.
        apply Hq. intros ->. tauto.
      + destruct changed; inv Hnm; cbn; lia.
  Qed.

  (** A run over [pairs1 ++ pairs2]. *)
  Lemma files_loop_app a pairs1 pairs2 fs es1 n1 m1 :
    files_loop lim a fs pairs1 = (es1, inl (n1, m1)) ->
    files_loop lim a fs (pairs1 ++ pairs2)
    = let '(es2, r) := files_loop lim a (apply_effects fs es1) pairs2 in
      (es1 ++ es2, match r with
                   | inr err => inr err
                   | inl (n2, m2) => inl (n1 + n2, m1 + m2)
                   end).
  Proof.
    revert fs es1 n1 m1. induction pairs1 as [|[i o] rest IH]; intros fs es1 n1 m1 H.
    - inv H. cbn. destruct (files_loop lim a fs pairs2) as [es2 [[n2 m2]|err]]; reflexivity.
    - cbn [files_loop app] in *.
      destruct (reformat_file lim a fs i o) as [es [changed|err]] eqn:E; [|discriminate].
      destruct (files_loop lim a (apply_effects fs es) rest) as [es' [[n' m']|err]] eqn:E';
        [|discriminate].
      injection H as He Hnm; subst es1. rewrite (IH _ _ _ _ E'). rewrite apply_effects_app.
      destruct (files_loop lim a (apply_effects (apply_effects fs es) es') pairs2)
        as [es2 [[n2 m2]|err]].
      + rewrite app_assoc. f_equal. f_equal. destruct changed; inv Hnm; reflexivity.
      + rewrite app_assoc. reflexivity.
  Qed.

  (** A failing run stops at one file. *)
  Lemma files_loop_err a pairs fs es err :
    files_loop lim a fs pairs = (es, inr err) ->
    exists before i o after es0 es1 n m,
      pairs = before ++ (i, o) :: after
      /\ files_loop lim a fs before = (es0, inl (n, m))
      /\ reformat_file lim a (apply_effects fs es0) i o = (es1, inr err)
      /\ es = es0 ++ es1.
  Proof.
    revert fs es. induction pairs as [|[i o] rest IH]; intros fs es H; [discriminate|].
    cbn [files_loop] in H.
    destruct (reformat_file lim a fs i o) as [es1 [changed|err']] eqn:E.
    - destruct (files_loop lim a (apply_effects fs es1) rest) as [es2 r] eqn:E2.
      destruct r as [[n m]|err']; [discriminate|]. inv H.
      destruct (IH _ _ E2) as (before & i' & o' & after & e0 & e1 & n & m & H1 & H2 & H3 & H4).
      exists ((i, o) :: before), i', o', after, (es1 ++ e0), e1.
      exists (if changed then S n else n), (if changed then m else S m).
      split; [rewrite H1; reflexivity|]. split.
      { cbn [files_loop]. rewrite E, H2. destruct changed; reflexivity. }
      split; [rewrite apply_effects_app; exact H3|].
      rewrite H4, app_assoc. reflexivity.
    - inv H. exists [], i, o, rest, [], es, 0, 0. auto.
  Qed.

  Lemma reformat_file_err a fs i o es e f :
    reformat_file lim a fs i o = (es, inr (e, f)) ->
    write_renders a = false ->
    es = []
    /\ ((read_text fs i = Err e /\ f = None)
        \/ (exists old, read_text fs i = Ok old
            /\ reformat_markdown_text lim old (line_length a) = Err e
            /\ (runtime_error e -> f = Some i) /\ (~ runtime_error e -> f = None))
        \/ (exists old new, formats_to lim fs (line_length a) i old new
            /\ ~ can_hold_text fs o /\ e = OSError /\ f = None)).
  Proof.
    unfold reformat_file, formats_to. intros H Hw. rewrite Hw in H.
    destruct (read_text fs i) as [old|e'] eqn:Er; [|inv H; auto].
    destruct (reformat_markdown_text lim old (line_length a)) as [new|e'] eqn:Ef.
    2:{ cbn in H. assert (N := named_file e' i). cbv zeta in N.
        destruct (is_runtime_error e'); inv H; split; auto; right; left; exists old; auto. }
    destruct (str_eqb new old) eqn:Eq; cbn [negb] in *.
    - destruct (path_eqb o i) eqn:Ep; cbn [negb] in *; [discriminate|].
      destruct (write_text fs o new) as [es'|e''] eqn:Ew; inv H.
      apply write_text_err in Ew. split; [auto|]. right; right. exists old, new. tauto.
    - destruct (check a) eqn:Ec; cbn [negb] in *; [discriminate|].
      destruct (write_text fs o new) as [es'|e''] eqn:Ew; inv H.
      apply write_text_err in Ew. split; [auto|]. right; right. exists old, new. tauto.
  Qed.

  (** * In-place runs *)

  Definition twice (ps : list path) : list (path * path) := map (fun p => (p, p)) ps.

  Lemma zip2_twice (ps : list path) : zip2 ps ps = twice ps.
  Proof. unfold twice. induction ps as [|p ps IH]; cbn; congruence. Qed.

  Lemma map_fst_twice ps : map fst (twice ps) = ps.
  Proof. unfold twice. rewrite map_map. apply map_id. Qed.
  Lemma map_snd_twice ps : map snd (twice ps) = ps.
  Proof. unfold twice. rewrite map_map. apply map_id. Qed.

  Lemma fresh_twice ps : NoDup ps -> fresh (twice ps).
  Proof.
    intros H. induction H as [|p ps Hp H IH]; [exact I|].
    cbn [twice map fresh]. fold (twice ps). rewrite map_fst_twice, map_snd_twice. auto.
  Qed.

  Lemma in_twice i o ps : In (i, o) (twice ps) <-> i = o /\ In o ps.
  Proof.
    unfold twice. rewrite in_map_iff. split.
    - intros (p & E & H). inv E. auto.
    - intros [-> H]. exists o. auto.
  Qed.

  Lemma output_paths_in_place a : in_place a -> output_paths a = paths a.
  Proof. intros [H1 H2]. unfold output_paths. rewrite H1, H2. reflexivity. Qed.

  (** Effects of in-place checks are only messages. *)
  Lemma files_loop_check_prints a ps fs es r :
    check a = true -> write_renders a = false ->
    files_loop lim a fs (twice ps) = (es, r) -> Forall is_print es.
  Proof.
    intros Hc Hw. revert fs es r. induction ps as [|p ps IH]; intros fs es r H.
    - inv H. constructor.
    - cbn [twice map files_loop] in H. fold (twice ps) in H.
      destruct (reformat_file lim a fs p p) as [es1 [changed|[e f]]] eqn:E.
      + destruct (files_loop lim a (apply_effects fs es1) (twice ps)) as [es2 r2] eqn:E2.
        inv H. apply reformat_file_ok in E.
        destruct E as (old & new & _ & _ & Hes & _ & _).
        rewrite Hc, path_eqb_refl in Hes. apply Forall_app. split; [|eapply IH; eauto].
        rewrite Hes. destruct changed; repeat constructor.
      + inv H. apply reformat_file_err in E; [|exact Hw]. destruct E as [-> _]. constructor.
  Qed.

  (** Number of changed files under check. *)
  Lemma files_loop_check_count a ps fs es n m :
    check a = true ->
    files_loop lim a fs (twice ps) = (es, inl (n, m)) ->
    (n <> 0 <-> exists p old new, In p ps /\ formats_to lim fs (line_length a) p old new
                                  /\ new <> old)
    /\ (forall p, In p ps -> exists old new, formats_to lim fs (line_length a) p old new).
  Proof.
    intros Hc. revert fs es n m. induction ps as [|p ps IH]; intros fs es n m H.
    - inv H. split; [|intros p []]. split; [congruence|].
      intros (? & ? & ? & [] & _).
    - cbn [twice map files_loop] in H. fold (twice ps) in H.
      destruct (reformat_file lim a fs p p) as [es1 [changed|err]] eqn:E; [|discriminate].
      destruct (files_loop lim a (apply_effects fs es1) (twice ps)) as [es2 r2] eqn:E2.
      destruct r2 as [[n' m']|err]; [|discriminate]. injection H as He Hnm; subst es.
      apply reformat_file_ok in E.
      destruct E as (old & new & Hfmt & Hch & Hes & Ho & Hq).
      rewrite Hc, path_eqb_refl in Ho.
      assert (Hfs : forall q, apply_effects fs es1 q = fs q).
      { intros q. apply apply_effects_prints. rewrite Hes, Hc, path_eqb_refl.
        destruct changed; repeat constructor. }
      destruct (IH _ _ _ _ E2) as [IHn IHall].
      assert (Hft : forall q old new,
        formats_to lim (apply_effects fs es1) (line_length a) q old new
        <-> formats_to lim fs (line_length a) q old new).
      { intros q o' n''. unfold formats_to.
        rewrite (read_text_eq fs (apply_effects fs es1) q (Hfs q)). tauto. }
      split.
      + destruct changed; inv Hnm.
        * split; [|intros _; lia]. intros _. exists p, old, new.
          split; [left; auto|]. split; [auto|]. symmetry in Hch.
          apply negb_true_iff, str_eqb_neq in Hch. exact Hch.
        * rewrite IHn. split.
          -- intros (q & o' & n'' & Hin & Hf & Hne). exists q, o', n''.
             split; [right; auto|]. split; [apply Hft; auto|auto].
          -- intros (q & o' & n'' & [<-|Hin] & Hf & Hne).
             ++ exfalso. destruct Hf as [Hr1 Hm1], Hfmt as [Hr2 Hm2].
                rewrite Hr1 in Hr2. inv Hr2. rewrite Hm1 in Hm2. inv Hm2.
                symmetry in Hch. apply negb_false_iff, str_eqb_eq in Hch. congruence.
             ++ exists q, o', n''. split; [auto|]. split; [apply Hft; auto|auto].
      + intros q [<-|Hin]; [eauto|].
        destruct (IHall q Hin) as (o' & n'' & Hf). exists o', n''. apply Hft; auto.
  Qed.
End Run.

Lemma zip2_fst {A B} (a : list A) (b : list B) :
  length a = length b -> map fst (zip2 a b) = a.
Proof.
  revert b. induction a as [|x a IH]; intros [|y b]; cbn; try discriminate; [auto|].
  intros H. f_equal. apply IH. lia.
Qed.
Lemma zip2_snd {A B} (a : list A) (b : list B) :
  length a = length b -> map snd (zip2 a b) = b.
Proof.
  revert b. induction a as [|x a IH]; intros [|y b]; cbn; try discriminate; [auto|].
  intros H. f_equal. apply IH. lia.
Qed.

Lemma fresh_disjoint pairs :
  NoDup (map snd pairs) -> (forall p, In p (map snd pairs) -> ~ In p (map fst pairs)) ->
  fresh pairs.
Proof.
  induction pairs as [|[i o] rest IH]; intros Hn Hd; [exact I|].
  cbn in *. inv Hn. split; [auto|]. split.
  - intros Hin. apply (Hd o); auto.
  - apply IH; [auto|]. intros p Hp Hp'. apply (Hd p); auto.
Qed.

Lemma fresh_app l1 l2 : fresh (l1 ++ l2) -> fresh l1 /\ fresh l2.
Proof.
  induction l1 as [|[i o] l1 IH]; intros H; [split; [exact I|exact H]|].
  cbn in *. rewrite !map_app in H. destruct H as (H1 & H2 & H3).
  destruct (IH H3) as [H4 H5]. rewrite in_app_iff in H1, H2. tauto.
Qed.

(** ** Crash states *)

Lemma crash_app fs es1 es2 fs' :
  crash_state fs (es1 ++ es2) fs' ->
  crash_state fs es1 fs' \/ crash_state (apply_effects fs es1) es2 fs'.
Proof.
  intros H. inv H.
  - (* between two effects *)
    apply app_eq_app in H0. destruct H0 as (l & [[H1 H2]|[H1 H2]]).
    + left. subst es1. econstructor. reflexivity.
    + right. subst es0. rewrite apply_effects_app. econstructor. exact H2.
  - apply app_eq_app in H0. destruct H0 as (l & [[H1 H2]|[H1 H2]]).
    + destruct l as [|e l].
      * cbn in H2. right. subst es2. rewrite app_nil_r in H1. subst es0.
        rewrite apply_effects_app. apply (crash_in_write _ _ [] p s1 s2 es3). reflexivity.
      * inv H2. left. eapply crash_in_write. reflexivity.
    + subst. right. rewrite <- app_assoc, apply_effects_app.
      eapply crash_in_write. reflexivity.
Qed.

Lemma crash_prints fs es fs' :
  Forall is_print es -> crash_state fs es fs' -> forall q, fs' q = fs q.
Proof.
  intros H Hc q. inv Hc.
  - apply Forall_app in H. apply apply_effects_prints. tauto.
  - apply Forall_app in H. destruct H as [_ H]. inv H. destruct H2.
Qed.

(** A crash while one file is written. *)
Lemma crash_write fs p new msg fs' :
  holds (apply_effects fs [Truncate p; Append p new]) p new ->
  crash_state fs [Truncate p; Append p new; Out msg] fs' ->
  (forall q, q <> p -> fs' q = fs q)
  /\ (fs' p = fs p \/ exists s1 s2, new = s1 ++ s2 /\ holds fs' p s1).
Proof.
  intros Hh Hc.
  assert (Htr : forall s, holds (apply_effects fs [Truncate p; Append p s]) p s).
  { intros s. unfold apply_effects in *. cbn [fold_left apply_effect] in *.
    destruct (fs p) as [[c r w|w]|] eqn:Ep.
    - rewrite !update_same. exists r, w. apply update_same.
    - rewrite Ep in Hh. destruct Hh as (r & w' & E). rewrite Ep in E. discriminate.
    - rewrite !update_same. exists true, true. apply update_same. }
  assert (Ht1 : holds (apply_effects fs [Truncate p]) p []).
  { destruct (Htr []) as (r & w & E). unfold apply_effects in *.
    cbn [fold_left apply_effect] in *.
    destruct (fs p) as [[c r' w'|w']|] eqn:Ep.
    - exists r', w'. apply update_same.
    - rewrite Ep in E. congruence.
    - exists true, true. apply update_same. }
  inv Hc.
  - destruct es1 as [|e1 [|e2 [|e3 [|e4 es1]]]]; cbn in H.
    + cbn. auto.
    + injection H as <- H. split.
      * intros q Hq. apply apply_effects_other. intros e [<-|[]]. cbn. congruence.
      * right. exists [], new. auto.
    + injection H as <- <- H. split.
      * intros q Hq. apply apply_effects_other. intros e [<-|[<-|[]]]; cbn; congruence.
      * right. exists new, []. rewrite app_nil_r. auto.
    + injection H as <- <- <- H. split.
      * intros q Hq. apply apply_effects_other.
        intros e [<-|[<-|[<-|[]]]]; cbn; [congruence|congruence|tauto].
      * right. exists new, []. rewrite app_nil_r. split; [auto|].
        change [Truncate p; Append p new; Out msg]
          with ([Truncate p; Append p new] ++ [Out msg]).
        rewrite apply_effects_app. exact Hh.
    + discriminate.
  - destruct es1 as [|e1 [|e2 [|e3 es1]]]; cbn in H.
    + discriminate.
    + injection H as <- <- -> H. split.
      * intros q Hq. apply apply_effects_other. intros e [<-|[<-|[]]]; cbn; congruence.
      * right. exists s1, s2. split; [auto|]. apply Htr.
    + discriminate.
    + injection H as ? ? ? H. destruct es1; discriminate.
Qed.

Section Run2.
  Variable lim : nat.

  Definition safe_or_at_risk (a : cli_args) (ps : list path) (fs fs' : fsys) (p : path)
    : Prop :=
    (forall q, q <> p ->
       fs' q = fs q
       \/ (In q ps /\ exists old new,
             formats_to lim fs (line_length a) q old new /\ holds fs' q new))
    /\ (fs' p = fs p
        \/ (In p ps /\ exists old new s1 s2,
              formats_to lim fs (line_length a) p old new
              /\ new = s1 ++ s2 /\ holds fs' p s1)).

  Lemma files_loop_crash a ps fs es r fs' :
    write_renders a = false -> NoDup ps ->
    files_loop lim a fs (twice ps) = (es, r) ->
    crash_state fs es fs' -> exists p, safe_or_at_risk a ps fs fs' p.
  Proof.
    intros Hw Hn. revert fs es r fs'. induction Hn as [|p ps Hp Hn IH];
      intros fs es r fs' H Hc.
    - inv H. exists []. split; intros; left; apply (crash_prints _ _ _ (Forall_nil _) Hc).
    - cbn [twice map files_loop] in H. fold (twice ps) in H.
      destruct (reformat_file lim a fs p p) as [es1 [changed|[e f]]] eqn:E.
      + destruct (files_loop lim a (apply_effects fs es1) (twice ps)) as [es2 r2] eqn:E2.
        inv H. apply reformat_file_ok in E.
        destruct E as (old & new & Hfmt & Hch & Hes & Ho & Hq).
        rewrite path_eqb_refl in Hes, Ho. apply crash_app in Hc.
        destruct Hc as [Hc|Hc].
        * exists p. destruct changed; [destruct (check a) eqn:Ek|].
          -- subst es1. assert (G := crash_prints _ _ _
               (Forall_cons _ (I : is_print (Out _)) (Forall_nil _)) Hc).
             split; intros; left; apply G.
          -- assert (Hh : holds (apply_effects fs [Truncate p; Append p new]) p new).
             { rewrite Hes in Ho.
               change [Truncate p; Append p new; Out (reformatted_message p)]
                 with ([Truncate p; Append p new] ++ [Out (reformatted_message p)]) in Ho.
               rewrite apply_effects_app in Ho. exact Ho. }
             rewrite Hes in Hc.
             destruct (crash_write _ _ _ _ _ Hh Hc) as [G1 [G2|(s1 & s2 & G2 & G3)]].
             ++ split; [intros; left; auto|left; auto].
             ++ split; [intros; left; auto|]. right. split; [left; auto|].
                exists old, new, s1, s2. auto.
          -- subst es1. assert (G := crash_prints _ _ _ (Forall_nil _) Hc).
             split; intros; left; apply G.
        * destruct (IH _ _ _ _ E2 Hc) as (p' & [G1 G2]).
          assert (Hrd : forall q o' n', In q ps ->
            formats_to lim (apply_effects fs es1) (line_length a) q o' n' ->
            formats_to lim fs (line_length a) q o' n').
          { intros q o' n' Hin [Hr Hm]. split; [|exact Hm]. rewrite <- Hr. symmetry.
            apply read_text_eq. apply Hq. intros ->. auto. }
          (* the file [p] itself has its final state *)
          assert (Hpf : apply_effects fs es1 p = fs p
                        \/ holds (apply_effects fs es1) p new).
          { destruct changed; [destruct (check a)|]; auto. }
          destruct (path_eqb p' p) eqn:Epp.
          -- apply path_eqb_eq in Epp. subst p'.
             assert (Hp' : fs' p = apply_effects fs es1 p) by tauto.
             exists p. split.
             ++ intros q Hne. destruct (G1 q Hne) as [G|(Hin & o' & n' & Hf & Hh)].
                ** left. rewrite G. auto.
                ** right. split; [right; auto|]. exists o', n'. auto.
             ++ destruct Hpf as [Hpf|Hpf]; [left; congruence|].
                right. split; [left; auto|]. exists old, new, new, [].
                rewrite app_nil_r. split; [auto|]. split; [auto|].
                destruct Hpf as (r' & w' & G). exists r', w'. congruence.
          -- apply path_eqb_neq in Epp. exists p'. split.
             ++ intros q Hne. destruct (G1 q Hne) as [G|(Hin & o' & n' & Hf & Hh)].
                ** destruct (path_eqb q p) eqn:Eqp.
                   --- apply path_eqb_eq in Eqp. subst q.
                       destruct Hpf as [Hpf|Hpf]; [left; congruence|].
                       right. split; [left; auto|]. exists old, new. split; [auto|].
                       destruct Hpf as (r' & w' & G'). exists r', w'. congruence.
                   --- left. rewrite G. apply Hq. apply path_eqb_neq. auto.
                ** right. split; [right; auto|]. exists o', n'. auto.
             ++ destruct G2 as [G2|(Hin & o' & n' & s1 & s2 & Hf & He & Hh)].
                ** left. rewrite G2. auto.
                ** right. split; [right; auto|]. exists o', n', s1, s2. auto.
      + inv H. apply reformat_file_err in E; [|exact Hw]. destruct E as [-> _].
        exists []. split; intros; left; apply (crash_prints _ _ _ (Forall_nil _) Hc).
  Qed.

  Lemma crash_tail fs es tl fs' :
    Forall is_print tl -> crash_state fs (es ++ tl) fs' ->
    exists fs'', crash_state fs es fs'' /\ forall q, fs' q = fs'' q.
  Proof.
    intros Ht Hc. apply crash_app in Hc. destruct Hc as [Hc|Hc].
    - exists fs'. auto.
    - exists (apply_effects fs es). split.
      + apply (crash_between _ _ es []). rewrite app_nil_r. reflexivity.
      + apply (crash_prints _ _ _ Ht Hc).
  Qed.
End Run2.

(** ** Argument parsing *)

Lemma parse_args_accepted fs glob r a :
  parse_args fs glob r = Accepted a ->
  line_length a = effective_line_length (ra_line_length r)
  /\ paths a = expand_paths fs glob (ra_paths r)
  /\ check a = ra_check r
  /\ output_directory a = ra_output_directory r
  /\ output_files a = ra_output_files r
  /\ write_renders a = ra_write_renders r
  /\ (output_files a <> [] -> length (output_files a) = length (paths a))
  /\ (output_directory a <> None -> output_files a = []).
Proof.
  unfold parse_args. intros H.
  destruct (negb (forallb (existing_path_ok fs) (ra_paths r))); [discriminate|].
  destruct (match ra_output_directory r with
            | Some d => negb (directory_ok fs d) || negb (nilb (ra_output_files r))
            | None => false end) eqn:Ed; [discriminate|].
  destruct (negb (forallb (file_ok fs) (ra_output_files r))); [discriminate|].
  destruct (ra_developer_help r); [discriminate|].
  cbn zeta in H.
  destruct (negb (nilb (ra_output_files r))
            && negb (length (expand_paths fs glob (ra_paths r))
                     =? length (ra_output_files r))) eqn:El; [discriminate|].
  destruct (nilb (ra_output_files r)
            && match ra_output_directory r with None => true | Some _ => false end
            && negb (ra_check r)
            && negb (forallb (file_ok fs) (expand_paths fs glob (ra_paths r))));
    [discriminate|].
  inv H. cbn. repeat split.
  - intros Hn. apply nilb_false in Hn. rewrite Hn in El. cbn in El.
    apply negb_false_iff, Nat.eqb_eq in El. auto.
  - intros Hn. destruct (ra_output_directory r) as [d|]; [|congruence].
    apply orb_false_iff in Ed. destruct Ed as [_ Ed].
    apply negb_false_iff, nilb_true in Ed. exact Ed.
Qed.

Lemma main_files lim fs glob stdin r a :
  parse_args fs glob r = Accepted a -> paths a <> [] ->
  main lim fs glob stdin r = reformat_files lim a fs.
Proof.
  intros H Hn. unfold main. rewrite H. apply nilb_false in Hn. rewrite Hn. reflexivity.
Qed.

(** A run over files that completes or raises, at the level of [files_loop]. *)
Lemma reformat_files_exit lim a fs es n :
  reformat_files lim a fs = (es, Exit n) ->
  exists es0 ch un,
    files_loop lim a fs (zip2 (paths a) (output_paths a)) = (es0, inl (ch, un))
    /\ es = es0 ++ [Out (lit "All done!"); Out (summary a ch un)]
    /\ n = (if check a && negb (Nat.eqb ch 0) then 1 else 0)%Z
    /\ (forall q, apply_effects fs es q = apply_effects fs es0 q).
Proof.
  unfold reformat_files. intros H.
  destruct (files_loop lim a fs (zip2 (paths a) (output_paths a)))
    as [es0 [[ch un]|[e f]]] eqn:E; [|discriminate].
  inv H. exists es0, ch, un. repeat split.
  intros q. rewrite apply_effects_app. reflexivity.
Qed.

Lemma reformat_files_raised lim a fs es e f :
  reformat_files lim a fs = (es, Raised e f) ->
  files_loop lim a fs (zip2 (paths a) (output_paths a)) = (es, inr (e, f)).
Proof.
  unfold reformat_files. intros H.
  destruct (files_loop lim a fs (zip2 (paths a) (output_paths a)))
    as [es0 [[ch un]|[e' f']]] eqn:E; [discriminate|].
  inv H. reflexivity.
Qed.

Lemma main_shape lim fs fs' glob stdin r status :
  (forall p, same_node_shape (fs p) (fs' p)) ->
  parse_args fs glob r = Rejected status ->
  main lim fs' glob stdin r = ([], Exit status).
Proof.
  intros Hs Hr.
  assert (Hex : forall p, exists_ fs' p = exists_ fs p).
  { intros p. unfold exists_. specialize (Hs p).
    destruct (fs p) as [[]|], (fs' p) as [[]|]; cbn in Hs; tauto. }
  assert (Hd : forall p, is_dir fs' p = is_dir fs p).
  { intros p. unfold is_dir. specialize (Hs p).
    destruct (fs p) as [[]|], (fs' p) as [[]|]; cbn in Hs; tauto. }
  assert (Hf : forall p, is_file fs' p = is_file fs p).
  { intros p. unfold is_file. specialize (Hs p).
    destruct (fs p) as [[]|], (fs' p) as [[]|]; cbn in Hs; tauto. }
  assert (Hw : forall p, can_write fs' p = can_write fs p).
  { intros p. unfold can_write. specialize (Hs p).
    destruct (fs p) as [[]|], (fs' p) as [[]|]; cbn in Hs; try tauto.
    - destruct Hs; congruence.
    - congruence. }
  assert (E1 : forallb (existing_path_ok fs') (ra_paths r)
               = forallb (existing_path_ok fs) (ra_paths r)).
  { apply forallb_ext. intros p. apply Hex. }
  assert (E2 : forall p, directory_ok fs' p = directory_ok fs p).
  { intros p. unfold directory_ok. rewrite Hex, Hd, Hw. reflexivity. }
  assert (E3 : forall p, file_ok fs' p = file_ok fs p).
  { intros p. unfold file_ok. rewrite Hex, !Hd, !Hw. reflexivity. }
  assert (E4 : forall l, forallb (file_ok fs') l = forallb (file_ok fs) l).
  { intros l. apply forallb_ext. intros p. apply E3. }
  assert (E5 : expand_paths fs' glob (ra_paths r) = expand_paths fs glob (ra_paths r)).
  { unfold expand_paths. apply flat_map_ext. intros p. rewrite Hf. reflexivity. }
  assert (E : parse_args fs' glob r = parse_args fs glob r).
  { unfold parse_args. rewrite E1, !E4, E5.
    destruct (ra_output_directory r); [rewrite E2|]; reflexivity. }
  unfold main. rewrite E, Hr. reflexivity.
Qed.

(** ** Counting changed files *)
Section Count.
  Variable lim : nat.

  Lemma files_loop_flags a ps fs es n m :
    (NoDup ps \/ check a = true) ->
    files_loop lim a fs (twice ps) = (es, inl (n, m)) ->
    exists flags,
      Forall2 (fun p (flag : bool) => exists old new,
                 formats_to lim fs (line_length a) p old new
                 /\ (flag = true <-> new <> old)) ps flags
      /\ n = count_occ Bool.bool_dec flags true
      /\ m = count_occ Bool.bool_dec flags false.
  Proof.
    revert fs es n m. induction ps as [|p ps IH]; intros fs es n m Hn H.
    - inv H. exists []. repeat constructor.
    - cbn [twice map files_loop] in H. fold (twice ps) in H.
      destruct (reformat_file lim a fs p p) as [es1 [changed|err]] eqn:E; [|discriminate].
      destruct (files_loop lim a (apply_effects fs es1) (twice ps)) as [es2 r2] eqn:E2.
      destruct r2 as [[n' m']|err]; [|discriminate].
      injection H as He Hnm. apply reformat_file_ok in E.
      destruct E as (old & new & Hfmt & Hch & Hes & Ho & Hq).
      assert (Hn' : NoDup ps \/ check a = true).
      { destruct Hn as [Hn|Hn]; [inv Hn; auto|auto]. }
      destruct (IH _ _ _ _ Hn' E2) as (flags & Hf & Hn1 & Hm1).
      exists (changed :: flags). split.
      + constructor.
        * exists old, new. split; [exact Hfmt|]. rewrite Hch, negb_true_iff.
          apply str_eqb_neq.
        * assert (Hsame : forall q, In q ps -> apply_effects fs es1 q = fs q).
          { intros q Hin. destruct Hn as [Hn|Hn].
            - apply Hq. intros ->. inv Hn. auto.
            - apply apply_effects_prints. rewrite Hes, Hn, path_eqb_refl.
              destruct changed; repeat constructor. }
          clear - Hf Hsame. induction Hf as [|q b ps bs (o' & n' & [Hr Hm] & Hb) Hf IH];
            constructor.
          -- exists o', n'. split; [|exact Hb]. split; [|exact Hm]. rewrite <- Hr.
             symmetry. apply read_text_eq, Hsame. left; auto.
          -- apply IH. intros x Hx. apply Hsame. right; auto.
      + destruct changed; inv Hnm; cbn; auto.
  Qed.
End Count.

(** ** The files to work on *)

Lemma is_file_holds fs p : is_file fs p = true <-> exists s, holds fs p s.
Proof.
  unfold is_file, holds. destruct (fs p) as [[c r w|w]|]; split; intros H; try discriminate;
    try (destruct H as (? & ? & ? & H); discriminate); eauto.
Qed.

Lemma work_list_expand fs glob ps files :
  work_list fs glob ps files <-> files = expand_paths fs glob ps.
Proof.
  unfold expand_paths. split.
  - induction 1 as [|p ps files Hp _ IH|p ps files Hp _ IH]; [reflexivity| |]; cbn [flat_map].
    + apply is_file_holds in Hp. rewrite Hp, IH. reflexivity.
    + destruct (is_file fs p) eqn:E; [|rewrite IH; reflexivity].
      apply is_file_holds in E. destruct E as (s & E). destruct (Hp s E).
  - intros ->. induction ps as [|p ps IH]; cbn [flat_map]; [constructor|].
    destruct (is_file fs p) eqn:E.
    + cbn [app]. constructor; [apply is_file_holds; exact E|exact IH].
    + constructor; [|exact IH]. intros s H.
      assert (is_file fs p = true) by (apply is_file_holds; eauto). congruence.
Qed.

Lemma file_ok_spec fs p : file_ok fs p = true <-> can_hold_text fs p.
Proof.
  unfold file_ok, can_hold_text, exists_, is_dir, can_write, path_parent.
  destruct (fs p) as [[c r [|]|w]|] eqn:E; cbn; split; intros H; try discriminate; eauto;
    try (destruct H as [(? & ? & H)|[H _]]; discriminate).
  - destruct (fs (removelast p)) as [[|[|]]|]; cbn in H; try discriminate; auto.
  - destruct H as [(? & ? & H)|[_ H]]; [discriminate|]. rewrite H. reflexivity.
Qed.

Lemma parse_args_valid fs glob r files :
  work_list fs glob (ra_paths r) files ->
  (valid_invocation fs r files <->
   parse_args fs glob r
   = Accepted (CliArgs (effective_line_length (ra_line_length r)) files (ra_check r)
                 (ra_output_directory r) (ra_output_files r) (ra_write_renders r)))
  /\ (~ valid_invocation fs r files ->
      parse_args fs glob r = Rejected 2 \/ parse_args fs glob r = Rejected 255).
Proof.
  intros Hwl. apply work_list_expand in Hwl.
  assert (F : forall l, forallb (file_ok fs) l = true <-> forall p, In p l -> can_hold_text fs p).
  { intros l. rewrite forallb_forall. split; intros H p Hp; apply file_ok_spec, H, Hp. }
  assert (P : forallb (existing_path_ok fs) (ra_paths r) = true
              <-> forall p, In p (ra_paths r) -> fs p <> None).
  { rewrite forallb_forall. unfold existing_path_ok, exists_.
    split; intros H p Hp; specialize (H p Hp); destruct (fs p); congruence. }
  assert (D : forall d, directory_ok fs d = true <-> fs d = Some (NDir true)).
  { intros d. unfold directory_ok, exists_, is_dir, can_write.
    destruct (fs d) as [[? ? ?|[|]]|]; cbn; split; intros; congruence. }
  unfold parse_args. rewrite <- Hwl. cbn zeta.
  destruct (forallb (existing_path_ok fs) (ra_paths r)) eqn:EP; cbn [negb].
  2: { split; [|auto]. split; [|discriminate]. intros [V _ _ _ _ _ _]. apply P in V. congruence. }
  destruct (match ra_output_directory r with
            | Some d => negb (directory_ok fs d) || negb (nilb (ra_output_files r))
            | None => false end) eqn:ED.
  { split; [|auto]. split; [|discriminate]. intros [_ V1 V2 _ _ _ _].
    destruct (ra_output_directory r) as [d|]; [|discriminate].
    specialize (V2 d eq_refl). apply D in V2. rewrite V2 in ED.
    destruct V1 as [V1|V1]; [discriminate|]. rewrite V1 in ED. discriminate. }
  destruct (forallb (file_ok fs) (ra_output_files r)) eqn:EF; cbn [negb].
  2: { split; [|auto]. split; [|discriminate]. intros [_ _ _ V _ _ _]. apply F in V. congruence. }
  destruct (ra_developer_help r) eqn:EH.
  { split; [|auto]. split; [|discriminate]. intros [_ _ _ _ V _ _]. congruence. }
  destruct (negb (nilb (ra_output_files r))
            && negb (length files =? length (ra_output_files r))) eqn:EL.
  { split; [|auto]. split; [|discriminate]. intros [_ _ _ _ _ V _].
    apply andb_true_iff in EL. destruct EL as [EL1 EL2]. apply negb_true_iff in EL1, EL2.
    apply Nat.eqb_neq in EL2. destruct EL2. symmetry. apply V. apply nilb_false. exact EL1. }
  destruct (nilb (ra_output_files r)
            && match ra_output_directory r with None => true | Some _ => false end
            && negb (ra_check r) && negb (forallb (file_ok fs) files)) eqn:EI.
  { split; [|auto]. split; [|discriminate]. intros [_ _ _ _ _ _ V].
    apply andb_true_iff in EI. destruct EI as [EI EI4].
    apply andb_true_iff in EI. destruct EI as [EI EI3].
    apply andb_true_iff in EI. destruct EI as [EI1 EI2].
    apply negb_true_iff in EI3, EI4.
    assert (T : forallb (file_ok fs) files = true); [|congruence].
    apply F, V; [destruct (ra_output_directory r); congruence| |exact EI3].
    destruct (ra_output_files r); [reflexivity|discriminate]. }
  assert (V : valid_invocation fs r files).
  { constructor.
    - apply P; reflexivity.
    - destruct (ra_output_directory r) as [d|]; [right|left; reflexivity].
      apply orb_false_iff in ED. destruct ED as [_ ED]. apply negb_false_iff in ED.
      destruct (ra_output_files r); [reflexivity|discriminate].
    - intros d Hd. rewrite Hd in ED. apply orb_false_iff in ED. destruct ED as [ED _].
      apply negb_false_iff in ED. apply D, ED.
    - apply F, EF.
    - exact EH.
    - intros Hne. apply nilb_false in Hne. rewrite Hne in EL. cbn [negb andb] in EL.
      apply negb_false_iff, Nat.eqb_eq in EL. congruence.
    - intros Hd Hf Hc. rewrite Hd, Hf, Hc in EI. cbn [nilb negb andb] in EI.
      apply negb_false_iff in EI. apply F, EI. }
  split; [|tauto]. split; [reflexivity|auto].
Qed.

(** * Line endings *)

Lemma universal_newlines_id s : ~ In c_cr s -> universal_newlines s = s.
Proof.
  induction s as [|c s IH]; intros H; [reflexivity|]. cbn [universal_newlines].
  destruct (N.eqb c c_cr) eqn:E; [apply N.eqb_eq in E; subst c; destruct H; left; reflexivity|].
  f_equal. apply IH. intros Hin. apply H. right. exact Hin.
Qed.

Lemma universal_cases s :
  s = [] \/ (exists c t, s = c :: t /\ c <> c_cr /\ c <> c_nl /\ universal_newlines s = c :: universal_newlines t)
  \/ exists e t, s = e ++ t /\ line_ending e /\ (e = [c_cr] -> forall t', t <> c_nl :: t')
       /\ universal_newlines s = c_nl :: universal_newlines t.
Proof.
  destruct s as [|c s]; [left; reflexivity|right]. cbn [universal_newlines].
  destruct (N.eqb_spec c c_cr) as [->|Hr].
  - right. destruct s as [|d s].
    + exists [c_cr], []. split; [reflexivity|]. split; [right; left; reflexivity|]. split; [discriminate|reflexivity].
    + destruct (N.eqb_spec d c_nl) as [->|Hd].
      * exists [c_cr; c_nl], s. split; [reflexivity|]. split; [do 2 right; left; reflexivity|]. split; [discriminate|reflexivity].
      * exists [c_cr], (d :: s). split; [reflexivity|]. split; [right; left; reflexivity|]. split; [congruence|reflexivity].
  - destruct (N.eq_dec c c_nl) as [->|Hn].
    + right. exists [c_nl], s. split; [reflexivity|]. split; [left; reflexivity|]. split; [discriminate|reflexivity].
    + left. exists c, s. auto.
Qed.

Lemma ending_length e : line_ending e -> 1 <= length e.
Proof. intros [<-|[<-|[<-|[]]]]; cbn; lia. Qed.

(** Reading turns every ending into a newline and keeps everything else. *)
Lemma universal_same s : same_lines s (universal_newlines s) /\ ~ In c_cr (universal_newlines s).
Proof.
  remember (length s) as n eqn:En. revert s En. induction n as [n IH] using lt_wf_ind. intros s ->.
  destruct (universal_cases s) as [->|[(c & t & -> & H1 & H2 & ->)|(e & t & -> & He & Hw & ->)]].
  - split; [constructor|intros []].
  - destruct (IH (length t) ltac:(cbn; lia) t eq_refl) as [I1 I2].
    split; [constructor; assumption|]. intros [E|E]; [congruence|tauto].
  - assert (L := ending_length e He).
    destruct (IH (length t) ltac:(rewrite app_length; lia) t eq_refl) as [I1 I2].
    split; [|intros [E|E]; [discriminate|tauto]].
    apply (same_lines_ending e [c_nl]); auto; [left; reflexivity|discriminate].
Qed.

Lemma universal_ending e s : line_ending e -> (e = [c_cr] -> forall t, s <> c_nl :: t) ->
  universal_newlines (e ++ s) = c_nl :: universal_newlines s.
Proof.
  intros [<-|[<-|[<-|[]]]] H; [reflexivity| |reflexivity].
  cbn. destruct s as [|d s]; [reflexivity|]. destruct (N.eqb_spec d c_nl) as [->|]; [|reflexivity].
  exfalso. eapply H; reflexivity.
Qed.

Lemma universal_lines s s' : same_lines s s' -> universal_newlines s = universal_newlines s'.
Proof.
  induction 1 as [|c s s' H1 H2 H IH|e e' s s' He He' Hw Hw' H IH]; [reflexivity| |].
  - cbn [universal_newlines]. apply N.eqb_neq in H1. rewrite H1, IH. reflexivity.
  - rewrite !universal_ending by assumption. rewrite IH. reflexivity.
Qed.

Lemma same_lines_refl s : same_lines s s.
Proof.
  remember (length s) as n eqn:En. revert s En. induction n as [n IH] using lt_wf_ind. intros s ->.
  destruct (universal_cases s) as [->|[(c & t & -> & H1 & H2 & _)|(e & t & -> & He & Hw & _)]].
  - constructor.
  - constructor; auto. apply (IH (length t)); [cbn; lia|reflexivity].
  - assert (L := ending_length e He). apply same_lines_ending; auto.
    apply (IH (length t)); [rewrite app_length; lia|reflexivity].
Qed.

(** What is read from standard input. *)
Lemma universal_read input text : same_lines input text -> ~ In c_cr text -> universal_newlines input = text.
Proof. intros H N. rewrite (universal_lines _ _ H). apply universal_newlines_id. exact N. Qed.
