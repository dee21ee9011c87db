(** Proofs about the files below a directory. *)
From Coq Require Import String.
From Verif Require Import Py Cli Glob Base SpecGlob.
Local Open Scope nat_scope.

Lemma hidden_visible n : is_hidden n = false <-> visible n.
Proof.
  unfold is_hidden, visible. destruct n as [|c n]; cbn [startswith].
  - split; [intros _ r; discriminate|reflexivity].
  - destruct (N.eqb_spec c_dot c) as [<-|H]; cbn.
    + split; [destruct n; discriminate|]. intros H. exfalso. apply (H n). reflexivity.
    + split; [intros _ r E; congruence|reflexivity].
Qed.

Lemma magic_ordinary n : has_magic n = false <-> ordinary n.
Proof.
  unfold has_magic, ordinary. rewrite <- not_true_iff_false, existsb_exists. split.
  - intros H c Hc Hin. apply H. exists c. split; [exact Hc|].
    destruct Hin as [<-|[<-|[<-|[]]]]; reflexivity.
  - intros H (c & Hc & E). apply (H c Hc). rewrite !orb_true_iff, !N.eqb_eq in E. cbn. unfold c_qmark in E.
    destruct E as [[E|E]|E]; auto.
Qed.

Lemma fnmatch_md n : fnmatch (lit "*.md") n = true <-> exists stem, n = stem ++ lit ".md".
Proof.
  change (fnmatch (lit "*.md") n) with (wmatch (WStar :: map WChar (lit ".md")) n).
  assert (G : forall t s, wmatch (map WChar t) s = str_eqb t s).
  { induction t as [|a t IH]; intros [|b s]; try reflexivity. cbn. rewrite IH. reflexivity. }
  induction n as [|c n IH].
  - split; [intros H; vm_compute in H; discriminate|]. intros (stem & H). destruct stem; discriminate.
  - change (wmatch (WStar :: map WChar (lit ".md")) (c :: n))
      with (wmatch (map WChar (lit ".md")) (c :: n) || wmatch (WStar :: map WChar (lit ".md")) n).
    rewrite orb_true_iff, IH, G, str_eqb_eq. split.
    + intros [<-|(stem & ->)]; [exists []; reflexivity|exists (c :: stem); reflexivity].
    + intros ([|a stem] & H); [left; symmetry; exact H|]. right. injection H as -> ->. eauto.
Qed.

Section GlobProofs.
  Variable fs : fsys.
  Variable names : path -> list str.
  Variable depth : nat.
  Hypothesis Hnames : lists_names fs names.
  Hypothesis Hdepth : no_deeper depth fs.

  Lemma dir_some d : is_dir fs d = true <-> exists w, fs d = Some (NDir w).
  Proof.
    unfold is_dir. destruct (fs d) as [[c r w|w]|]; split; try discriminate; try (intros (w' & H); discriminate); eauto.
  Qed.

  Lemma iterdir_spec d dironly n : In n (iterdir fs names d dironly) <->
    is_dir fs d = true /\ fs (d ++ [n]) <> None /\ (dironly = true -> is_dir fs (d ++ [n]) = true).
  Proof.
    unfold iterdir. destruct (is_dir fs d) eqn:E; [|split; [intros []|intros [H _]; discriminate]].
    apply dir_some in E. destruct E as [w E]. destruct (Hnames d w E) as [_ H].
    rewrite filter_In, H, orb_true_iff, negb_true_iff. unfold path_join.
    destruct dironly; intuition congruence.
  Qed.

  Lemma iterdir_nodup d dironly : NoDup (iterdir fs names d dironly).
  Proof.
    unfold iterdir. destruct (is_dir fs d) eqn:E; [|constructor]. apply dir_some in E. destruct E as [w E].
    apply NoDup_filter, (Hnames d w E).
  Qed.

  Lemma under_dir d q : under fs d q -> is_dir fs d = true /\ is_dir fs q = true.
  Proof.
    intros H. induction H as [d w H|d n q w H1 H2 H3 [IH1 IH2]]; [assert (G : is_dir fs d = true) by (apply dir_some; eauto); auto|].
    split; [apply dir_some; eauto|exact IH2].
  Qed.

  Lemma under_prefix d q : under fs d q -> exists r, q = d ++ r.
  Proof.
    intros H. induction H as [d w H|d n q w H1 H2 H3 [r ->]]; [exists []; rewrite app_nil_r; reflexivity|].
    exists (n :: r). rewrite <- app_assoc. reflexivity.
  Qed.

  Lemma under_cons d n r : under fs d (d ++ n :: r) <->
    is_dir fs d = true /\ visible n /\ under fs (d ++ [n]) (d ++ n :: r).
  Proof.
    split.
    - intros H. inversion H as [d' w H1 E1 E2|d' m q w H1 H2 H3 E1 E2]; subst.
      + exfalso. assert (L := f_equal (@length _) E2). rewrite app_length in L. cbn in L. lia.
      + destruct (under_prefix _ _ H3) as [r' E]. rewrite <- app_assoc in E. apply app_inv_head in E.
        injection E as -> ->. split; [apply dir_some; eauto|]. auto.
    - intros (H1 & H2 & H3). apply dir_some in H1. destruct H1 as [w H1]. eapply under_step; eauto.
  Qed.

  Lemma rlistdir_spec n d r : depth <= length d + n ->
    (In r (rlistdir fs names n d true) <-> r <> [] /\ under fs d (d ++ r)).
  Proof.
    revert d r. induction n as [|n IH]; intros d r Hn.
    - split; [intros []|]. intros [Hr H]. destruct r as [|x r]; [congruence|]. exfalso.
      apply under_cons in H. destruct H as (_ & _ & H). apply under_dir in H. destruct H as [H _].
      apply dir_some in H. destruct H as [w H]. assert (L := Hdepth (d ++ [x])). rewrite H in L.
      specialize (L ltac:(discriminate)). rewrite app_length in L. cbn in L. lia.
    - cbn [rlistdir]. rewrite in_flat_map. split.
      + intros (x & Hx & Hr). apply iterdir_spec in Hx. destruct Hx as (Hd & _ & Hx). specialize (Hx eq_refl).
        destruct (is_hidden x) eqn:Eh; [destruct Hr|]. apply hidden_visible in Eh.
        destruct Hr as [<-|Hr].
        * split; [discriminate|]. apply under_cons. split; [exact Hd|]. split; [exact Eh|].
          apply dir_some in Hx. destruct Hx as [w Hx]. eapply under_self. exact Hx.
        * apply in_map_iff in Hr. destruct Hr as (r' & <- & Hr). split; [discriminate|].
          apply IH in Hr; [|unfold path_join; rewrite app_length; cbn; lia].
          apply under_cons. split; [exact Hd|]. split; [exact Eh|]. destruct Hr as [_ Hr]. unfold path_join in Hr.
          rewrite <- app_assoc in Hr. exact Hr.
      + intros [Hr H]. destruct r as [|x r]; [congruence|]. apply under_cons in H. destruct H as (Hd & Hv & H).
        exists x. assert (Hx := proj1 (under_dir _ _ H)). split.
        * apply iterdir_spec. split; [exact Hd|]. split; [|auto]. apply dir_some in Hx. destruct Hx as [w ->]. discriminate.
        * apply hidden_visible in Hv. rewrite Hv. destruct r as [|y r]; [left; reflexivity|]. right.
          apply in_map. apply IH; [unfold path_join; rewrite app_length; cbn; lia|]. split; [discriminate|].
          unfold path_join. rewrite <- app_assoc. exact H.
  Qed.

  Lemma NoDup_flat_map {A B} (f : A -> list B) l :
    NoDup l -> (forall a, In a l -> NoDup (f a)) ->
    (forall a b x, In a l -> In b l -> In x (f a) -> In x (f b) -> a = b) -> NoDup (flat_map f l).
  Proof.
    intros Hl. induction Hl as [|a l Ha Hl IH]; intros Hf Hd; [constructor|]. cbn [flat_map].
    assert (G : forall l1 l2 : list B, NoDup l1 -> NoDup l2 -> (forall x, In x l1 -> ~ In x l2) -> NoDup (l1 ++ l2)).
    { intros l1 l2 H1 H2. induction H1 as [|x l1 Hx H1 IH1]; intros Hn; [exact H2|]. cbn. constructor.
      - rewrite in_app_iff. intros [H|H]; [contradiction|]. apply (Hn x); [left; reflexivity|exact H].
      - apply IH1. intros y Hy. apply Hn. right. exact Hy. }
    apply G.
    - apply Hf. left. reflexivity.
    - apply IH; [intros b Hb; apply Hf; right; exact Hb|]. intros b c x Hb Hc. apply Hd; right; assumption.
    - intros x Hx Hx'. apply in_flat_map in Hx'. destruct Hx' as (b & Hb & Hx').
      assert (E : a = b) by (apply (Hd a b x); [left; reflexivity|right; exact Hb|exact Hx|exact Hx']). subst b. contradiction.
  Qed.

  Lemma NoDup_map_inj {A B} (f : A -> B) l : (forall a b, f a = f b -> a = b) -> NoDup l -> NoDup (map f l).
  Proof.
    intros Hf H. induction H as [|a l Ha H IH]; [constructor|]. cbn. constructor; [|exact IH].
    rewrite in_map_iff. intros (b & E & Hb). apply Hf in E. subst b. contradiction.
  Qed.

  Lemma rlistdir_nodup n d : NoDup (rlistdir fs names n d true) /\ ~ In [] (rlistdir fs names n d true).
  Proof.
    revert d. induction n as [|n IH]; intros d; [split; [constructor|intros []]|]. cbn [rlistdir]. split.
    - apply NoDup_flat_map; [apply iterdir_nodup| |].
      + intros x _. destruct (is_hidden x); [constructor|]. constructor.
        * rewrite in_map_iff. intros (r & E & Hr). injection E as ->. exact (proj2 (IH _) Hr).
        * apply NoDup_map_inj; [intros a b E; injection E; auto|apply IH].
      + intros x y r _ _ Hx Hy.
        assert (G : forall z, In r (if is_hidden z then [] else [z] :: map (cons z) (rlistdir fs names n (path_join d z) true)) ->
          exists r', r = z :: r').
        { intros z Hz. destruct (is_hidden z); [destruct Hz|]. destruct Hz as [<-|Hz]; [eauto|].
          apply in_map_iff in Hz. destruct Hz as (r' & <- & _). eauto. }
        destruct (G x Hx) as [r1 ->]. destruct (G y Hy) as [r2 E]. injection E as -> _. reflexivity.
    - rewrite in_flat_map. intros (x & _ & Hx). destruct (is_hidden x); [destruct Hx|].
      destruct Hx as [Hx|Hx]; [discriminate|]. apply in_map_iff in Hx. destruct Hx as (r & E & _). discriminate.
  Qed.

  (** The Markdown files in one directory. *)
  Definition md_here (q : path) : list path :=
    map (fun x => [x]) (filter (fnmatch (lit "*.md")) (filter (fun x => negb (is_hidden x)) (iterdir fs names q false))).

  Lemma glob_md_eq d : Forall ordinary d ->
    glob_md fs names depth d
    = flat_map (fun q => map (fun x => q ++ x) (md_here q)) (map (fun q => d ++ q) ([] :: rlistdir fs names depth d true)).
  Proof.
    intros Ho. unfold glob_md. rewrite rev_app_distr. cbn [rev app].
    assert (E : existsb has_magic (rev d) = false).
    { apply not_true_is_false. intros H. apply existsb_exists in H. destruct H as (x & Hx & H).
      rewrite <- in_rev in Hx. rewrite Forall_forall in Ho. apply Ho, magic_ordinary in Hx. congruence. }
    cbn [iglob]. change (existsb has_magic (lit "*.md" :: lit "**" :: rev d)) with true. cbn [negb].
    change (existsb has_magic (lit "**" :: rev d)) with true. cbn [negb]. rewrite E. cbn [negb].
    rewrite rev_involutive. cbn [flat_map]. rewrite app_nil_r. reflexivity.
  Qed.

  Lemma md_here_spec q x : In x (md_here q) <->
    exists stem, x = [stem ++ lit ".md"] /\ visible (stem ++ lit ".md") /\ is_dir fs q = true
      /\ fs (q ++ [stem ++ lit ".md"]) <> None.
  Proof.
    unfold md_here. rewrite in_map_iff. split.
    - intros (n & <- & H). rewrite !filter_In, iterdir_spec, negb_true_iff, hidden_visible, fnmatch_md in H.
      destruct H as (((H1 & H2 & _) & H3) & stem & ->). exists stem. auto.
    - intros (stem & -> & H1 & H2 & H3). exists (stem ++ lit ".md"). split; [reflexivity|].
      rewrite !filter_In, iterdir_spec, negb_true_iff, hidden_visible, fnmatch_md.
      split; [|eauto]. split; [|exact H1]. split; [exact H2|]. split; [exact H3|discriminate].
  Qed.

  Lemma glob_md_spec d p : Forall ordinary d -> is_dir fs d = true ->
    (In p (glob_md fs names depth d) <-> markdown_below fs d p).
  Proof.
    intros Ho Hd. rewrite (glob_md_eq d Ho), in_flat_map. split.
    - intros (q & Hq & Hp). apply in_map_iff in Hq. destruct Hq as (r & <- & Hr).
      apply in_map_iff in Hp. destruct Hp as (x & <- & Hx). apply md_here_spec in Hx.
      destruct Hx as (stem & -> & Hv & _ & Hx). exists (d ++ r), stem. split; [|auto].
      destruct Hr as [<-|Hr].
      + rewrite app_nil_r. apply dir_some in Hd. destruct Hd as [w Hd]. eapply under_self. exact Hd.
      + apply rlistdir_spec in Hr; [apply Hr|lia].
    - intros (q & stem & Hu & Hv & -> & Hp). exists q. split.
      + destruct (under_prefix _ _ Hu) as [r ->]. apply in_map_iff. exists r. split; [reflexivity|].
        destruct r as [|x r]; [left; reflexivity|]. right. apply rlistdir_spec; [lia|]. split; [discriminate|exact Hu].
      + apply in_map_iff. exists [stem ++ lit ".md"]. split; [reflexivity|]. apply md_here_spec. exists stem.
        split; [reflexivity|]. split; [exact Hv|]. split; [exact (proj2 (under_dir _ _ Hu))|exact Hp].
  Qed.

  Lemma glob_md_nodup d : Forall ordinary d -> NoDup (glob_md fs names depth d).
  Proof.
    intros Ho. rewrite (glob_md_eq d Ho). apply NoDup_flat_map.
    - apply NoDup_map_inj; [apply app_inv_head|]. constructor; apply rlistdir_nodup.
    - intros q _. apply NoDup_map_inj; [apply app_inv_head|]. unfold md_here.
      apply NoDup_map_inj; [intros a b E; injection E; auto|]. apply NoDup_filter, NoDup_filter, iterdir_nodup.
    - intros q q' x _ _ Hx Hx'. apply in_map_iff in Hx. destruct Hx as (y & <- & Hy).
      apply in_map_iff in Hx'. destruct Hx' as (y' & E & Hy').
      apply md_here_spec in Hy. destruct Hy as (s & -> & _). apply md_here_spec in Hy'. destruct Hy' as (s' & -> & _).
      apply app_inj_tail in E. symmetry. apply E.
  Qed.
End GlobProofs.
