(** Properties C01-C03, C52, C53: the consistency gate of [reformat_markdown_text], its
    effect on the logging configuration, and [truncate_str]. *)
From Coq Require Import String.
From Verif Require Import Py Regex Utils TextWrap Lines Detectors Formatters Logging Base.

(** * Vocabulary *)

(** [body] does not end in whitespace. *)
Definition no_trailing_space (body : str) : Prop :=
  body = [] \/ exists b c, body = b ++ [c] /\ is_space c = false.

(** [body] is [t] without its trailing whitespace. *)
Definition trimmed (t body : str) : Prop :=
  no_trailing_space body
  /\ exists ws, t = body ++ ws /\ Forall (fun c => is_space c = true) ws.

Lemma trimmed_rstrip t body : trimmed t body <-> body = rstrip t.
Proof.
  unfold trimmed, no_trailing_space, rstrip. split.
  - intros [Hb (ws & -> & Hw)].
    rewrite rstrip_by_app by (apply forallb_forall; apply Forall_forall; exact Hw).
    destruct Hb as [->|(b & c & -> & Hc)]; [reflexivity|].
    rewrite rstrip_by_snoc by exact Hc. reflexivity.
  - intros ->. split.
    + destruct (rstrip_by is_space t) as [|x l] eqn:E using rev_ind; [left; auto|].
      right. exists l, x. split; [auto|]. eapply rstrip_by_last; eauto.
    + destruct (rstrip_by_spec is_space t) as (ws & E & Hw). exists ws.
      split; [exact E|]. apply Forall_forall. apply forallb_forall. exact Hw.
Qed.

(** * C01 *)

Theorem C01_self_consistency_gate : forall lim text w,
  (forall out,
     reformat_markdown_text lim text w = Ok out
     <-> exists t body, reformat_pass lim text w = Ok t
           /\ reformat_pass lim t w = Ok t
           /\ trimmed t body /\ out = body ++ [c_nl])
  /\ (forall t t', reformat_pass lim text w = Ok t -> reformat_pass lim t w = Ok t' ->
        t <> t' -> reformat_markdown_text lim text w = Err ReformatInconsistentException)
  /\ (forall e, reformat_pass lim text w = Err e ->
        reformat_markdown_text lim text w = Err e)
  /\ (forall t e, reformat_pass lim text w = Ok t -> reformat_pass lim t w = Err e ->
        reformat_markdown_text lim text w = Err e).
Proof.
  intros lim text w. unfold reformat_markdown_text. split; [|split; [|split]].
  - intros out. destruct (reformat_pass lim text w) as [t|e] eqn:E1; cbn [bind].
    2:{ split; [discriminate|]. intros (t & b & H & _). discriminate. }
    destruct (reformat_pass lim t w) as [t2|e] eqn:E2; cbn [bind].
    2:{ split; [discriminate|]. intros (t' & b & H1 & H2 & _). congruence. }
    destruct (str_eqb t2 t) eqn:Eq.
    + apply str_eqb_eq in Eq. subst t2. split.
      * intros H. inv H. exists t, (rstrip t). rewrite trimmed_rstrip. auto.
      * intros (t' & b & H1 & H2 & H3 & ->). inv H1. apply trimmed_rstrip in H3.
        subst b. reflexivity.
    + apply str_eqb_neq in Eq. split; [discriminate|].
      intros (t' & b & H1 & H2 & _). congruence.
  - intros t t' -> Hn Hne. cbn [bind]. rewrite Hn. cbn [bind].
    assert (E : str_eqb t' t = false) by (apply str_eqb_neq; congruence).
    rewrite E. reflexivity.
  - intros e ->. reflexivity.
  - intros t e -> Hn. cbn [bind]. rewrite Hn. reflexivity.
Qed.

Example C01_nonvacuous_ok :
  reformat_pass 9 (lit "#  a") (WInt 88) = Ok (lit "# a" ++ [c_nl])
  /\ reformat_pass 9 (lit "# a" ++ [c_nl]) (WInt 88) = Ok (lit "# a" ++ [c_nl]).
Proof. split; vm_compute; reflexivity. Qed.
Example C01_nonvacuous_inconsistent :
  reformat_markdown_text 9 (lit "> foo  " ++ [c_nl] ++ lit "> bar") (WInt 88)
  = Err ReformatInconsistentException.
Proof. vm_compute. reflexivity. Qed.

(** * C02 *)

Theorem C02_single_trailing_newline : forall lim text w out,
  reformat_markdown_text lim text w = Ok out ->
  exists body, out = body ++ [c_nl] /\ no_trailing_space body.
Proof.
  intros lim text w out H. apply C01_self_consistency_gate in H.
  destruct H as (t & body & _ & _ & [Hb _] & ->). exists body. auto.
Qed.

Example C02_nonvacuous :
  reformat_markdown_text 9 (lit "a" ++ [c_nl; c_nl; c_sp; c_nl]) (WInt 88)
  = Ok (lit "a" ++ [c_nl]).
Proof. vm_compute. reflexivity. Qed.

(** * C03 *)

Theorem C03_idempotence_refuted :
  exists text w r, reformat_markdown_text 9 text w = Ok r
    /\ reformat_markdown_text 9 r w = Err StopIteration.
Proof.
  exists (lit "[aaaa]: /bbbb" ++ [c_nl; c_nl]), (WInt 10), (lit "[aaaa]: /bbbb" ++ [c_nl]).
  split; vm_compute; reflexivity.
Qed.

(** Formatting again can also change the text: an empty numbered entry after a quote loses
    its last space, and then its number is taken for text of the quote. *)
Theorem C03_changes_refuted :
  exists text w r r', reformat_markdown_text 9 text w = Ok r
    /\ reformat_markdown_text 9 r w = Ok r' /\ r <> r'
    /\ r = lit "> a" ++ [c_nl] ++ lit "1." ++ [c_nl] /\ r' = lit "> a 1." ++ [c_nl].
Proof.
  exists (lit "> a" ++ [c_nl] ++ lit "1. " ++ [c_nl]), (WInt 80),
    (lit "> a" ++ [c_nl] ++ lit "1." ++ [c_nl]), (lit "> a 1." ++ [c_nl]).
  split; [vm_compute; reflexivity|]. split; [vm_compute; reflexivity|]. split; [discriminate|auto].
Qed.

(** Idempotence holds whenever the formatted document does not end in blank space that
    the final trimming removes. *)
Theorem C03_idempotence_partial : forall lim text w body,
  reformat_pass lim text w = Ok (body ++ [c_nl]) -> no_trailing_space body ->
  forall r, reformat_markdown_text lim text w = Ok r ->
  r = body ++ [c_nl] /\ reformat_markdown_text lim r w = Ok r.
Proof.
  intros lim text w body H Hb r Hr.
  apply C01_self_consistency_gate in Hr. destruct Hr as (t & b & H1 & H2 & H3 & ->).
  rewrite H in H1. inv H1.
  assert (E : b = body).
  { assert (T : trimmed (body ++ [c_nl]) body).
    { split; [exact Hb|]. exists [c_nl]. split; [auto|]. repeat constructor. }
    apply trimmed_rstrip in T, H3. congruence. }
  subst b. split; [reflexivity|]. apply C01_self_consistency_gate.
  exists (body ++ [c_nl]), body. auto.
Qed.

Example C03_nonvacuous :
  reformat_pass 9 (lit "*  a") (WInt 88) = Ok (lit "* a" ++ [c_nl])
  /\ no_trailing_space (lit "* a").
Proof.
  split; [vm_compute; reflexivity|]. right. exists (lit "* "), 97%N. split; reflexivity.
Qed.

(** * C52 *)

Theorem C52_logging_restored_refuted :
  exists text w st,
    info_const st = INFO
    /\ info_const (snd (reformat_markdown_text_log 9 text w st)) <> INFO.
Proof.
  exists (lit "* .x"), (WInt 88), (LogState 0 WARNING INFO). split; [reflexivity|].
  vm_compute. discriminate.
Qed.

Theorem C52_level_restored_refuted :
  exists text w st,
    effective_level (snd (reformat_markdown_text_log 9 text w st)) <> effective_level st.
Proof.
  exists (lit "aaaa |x|"), (WInt 4), (LogState 0 WARNING INFO).
  vm_compute. discriminate.
Qed.

(** Even a successful call pins the level the logger had inherited. *)
Theorem C52_own_level_pinned_refuted :
  exists text w st,
    (exists r, fst (reformat_markdown_text_log 9 text w st) = Ok r)
    /\ own_level (snd (reformat_markdown_text_log 9 text w st)) <> own_level st.
Proof.
  exists (lit "a"), (WInt 88), (LogState 0 WARNING INFO).
  split; [eexists; vm_compute; reflexivity|]. vm_compute. discriminate.
Qed.

(** Whenever both passes succeed (so on every return, and when they disagree) the
    effective level and [logging.INFO] are unchanged; and the result of the call never
    depends on the logging configuration. *)
Theorem C52_logging_restored_partial : forall lim text w st,
  effective_level st <> 0%Z ->
  fst (reformat_markdown_text_log lim text w st) = reformat_markdown_text lim text w
  /\ (forall t t', reformat_pass lim text w = Ok t -> reformat_pass lim t w = Ok t' ->
      forall st', st' = snd (reformat_markdown_text_log lim text w st) ->
      effective_level st' = effective_level st /\ info_const st' = info_const st
      /\ inherited_level st' = inherited_level st).
Proof.
  intros lim text w st Hl.
  unfold reformat_markdown_text_log, reformat_markdown_text.
  destruct (reformat_pass lim text w) as [t|e] eqn:E1; cbn [bind info_after fst snd].
  - set (st1 := if (DEBUG <? effective_level st)%Z then set_level st ERROR else st).
    destruct (reformat_pass lim t w) as [t2|e] eqn:E2; cbn [bind info_after fst snd].
    + assert (G : effective_level (set_level st1 (effective_level st)) = effective_level st
                  /\ info_const (set_level st1 (effective_level st)) = info_const st
                  /\ inherited_level (set_level st1 (effective_level st))
                     = inherited_level st).
      { subst st1. unfold effective_level at 1. cbn [set_level own_level].
        apply Z.eqb_neq in Hl. rewrite Hl.
        destruct (DEBUG <? effective_level st)%Z; cbn; auto. }
      destruct (str_eqb t2 t); cbn [fst snd]; (split; [reflexivity|]);
        intros ? ? _ _ st' ->; exact G.
    + split; [destruct e; reflexivity|]. intros u u' Hu Hu'. inv Hu. congruence.
  - split; [destruct e; reflexivity|]. intros u u' Hu. discriminate.
Qed.

Example C52_nonvacuous :
  effective_level (LogState 0 WARNING INFO) <> 0%Z
  /\ exists t, reformat_pass 9 (lit "#  a") (WInt 88) = Ok t
               /\ reformat_pass 9 t (WInt 88) = Ok t.
Proof. split; [discriminate|]. eexists. split; [vm_compute; reflexivity|]. vm_compute. reflexivity. Qed.

(** * C53 *)

Theorem C53_truncate : forall s n,
  (length s <= n -> truncate_str s (Z.of_nat n) = s)
  /\ (n < length s ->
      length (truncate_str s (Z.of_nat n)) = n
      /\ exists k, k <= 3
           /\ truncate_str s (Z.of_nat n) = firstn (n - k) s ++ repeat c_dot k).
Proof.
  intros s n. unfold truncate_str. cbn [length ELLIPSIS]. split.
  - intros H. replace (Z.of_nat (length s) <=? Z.of_nat n)%Z with true by lia. reflexivity.
  - intros H.
    destruct (Z.leb_spec (Z.of_nat (length s)) (Z.of_nat n)); [lia|].
    destruct (Z.leb_spec (Z.of_nat n) (Z.of_nat 3)) as [H3|H3].
    + rewrite Nat2Z.id. split; [apply rep_length|]. exists n. split; [lia|].
      rewrite Nat.sub_diag. reflexivity.
    + replace (Z.to_nat (Z.max 0 (Z.of_nat n - Z.of_nat 3))) with (n - 3) by lia.
      split.
      * rewrite app_length, firstn_length. cbn [length ELLIPSIS]. lia.
      * exists 3. split; [lia|reflexivity].
Qed.

Example C53_nonvacuous : truncate_str (lit "abcdefgh") 5 = lit "ab..."
                         /\ truncate_str (lit "abcdefgh") 2 = lit "..".
Proof. split; reflexivity. Qed.
