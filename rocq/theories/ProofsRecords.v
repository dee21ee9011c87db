(** Lemmas on log records. *)
From Coq Require Import String.
From Verif Require Import Py Regex Utils TextWrap Lines Detectors Formatters Logging Records Base
  SpecLines SpecParser SpecFormat SpecList SpecQuote SpecDefinition SpecErrors SpecWidth SpecRecords
  ProofsLines ProofsShapes ProofsList ProofsPass ProofsParser ProofsLimit ProofsErrors PropsParser PropsLeaf PropsList PropsQuote PropsDefinition PropsLocal.
Local Open Scope nat_scope.

(** * Records do not change results *)

Lemma snd_lbind {A B} (x : logged A) (f : A -> logged B) :
  snd (lbind x f) = (a <- snd x ;; snd (f a)).
Proof. destruct x as [rs [a|e]]; cbn; [|reflexivity]. destruct (f a); reflexivity. Qed.

Lemma fst_lbind_ok {A B} (x : logged A) (f : A -> logged B) a : snd x = Ok a ->
  fst (lbind x f) = fst x ++ fst (f a).
Proof. destruct x as [rs y]. cbn. intros ->. destruct (f a). reflexivity. Qed.

Lemma fst_lbind_err {A B} (x : logged A) (f : A -> logged B) e : snd x = Err e ->
  fst (lbind x f) = fst x.
Proof. destruct x as [rs y]. cbn. intros ->. reflexivity. Qed.

Lemma quietly_bind {A B} (x : res A) (f : A -> logged B) rs y :
  lbind (quietly x) f = (rs, y) ->
  (exists a, x = Ok a /\ f a = (rs, y)) \/ (exists e, x = Err e /\ rs = [] /\ y = Err e).
Proof.
  unfold quietly, lbind. destruct x as [a|e].
  - destruct (f a) as [rs' y'] eqn:E. cbn [app]. intros H. left. exists a. rewrite E. auto.
  - intros H. injection H as <- <-. right. exists e. auto.
Qed.

Lemma fst_quietly_bind {A B} (x : res A) (f : A -> logged B) :
  fst (lbind (quietly x) f) = match x with Ok a => fst (f a) | Err _ => [] end.
Proof. destruct x as [a|e]; cbn; [destruct (f a)|]; reflexivity. Qed.

Lemma snd_mapL {A B} (f : A -> logged B) l : snd (mapL f l) = mapM (fun x => snd (f x)) l.
Proof.
  induction l as [|a l IH]; [reflexivity|]. cbn [mapL mapM]. rewrite snd_lbind. destruct (snd (f a)); cbn [bind]; [|reflexivity].
  rewrite snd_lbind, IH. reflexivity.
Qed.

Section R.
  Variable R : str -> str.

  Lemma describe_check ty lines : repr_check ty lines = (_ <- describe R ty lines ;; Ok tt).
  Proof.
    destruct ty; cbn [repr_check describe]; try reflexivity.
    - destruct (nth_line lines 0); reflexivity.
    - destruct (nth_line lines 0); reflexivity.
    - destruct (nth_line lines 0) as [l|]; [|reflexivity]. cbn [bind]. destruct (first_char (lstrip l)); reflexivity.
    - destruct (length lines =? 2); cbn [bind].
      + destruct (nth_line lines 0) as [l|]; [|reflexivity]. cbn [bind]. destruct (first_char (strip l)); reflexivity.
      + destruct (nth_line lines 1) as [l1|]; [|reflexivity]. cbn [bind].
        destruct (nth_line lines 0) as [l|]; [|reflexivity]. cbn [bind]. destruct (first_char (strip l)); reflexivity.
    - destruct (nth_line lines 0); reflexivity.
    - destruct (lrd_parts lines) as [[[? ?] ?]|]; reflexivity.
    - destruct (nth_line lines 0) as [l|]; [|reflexivity]. cbn [bind]. destruct (first_number l); reflexivity.
    - destruct (length lines <? 2); [reflexivity|]. destruct (first_char _); reflexivity.
    - destruct (nth_line lines 0) as [l|]; [|reflexivity]. cbn [bind]. destruct (first_char (strip l)); reflexivity.
  Qed.

  Lemma build_snd info i last secs : snd (build_formatters_log R info i last secs) = build_formatters i last secs.
  Proof.
    revert i last. induction secs as [|[ty content] secs IH]; intros i last; [reflexivity|].
    cbn [build_formatters_log build_formatters]. rewrite snd_lbind. cbn [quietly snd]. rewrite describe_check.
    destruct (describe R ty content) as [d|e]; [|reflexivity]. cbn [bind]. rewrite snd_lbind. cbn [emit snd bind].
    rewrite snd_lbind.
    assert (E : snd (setext_blank i last ty) = Ok (match ty, last with
                   | SETEXT_HEADING, Some BLOCK_QUOTE => [(BLANK_LINE, i, [[]])]
                   | _, _ => []
                   end)).
    { destruct ty; try reflexivity. destruct last as [[]|]; reflexivity. }
    rewrite E. cbn [bind]. rewrite snd_lbind, IH. destruct (build_formatters _ _ secs); reflexivity.
  Qed.

  Lemma snd_redirect {A} (x : logged A) : snd (redirect_log x) = with_redirect (snd x).
  Proof. reflexivity. Qed.

  Section Nested.
    Variable nested : list str -> width -> logged str.
    Variable nested' : list str -> width -> res str.
    Hypothesis same : forall l w, snd (nested l w) = nested' l w.

    Lemma entry_snd p n w e : snd (format_entry_log nested p n w e) = format_entry nested' p n w e.
    Proof. unfold format_entry_log, format_entry. rewrite snd_lbind, !snd_redirect, same. reflexivity. Qed.

    Lemma reformatted_snd ty i lines w :
      snd (reformatted_log nested ty i lines w) = reformatted nested' ty i lines w.
    Proof.
      destruct ty; try reflexivity; cbn [reformatted_log reformatted].
      - unfold fmt_atx_heading_log. destruct lines as [|l lines]; [reflexivity|]. rewrite snd_lbind.
        destruct (startswith _ _); reflexivity.
      - unfold fmt_block_quote_log, fmt_block_quote. rewrite snd_lbind. cbn [quietly snd].
        destruct (nth_line lines 0) as [l0|]; [|reflexivity]. cbn [bind]. rewrite snd_lbind, snd_redirect, same. reflexivity.
      - unfold fmt_bullet_list_log, fmt_bullet_list. rewrite snd_lbind. cbn [quietly snd].
        destruct (split_list lines) as [es|]; [|reflexivity]. cbn [bind]. rewrite snd_lbind. cbn [quietly snd].
        destruct (dedent_entries es) as [ds|]; [|reflexivity]. cbn [bind]. rewrite snd_lbind. cbn [quietly snd].
        destruct (nth_line lines 0) as [l0|]; [|reflexivity]. cbn [bind]. rewrite snd_lbind. cbn [quietly snd].
        destruct (first_char (lstrip l0)) as [m|]; [|reflexivity]. cbn [bind]. rewrite snd_lbind, snd_mapL.
        rewrite (mapM_ext _ (format_entry nested' [m] 2 w)); [reflexivity|]. intros x _. apply entry_snd.
      - unfold fmt_ordered_list_log, fmt_ordered_list. rewrite snd_lbind. cbn [quietly snd].
        destruct (split_list lines) as [es|]; [|reflexivity]. cbn [bind]. rewrite snd_lbind. cbn [quietly snd].
        destruct (nth_line lines 0) as [l0|]; [|reflexivity]. cbn [bind]. rewrite snd_lbind. cbn [quietly snd].
        destruct (first_number l0) as [m|]; [|reflexivity]. cbn [bind]. rewrite snd_lbind. cbn [quietly snd].
        destruct (dedent_entries es) as [ds|]; [|reflexivity]. cbn [bind]. rewrite snd_lbind, snd_mapL.
        match goal with |- bind ?x _ = bind ?y _ => replace x with y; [reflexivity|] end. symmetry.
        apply mapM_ext. intros [n e] _. apply entry_snd.
    Qed.
  End Nested.

  Lemma pass_snd lim info text w : snd (reformat_pass_log R lim info text w) = reformat_pass lim text w.
  Proof.
    revert info text w. induction lim as [|lim IH]; intros info text w; [reflexivity|].
    cbn [reformat_pass_log reformat_pass]. rewrite snd_lbind. cbn [quietly snd].
    destruct (parse_markdown lim (splitlines text)) as [secs|]; [|reflexivity]. cbn [bind].
    rewrite snd_lbind, build_snd. destruct (build_formatters 0 None secs) as [fs|]; [|reflexivity]. cbn [bind].
    rewrite snd_lbind.
    match goal with |- context [mapL ?f fs] => assert (E := snd_mapL f fs); destruct (mapL f fs) as [rs x] end.
    cbn [snd] in E |- *. rewrite E. f_equal. f_equal. apply mapM_ext. intros [[ty i] ls] _.
    apply reformatted_snd. intros l w'. apply IH.
  Qed.

  (** * Levels *)

  (** Messages for the user about a section are at the level [info]. *)
  Definition leveled (info : Z) (r : record) : Prop :=
    (r_logger r = LReformat /\ r_level r = info) \/ r_level r = WARNING.

  Lemma Forall_lbind {A B} (P : record -> Prop) (x : logged A) (f : A -> logged B) :
    Forall P (fst x) -> (forall a, snd x = Ok a -> Forall P (fst (f a))) -> Forall P (fst (lbind x f)).
  Proof.
    destruct x as [rs [a|e]]; cbn; intros H1 H2; [|exact H1]. specialize (H2 a eq_refl). destruct (f a) as [rs' y].
    cbn in H2 |- *. apply Forall_app. auto.
  Qed.

  Lemma Forall_mapL {A B} (P : record -> Prop) (f : A -> logged B) l :
    (forall a, In a l -> Forall P (fst (f a))) -> Forall P (fst (mapL f l)).
  Proof.
    induction l as [|a l IH]; intros H; [constructor|]. cbn [mapL]. apply Forall_lbind; [apply H; left; reflexivity|].
    intros b _. apply Forall_lbind; [apply IH; intros; apply H; right; assumption|]. intros bs _. constructor.
  Qed.

  Lemma build_levels info i last secs : Forall (leveled info) (fst (build_formatters_log R info i last secs)).
  Proof.
    revert i last. induction secs as [|[ty content] secs IH]; intros i last; [constructor|].
    cbn [build_formatters_log]. apply Forall_lbind; [constructor|]. intros d _.
    apply Forall_lbind; [apply Forall_cons; [left; auto|apply Forall_nil]|]. intros _ _. apply Forall_lbind.
    { destruct ty; try apply Forall_nil. destruct last as [[]|]; try apply Forall_nil. apply Forall_cons; [right; reflexivity|apply Forall_nil]. }
    intros extra _. apply Forall_lbind; [apply IH|]. intros fs _. constructor.
  Qed.

  Lemma reformatted_levels nested ty i lines w :
    (forall l w, Forall (leveled DEBUG) (fst (nested l w))) ->
    Forall (leveled DEBUG) (fst (reformatted_log nested ty i lines w)).
  Proof.
    intros H.
    assert (En : forall p n w e, Forall (leveled DEBUG) (fst (format_entry_log nested p n w e))).
    { intros p n w' e. unfold format_entry_log. apply Forall_lbind; [apply H|]. intros t _. constructor. }
    destruct ty; try apply Forall_nil; cbn [reformatted_log].
    - unfold fmt_atx_heading_log. destruct lines as [|l lines]; [constructor|]. apply Forall_lbind.
      + destruct (startswith _ _); [apply Forall_nil|]. apply Forall_cons; [right; reflexivity|apply Forall_nil].
      + intros _ _. constructor.
    - unfold fmt_block_quote_log. apply Forall_lbind; [constructor|]. intros l0 _. cbv zeta.
      apply Forall_lbind; [apply H|]. intros t _. constructor.
    - unfold fmt_bullet_list_log. do 4 (apply Forall_lbind; [constructor|]; intros ? _).
      apply Forall_lbind; [|intros ? _; constructor]. apply Forall_mapL. intros e _. apply En.
    - unfold fmt_ordered_list_log. do 3 (apply Forall_lbind; [constructor|]; intros ? _). cbv zeta.
      apply Forall_lbind; [constructor|]; intros ? _.
      apply Forall_lbind; [|intros ? _; constructor]. apply Forall_mapL. intros [n e] _. apply En.
  Qed.

  (** The records of a pass: those about its own sections, then the others. *)
  Definition own_records (lim : nat) (info : Z) (text : str) : list record :=
    match parse_markdown lim (splitlines text) with
    | Ok secs => fst (build_formatters_log R info 0 None secs)
    | Err _ => []
    end.

  Lemma own_levels lim info text : Forall (leveled info) (own_records lim info text).
  Proof. unfold own_records. destruct (parse_markdown _ _); [apply build_levels|constructor]. Qed.

  Lemma pass_records_step lim info text w :
    (forall text w, Forall (leveled DEBUG) (fst (reformat_pass_log R lim DEBUG text w))) ->
    exists rest, fst (reformat_pass_log R (S lim) info text w) = own_records lim info text ++ rest
      /\ Forall (leveled DEBUG) rest.
  Proof.
    intros Hn. cbn [reformat_pass_log]. rewrite fst_quietly_bind. unfold own_records.
    destruct (parse_markdown lim (splitlines text)) as [secs|e]; [|exists []; split; [reflexivity|constructor]].
    destruct (snd (build_formatters_log R info 0 None secs)) as [fs|e] eqn:Eb.
    2:{ rewrite (fst_lbind_err _ _ _ Eb). exists []. rewrite app_nil_r. split; [reflexivity|constructor]. }
    rewrite (fst_lbind_ok _ _ _ Eb). eexists. split; [reflexivity|].
    cbv zeta; apply Forall_lbind; [|intros; constructor].
    match goal with |- context [mapL ?f fs] => assert (E : Forall (leveled DEBUG) (fst (mapL f fs)));
      [apply Forall_mapL; intros [[ty i] ls] _; apply reformatted_levels; intros; apply Hn|destruct (mapL f fs); exact E] end.
  Qed.

  Lemma pass_debug lim : forall text w, Forall (leveled DEBUG) (fst (reformat_pass_log R lim DEBUG text w)).
  Proof.
    induction lim as [|lim IH]; intros text w; [constructor|].
    destruct (pass_records_step lim DEBUG text w IH) as (rest & -> & Hr). apply Forall_app. split; [apply own_levels|exact Hr].
  Qed.

  Lemma pass_records lim info text w :
    exists rest, fst (reformat_pass_log R (S lim) info text w) = own_records lim info text ++ rest
      /\ Forall (leveled DEBUG) rest.
  Proof. apply pass_records_step. apply pass_debug. Qed.

  (** * The messages about sections *)

  Lemma decn_number n : number n (decn n).
  Proof. apply dec_decimal. Qed.

  Lemma span_spec i n : 1 <= n -> span_text (i + 1) n (log_span i n).
  Proof.
    intros H. unfold log_span. destruct (Nat.ltb_spec 1 n).
    - right. split; [assumption|]. exists (decn (i + 1)), (decn (i + n)). split; [apply decn_number|].
      split; [|reflexivity]. replace (i + 1 + n - 1) with (i + n) by lia. apply decn_number.
    - left. split; [lia|]. exists (decn (i + 1)). split; [apply decn_number|reflexivity].
  Qed.

  Lemma shortened_spec s : shortened s (truncate_str s 20).
  Proof.
    unfold truncate_str. destruct (Z.leb_spec (Z.of_nat (length s)) 20) as [L|L]; [left; split; [lia|reflexivity]|].
    right. cbn [ELLIPSIS length]. change ((20 <=? Z.of_nat 3)%Z) with false. cbv iota.
    change (Z.to_nat (Z.max 0 (20 - Z.of_nat 3))) with 17. exists (firstn 17 s), (skipn 17 s).
    split; [symmetry; apply firstn_skipn|]. split; [apply firstn_length_le; lia|]. split; [rewrite skipn_length; lia|reflexivity].
  Qed.

  Lemma first_char_line l c : first_char (strip l) = Ok c ->
    exists ws body, l = ws ++ c :: body /\ spaces ws /\ is_space c = false.
  Proof.
    intros H. destruct (strip_spec l) as (a & b & E & Ha & _). destruct (strip l) as [|x t] eqn:Es; [discriminate|].
    cbn in H. injection H as ->. exists a, (t ++ b). split; [exact E|]. split; [apply spaces_forallb; exact Ha|].
    assert (T := proj2 (trims_strip l (c :: t)) (eq_sym Es)). destruct T as (_ & T & _). exact (T _ _ eq_refl).
  Qed.

  Lemma first_number_spec ws ds body : spaces ws -> digits ds ->
    first_number (ws ++ ds ++ c_dot :: body) = Ok (digits_val ds).
  Proof.
    intros Hw [Hn Hd]. unfold first_number, lstrip. rewrite lstrip_by_app by (apply spaces_forallb; exact Hw). rewrite lstrip_by_id.
    - rewrite take_digits by (assumption || reflexivity). destruct ds; [congruence|reflexivity].
    - destruct ds as [|d ds]; [congruence|]. cbn [app]. apply digit_not_space. exact (Forall_inv Hd).
  Qed.

  Lemma trims_all ls : Forall2 trims ls (map strip ls).
  Proof. induction ls; constructor; auto. apply trims_strip. reflexivity. Qed.

  Lemma describe_described ty content d : section_shape ty content -> Forall one_line content ->
    describe R ty content = Ok d -> described R ty content d.
  Proof.
    intros Sh Ho E. destruct ty; cbn [describe] in E; cbn [section_shape described] in *.
    - destruct Sh as (l & -> & (ws & body & -> & Hw & _)). cbn [nth_line nth_error bind] in E. apply ok_inj in E. subst d.
      destruct (run_decomp c_hash body) as (k & t & -> & Ht). exists ws, (S k), t, (strip t), (truncate_str (strip t) 20), (decn (S k)).
      split; [reflexivity|]. split; [exact Hw|]. split; [exact Ht|]. split; [apply trims_strip; reflexivity|].
      split; [apply shortened_spec|]. split; [apply decn_number|]. unfold atx_depth, atx_content, short_repr.
      change (ws ++ c_hash :: repeat c_hash k ++ t) with (ws ++ repeat c_hash (S k) ++ t).
      destruct (run_count ws c_hash (S k) t Hw eq_refl ltac:(lia) Ht) as [-> ->]. reflexivity.
    - apply ok_inj in E. congruence.
    - destruct Sh as (l & rest & -> & _). cbn [nth_line nth_error bind] in E. apply ok_inj in E. subst d.
      exists l, rest, (truncate_str l 20). split; [reflexivity|]. split; [apply shortened_spec|reflexivity].
    - destruct Sh as (l & rest & -> & (ws & b & body & -> & Hw & _ & Hb) & _).
      assert (Hs : is_space b = false) by (cbn in Hb; repeat destruct Hb as [<-|Hb]; try reflexivity; destruct Hb).
      cbn [nth_line nth_error bind] in E. rewrite lstrip_app in E by assumption. cbn [first_char bind] in E. apply ok_inj in E. subst d.
      exists ws, b, (c_sp :: body), rest. eexists. split; [reflexivity|]. split; [exact Hw|]. split; [exact Hs|]. split; [apply shortened_spec|reflexivity].
    - destruct Sh as (l & rest & fence & -> & (ws & c & k & info & -> & Hw & Hc & Hk & Hi & _) & _).
      apply bind_ok in E. destruct E as (first & Ef & E). cbn [nth_line nth_error bind] in E.
      assert (Hs : is_space c = false) by (cbn in Hc; repeat destruct Hc as [<-|Hc]; try reflexivity; destruct Hc).
      apply bind_ok in E. destruct E as (c' & Ec & E). apply ok_inj in E. subst d.
      assert (c' = c).
      { destruct (strip_run ws c k info Hw Hs ltac:(lia) Hi) as [Er _]. rewrite Er in Ec. destruct k; [lia|]. cbn in Ec. congruence. }
      subst c'. exists ws, c, k, info, (strip info), rest, (decn k), first.
      split; [reflexivity|]. split; [exact Hw|]. split; [exact Hc|]. split; [exact Hi|]. split; [apply trims_strip; reflexivity|].
      split; [apply decn_number|]. split.
      + destruct rest as [|x rest]; cbn [length Nat.eqb] in Ef; [discriminate|].
        destruct rest as [|y rest]; cbn [length Nat.eqb] in Ef; [left; split; [reflexivity|apply ok_inj in Ef; congruence]|].
        right. cbn [nth_line nth_error bind] in Ef. apply ok_inj in Ef. exists x, (y :: rest), (strip x). eexists.
        split; [reflexivity|]. split; [discriminate|]. split; [apply trims_strip; reflexivity|]. split; [apply shortened_spec|].
        symmetry. exact Ef.
      + unfold fence_count, fence_language. destruct (run_count ws c k info Hw Hs ltac:(lia) Hi) as [-> ->]. reflexivity.
    - destruct Sh as (l & rest & -> & _). cbn [nth_line nth_error bind] in E. apply ok_inj in E. subst d.
      exists l, rest, (strip l). eexists. split; [reflexivity|]. split; [apply trims_strip; reflexivity|]. split; [apply shortened_spec|reflexivity].
    - destruct (defines_of _ Sh) as (label & parts & D). rewrite (lrd_parts_spec _ _ _ Ho D) in E. cbn [bind] in E. apply ok_inj in E. subst d.
      exists label, parts. do 3 eexists. split; [exact D|]. split; [apply shortened_spec|]. split; [apply shortened_spec|]. split; [apply shortened_spec|]. reflexivity.
    - destruct Sh as (l & rest & -> & (ws & ds & body & -> & Hw & _ & Hd) & _). cbn [nth_line nth_error bind] in E.
      apply bind_ok in E. destruct E as (n & En & E). apply ok_inj in E. subst d.
      exists ws, ds, (c_sp :: body), rest, (dec n). eexists. split; [reflexivity|]. split; [exact Hw|]. split; [exact Hd|].
      split; [|split; [apply shortened_spec|reflexivity]].
      rewrite (first_number_spec _ _ _ Hw Hd) in En. apply ok_inj in En. subst n. apply dec_decimal.
    - apply ok_inj in E. subst d. exists (map strip content). eexists. split; [apply trims_all|]. split; [apply shortened_spec|reflexivity].
    - destruct (length content <? 2); [discriminate|]. destruct Sh as (l & rest & u & -> & _). 
      change (l :: rest ++ [u]) with ((l :: rest) ++ [u]) in *. rewrite last_last, removelast_last in E.
      apply bind_ok in E. destruct E as (c & Ec & E). apply ok_inj in E. subst d.
      destruct (first_char_line _ _ Ec) as (ws & body & -> & Hw & Hc). exists (l :: rest), ws, c, body, (map strip (l :: rest)). eexists.
      split; [reflexivity|]. split; [exact Hw|]. split; [exact Hc|]. split; [apply trims_all|]. split; [apply shortened_spec|reflexivity].
    - apply ok_inj in E. congruence.
    - destruct Sh as (l & -> & _). cbn [nth_line nth_error bind] in E. apply bind_ok in E. destruct E as (c & Ec & E). apply ok_inj in E. subst d.
      destruct (first_char_line _ _ Ec) as (ws & body & -> & Hw & Hc). exists ws, c, body. auto.
  Qed.

  Definition at_level (level : Z) (rs : list record) : list record :=
    filter (fun r => Z.eqb (r_level r) level) rs.

  Lemma at_level_app level a b : at_level level (a ++ b) = at_level level a ++ at_level level b.
  Proof. apply filter_app. Qed.

  Definition sound_section (s : section) : Prop :=
    section_shape (fst s) (snd s) /\ Forall one_line (snd s) /\ snd s <> [].

  Lemma setext_level info i last ty : info <> WARNING -> at_level info (fst (setext_blank i last ty)) = [].
  Proof.
    intros H. destruct ty; try reflexivity. destruct last as [[]|]; try reflexivity. unfold setext_blank, at_level.
    cbn [emit quietly lbind fst app filter r_level]. destruct (Z.eqb_spec WARNING info); [congruence|reflexivity].
  Qed.

  Lemma setext_ok i last ty : exists extra, snd (setext_blank i last ty) = Ok extra
    /\ (extra = [] \/ extra = [(BLANK_LINE, i, [[]])]).
  Proof. destruct ty; try (exists []; cbn; tauto). destruct last as [[]|]; (exists []; cbn; tauto) || (eexists; split; [reflexivity|tauto]). Qed.

  Lemma build_cons info i last ty content rest d : describe R ty content = Ok d ->
    fst (build_formatters_log R info i last ((ty, content) :: rest))
    = Rec LReformat info (log_span i (length content) ++ lit ": " ++ d) :: fst (setext_blank i last ty)
      ++ fst (build_formatters_log R info (i + length content) (Some ty) rest).
  Proof.
    intros E. cbn [build_formatters_log]. rewrite fst_quietly_bind, E. rewrite (fst_lbind_ok (emit _) _ tt) by reflexivity.
    cbn [emit fst app]. f_equal. destruct (setext_ok i last ty) as (extra & Ex & _). rewrite (fst_lbind_ok _ _ _ Ex). f_equal.
    destruct (snd (build_formatters_log R info (i + length content) (Some ty) rest)) as [fs|e] eqn:Eb.
    - rewrite (fst_lbind_ok _ _ _ Eb). cbn. apply app_nil_r.
    - apply (fst_lbind_err _ _ _ Eb).
  Qed.

  Lemma build_reports info secs : info <> WARNING -> Forall sound_section secs -> forall i last,
    exists pre post, secs = pre ++ post
      /\ reports R (i + 1) pre (map r_text (at_level info (fst (build_formatters_log R info i last secs))))
      /\ (post <> [] -> exists e, build_formatters i last secs = Err e).
  Proof.
    intros Hi Hs. induction Hs as [|[ty content] secs (Sh & Ho & Hc) Hs IH]; intros i last.
    - exists [], []. split; [reflexivity|]. split; [constructor|congruence].
    - cbn [fst snd] in *. destruct (describe R ty content) as [d|e] eqn:Ed.
      + destruct (IH (i + length content) (Some ty)) as (pre & post & -> & Hr & Hp).
        exists ((ty, content) :: pre), post. split; [reflexivity|]. split.
        * rewrite (build_cons _ _ _ _ _ _ _ Ed). cbn [at_level filter r_level]. rewrite Z.eqb_refl. cbn [map r_text].
          change (filter (fun r => (r_level r =? info)%Z)) with (at_level info). rewrite at_level_app, setext_level by assumption.
          apply reports_cons; [apply span_spec; destruct content; [congruence|cbn; lia]|apply describe_described; assumption|].
          replace (i + 1 + length content) with (i + length content + 1) by lia. exact Hr.
        * intros Hn. destruct (Hp Hn) as (e & E). cbn [build_formatters]. rewrite describe_check, Ed. cbn [bind]. rewrite E. eexists. reflexivity.
      + exists [], ((ty, content) :: secs). split; [reflexivity|]. split.
        * cbn [build_formatters_log]. rewrite fst_quietly_bind, Ed. constructor.
        * intros _. cbn [build_formatters]. rewrite describe_check, Ed. eexists. reflexivity.
  Qed.

  Lemma sound_sections lim lines secs : parse_markdown lim lines = Ok secs -> Forall one_line lines ->
    Forall sound_section secs.
  Proof.
    intros Hp Ho. destruct (parse_markdown_lossless _ _ _ Hp) as [_ Hn]. rewrite Forall_forall in Hn.
    apply Forall_forall. intros [ty content] Hin.
    destruct (section_of_shape lines ty content) as [H1 H2]; [exists lim, secs; auto|assumption|].
    repeat split; [assumption|assumption|]. exact (Hn _ Hin).
  Qed.

  (** * Warnings *)

  Lemma hashes_off k u : (forall s', u <> c_hash :: s') -> lstrip_by (N.eqb c_hash) (repeat c_hash k ++ u) = u.
  Proof.
    intros H. rewrite lstrip_by_app by (apply forallb_forall; intros x Hx; apply repeat_spec in Hx; subst x; reflexivity).
    apply lstrip_by_id. destruct u as [|x u]; [exact I|].
    destruct (N.eqb_spec c_hash x) as [<-|]; [exfalso; exact (H _ eq_refl)|reflexivity].
  Qed.

  Lemma spaced_spec l : atx_line l -> startswith [c_sp] (lstrip_by (N.eqb c_hash) (strip l)) = true <-> spaced_heading l.
  Proof.
    intros (ws & body & -> & Hw & _). destruct (run_decomp c_hash body) as (k & t & -> & Ht).
    change (ws ++ c_hash :: repeat c_hash k ++ t) with (ws ++ repeat c_hash (S k) ++ t). split.
    - destruct (strip_run ws c_hash (S k) t Hw eq_refl ltac:(lia) Ht) as [-> Hr]. rewrite hashes_off by exact Hr.
      intros Hs. destruct (rstrip t) as [|x u] eqn:E; [discriminate|]. cbn [startswith] in Hs.
      destruct (N.eqb_spec c_sp x) as [<-|]; [|discriminate].
      assert (T := proj2 (ProofsPass.rtrims_rstrip t _) (eq_sym E)). destruct T as ((b & Et & Hb) & T). rewrite Et.
      exists ws, (S k), (u ++ b). split; [reflexivity|]. split; [exact Hw|]. split; [lia|].
      intros Hu. apply Forall_app in Hu. destruct Hu as [Hu _].
      assert (Hs' : spaces (c_sp :: u)) by (constructor; [reflexivity|exact Hu]).
      destruct (exists_last (l := c_sp :: u) ltac:(discriminate)) as (r' & c & Er). assert (Hc := T _ _ Er).
      rewrite Er in Hs'. apply Forall_app in Hs'. destruct Hs' as [_ Hs']. apply Forall_inv in Hs'. congruence.
    - intros (ws' & k' & body & E & Hw' & Hk & Hb). rewrite E.
      destruct (strip_run ws' c_hash k' (c_sp :: body) Hw' eq_refl Hk ltac:(intros s1 E1; discriminate E1)) as [-> Hr]. rewrite hashes_off by exact Hr.
      change (c_sp :: body) with ([c_sp] ++ body). rewrite rstrip_append; [reflexivity|]. intros En. apply Hb.
      assert (T := proj2 (ProofsPass.rtrims_rstrip body _) (eq_sym En)). destruct T as ((b & -> & Hs) & _). exact Hs.
  Qed.

  Lemma announced_inserted i last ty content secs ins rs :
    inserted (i + length content + 1) (Some ty) secs ins -> Forall2 announces ins rs ->
    exists ins', inserted (i + 1) last ((ty, content) :: secs) ins'
      /\ Forall2 announces ins' (at_level WARNING (fst (setext_blank i last ty)) ++ rs).
  Proof.
    intros H F. replace (i + length content + 1) with (i + 1 + length content) in H by lia.
    assert (D : (ty = SETEXT_HEADING /\ last = Some BLOCK_QUOTE) \/ ~ (ty = SETEXT_HEADING /\ last = Some BLOCK_QUOTE)).
    { destruct ty; try (right; intros []; discriminate). destruct last as [[]|]; try (right; intros []; discriminate). auto. }
    destruct D as [[-> ->]|D].
    - exists (Inserted (i + 1) :: ins). split; [apply inserted_here; exact H|]. cbn [setext_blank emit quietly lbind fst app at_level filter r_level].
      rewrite Z.eqb_refl. cbn [app]. constructor; [|exact F]. exists (decn (i + 1)). split; [apply decn_number|reflexivity].
    - exists ins. split; [apply inserted_not; assumption|]. replace (at_level _ _) with (@nil record); [exact F|].
      destruct ty; try reflexivity. destruct last as [[]|]; try reflexivity. exfalso. apply D. auto.
  Qed.

  Lemma build_inserted info secs : info <> WARNING -> forall i last fs, build_formatters i last secs = Ok fs ->
    exists ins, inserted (i + 1) last secs ins
      /\ Forall2 announces ins (at_level WARNING (fst (build_formatters_log R info i last secs))).
  Proof.
    intros Hi. induction secs as [|[ty content] secs IH]; intros i last fs E; [exists []; split; constructor|].
    cbn [build_formatters] in E. rewrite describe_check in E. destruct (describe R ty content) as [d|] eqn:Ed; [|discriminate].
    cbn [bind] in E. apply bind_ok in E. destruct E as (fs' & E & _). destruct (IH _ _ _ E) as (ins & H & F).
    rewrite (build_cons _ _ _ _ _ _ _ Ed). cbn [at_level filter r_level].
    destruct (Z.eqb_spec info WARNING); [congruence|]. change (filter (fun r => (r_level r =? WARNING)%Z)) with (at_level WARNING).
    rewrite at_level_app. eapply announced_inserted; eassumption.
  Qed.

  Lemma mapL_ok {A B} (f : A -> logged B) l bs : snd (mapL f l) = Ok bs ->
    fst (mapL f l) = concat (map (fun x => fst (f x)) l) /\ Forall (fun x => exists b, snd (f x) = Ok b) l.
  Proof.
    revert bs. induction l as [|a l IH]; intros bs E; [split; [reflexivity|constructor]|]. rewrite snd_mapL in E. cbn [mapM] in E.
    apply bind_ok in E. destruct E as (b & Ea & E). apply bind_ok in E. destruct E as (bs' & El & E).
    rewrite <- snd_mapL in El. destruct (IH _ El) as [H1 H2]. split; [|constructor; eauto].
    cbn [mapL map concat]. rewrite (fst_lbind_ok _ _ _ Ea), (fst_lbind_ok _ _ _ El). cbn. rewrite app_nil_r, H1. reflexivity.
  Qed.

  Section Warned.
    Variable nested : list str -> width -> logged str.
    Hypothesis nested_warned : forall lines w out, lines <> [] -> Forall one_line lines -> snd (nested lines w) = Ok out ->
      exists ns, warned lines ns /\ Forall2 announces ns (at_level WARNING (fst (nested lines w))).

    Lemma entry_fst p n w e : fst (format_entry_log nested p n w e) = fst (nested e (width_sub w (Z.of_nat n))).
    Proof.
      unfold format_entry_log. set (x := nested e _). destruct x as [rs y]. cbn [redirect_log fst snd].
      destruct y as [a|a]; cbn; [apply app_nil_r|reflexivity].
    Qed.

    Lemma entry_snd_ok p n w e out : snd (format_entry_log nested p n w e) = Ok out ->
      exists t, snd (nested e (width_sub w (Z.of_nat n))) = Ok t.
    Proof.
      unfold format_entry_log. rewrite snd_lbind, !snd_redirect. intros E. apply bind_ok in E. destruct E as (t & E & _).
      destruct (snd (nested _ _)); [eauto|discriminate].
    Qed.

    Lemma texts_warned_ok inners w :
      Forall (fun e => e <> [] /\ Forall one_line e) inners -> Forall (fun e => exists t, snd (nested e w) = Ok t) inners ->
      exists ns, texts_warned inners ns
        /\ Forall2 announces ns (at_level WARNING (concat (map (fun e => fst (nested e w)) inners))).
    Proof.
      induction inners as [|e es IH]; intros H1 H2; [exists []; split; constructor|].
      inversion H1 as [|? ? [Hn Ho] H1']; subst. inversion H2 as [|? ? (t & Et) H2']; subst.
      destruct (nested_warned _ _ _ Hn Ho Et) as (ns & W & F). destruct (IH H1' H2') as (ms & W' & F').
      exists (ns ++ ms). split; [constructor; assumption|]. cbn [map concat]. rewrite at_level_app. apply Forall2_app; assumption.
    Qed.

    Lemma inners_good content entries inners : Forall one_line content ->
      split_list content = Ok entries -> dedent_entries entries = Ok inners ->
      entries_of content entries /\ Forall2 dedented entries inners
      /\ Forall (fun e => e <> [] /\ Forall one_line e) inners.
    Proof.
      intros Ho Es Ed.
      assert (Hn : Forall no_nl content) by (eapply Forall_impl; [|exact Ho]; intros a Ha; apply one_line_no_nl; exact Ha).
      assert (Hp := split_list_ok _ _ Hn Es). assert (Hc : concat entries = content) by exact (proj1 (proj1 Hp)).
      rewrite <- Hc, Forall_concat in Ho. rewrite <- Hc, Forall_concat in Hn.
      assert (D := dedent_entries_spec _ _ Hn Ed). split; [exact Hp|]. split; [exact D|].
      clear -Ho D. induction D as [|e i es is He D IH]; [constructor|]. inversion Ho; subst. constructor; [|auto]. split.
      - destruct He as (l & rest & ws & m & body & rest' & _ & _ & -> & _). discriminate.
      - eapply derived_one_line; [apply dedented_derived; exact He|assumption].
    Qed.

    Lemma reformatted_warned ty i content w out : section_shape ty content -> Forall one_line content ->
      snd (reformatted_log nested ty i content w) = Ok out ->
      exists ns, section_warned (i + 1) ty content ns
        /\ Forall2 announces ns (at_level WARNING (fst (reformatted_log nested ty i content w))).
    Proof.
      intros Sh Ho E.
      destruct ty; try (exists []; split; [apply section_warned_other; cbn; intuition discriminate|constructor]).
      - destruct Sh as (l & -> & Ha). cbn [reformatted_log fmt_atx_heading_log].
        destruct (startswith [c_sp] (lstrip_by (N.eqb c_hash) (strip l))) eqn:Es.
        + exists []. split; [apply section_warned_spaced; apply spaced_spec; assumption|constructor].
        + exists [Corrected (i + 1)]. split.
          * apply section_warned_heading. rewrite <- (spaced_spec _ Ha). congruence.
          * cbn [emit quietly lbind fst app at_level filter r_level]. rewrite Z.eqb_refl. constructor; [|constructor].
            exists (decn (i + 1)). split; [apply decn_number|reflexivity].
      - destruct (quote_inner_quotes _ Sh) as (prefix & Q). cbn [reformatted_log] in *. unfold fmt_block_quote_log in *.
        rewrite snd_lbind in E. cbn [quietly snd] in E. rewrite fst_quietly_bind.
        destruct (nth_line content 0) as [l0|] eqn:El; [|discriminate]. cbn [bind] in E. cbv zeta in E |- *.
        rewrite snd_lbind, snd_redirect in E. apply bind_ok in E. destruct E as (t & E & _).
        match type of E with with_redirect (snd (nested ?a ?b)) = _ => change a with (quote_inner content) in E; set (wd := b) in * end.
        match goal with |- context [redirect_log (nested ?a ?b)] => change a with (quote_inner content) end.
        assert (Et : exists t', snd (nested (quote_inner content) wd) = Ok t') by (destruct (snd (nested _ _)); [eauto|discriminate]).
        destruct Et as (t' & Et).
        destruct (quotes_derived _ _ _ Q) as (mid & D1 & D2).
        assert (Ho' : Forall one_line (quote_inner content)) by (eapply derived_one_line; [exact D2|]; eapply derived_one_line; eassumption).
        assert (Hne : quote_inner content <> []).
        { destruct Sh as (l & rest & -> & _). inversion D1; subst. inversion D2; subst. discriminate. }
        destruct (nested_warned _ _ _ Hne Ho' Et) as (ns & W & F). exists ns. split; [eapply section_warned_quote; eassumption|].
        rewrite (fst_lbind_ok _ _ t) by (rewrite snd_redirect; exact E). cbn [quietly fst redirect_log]. rewrite app_nil_r. exact F.
      - cbn [reformatted_log] in *. unfold fmt_bullet_list_log in *.
        rewrite snd_lbind in E. cbn [quietly snd] in E. rewrite fst_quietly_bind.
        destruct (split_list content) as [es|] eqn:Es; [|discriminate]. cbn [bind] in E. rewrite snd_lbind in E. cbn [quietly snd] in E. rewrite fst_quietly_bind.
        destruct (dedent_entries es) as [ds|] eqn:Ed; [|discriminate]. cbn [bind] in E. rewrite snd_lbind in E. cbn [quietly snd] in E. rewrite fst_quietly_bind.
        destruct (nth_line content 0) as [l0|]; [|discriminate]. cbn [bind] in E. rewrite snd_lbind in E. cbn [quietly snd] in E. rewrite fst_quietly_bind.
        destruct (first_char (lstrip l0)) as [m|]; [|discriminate]. cbn [bind] in E. rewrite snd_lbind in E. apply bind_ok in E. destruct E as (ts & E & _).
        rewrite (fst_lbind_ok _ _ _ E). cbn [quietly fst]. rewrite app_nil_r.
        destruct (mapL_ok _ _ _ E) as [-> Hok]. destruct (inners_good _ _ _ Ho Es Ed) as (He & Hd & Hg).
        destruct (texts_warned_ok ds (width_sub w (Z.of_nat 2)) Hg) as (ns & W & F).
        { eapply Forall_impl; [|exact Hok]. intros e (b & Eb). exact (entry_snd_ok _ _ _ _ _ Eb). }
        exists ns. split; [eapply section_warned_list; eauto|]. rewrite (map_ext _ _ (entry_fst [m] 2 w)). exact F.
      - cbn [reformatted_log] in *. unfold fmt_ordered_list_log in *.
        rewrite snd_lbind in E. cbn [quietly snd] in E. rewrite fst_quietly_bind.
        destruct (split_list content) as [es|] eqn:Es; [|discriminate]. cbn [bind] in E. rewrite snd_lbind in E. cbn [quietly snd] in E. rewrite fst_quietly_bind.
        destruct (nth_line content 0) as [l0|]; [|discriminate]. cbn [bind] in E. rewrite snd_lbind in E. cbn [quietly snd] in E. rewrite fst_quietly_bind.
        destruct (first_number l0) as [m|]; [|discriminate]. cbn [bind] in E. cbv zeta in E |- *. rewrite snd_lbind in E. cbn [quietly snd] in E. rewrite fst_quietly_bind.
        destruct (dedent_entries es) as [ds|] eqn:Ed; [|discriminate]. cbn [bind] in E. rewrite snd_lbind in E. apply bind_ok in E. destruct E as (ts & E & _).
        rewrite (fst_lbind_ok _ _ _ E). cbn [quietly fst]. rewrite app_nil_r.
        remember (length (dec (m + N.of_nat (length es) - 1)%N) + 2) as k eqn:Ek. clear Ek.
        destruct (mapL_ok _ _ _ E) as [-> Hok]. destruct (inners_good _ _ _ Ho Es Ed) as (He & Hd & Hg).
        destruct (texts_warned_ok ds (width_sub w (Z.of_nat k)) Hg) as (ns & W & F).
        { clear -Hok. revert m Hok. induction ds as [|d ds IH]; intros m Hok; [constructor|]. cbn [enumerate] in Hok.
          inversion Hok as [|? ? (b & Eb) Hok']; subst. constructor; [exact (entry_snd_ok _ _ _ _ _ Eb)|eapply IH; exact Hok']. }
        exists ns. split; [eapply section_warned_list; eauto|].
        replace (concat _) with (concat (map (fun e => fst (nested e (width_sub w (Z.of_nat k)))) ds)); [exact F|].
        f_equal. clear. revert m. induction ds as [|d ds IH]; intros m; [reflexivity|]. cbn [enumerate map]. rewrite entry_fst. f_equal. apply IH.
    Qed.

    Lemma sections_warned_ok w secs : Forall sound_section secs -> forall i last fs,
      build_formatters i last secs = Ok fs ->
      Forall (fun '(ty, i, ls) => exists out, snd (reformatted_log nested ty i ls w) = Ok out) fs ->
      exists ns, sections_warned (i + 1) secs ns
        /\ Forall2 announces ns (at_level WARNING (concat (map (fun '(ty, i, ls) => fst (reformatted_log nested ty i ls w)) fs))).
    Proof.
      intros Hs. induction Hs as [|[ty content] secs (Sh & Ho & Hc) Hs IH]; intros i last fs E H.
      - cbn in E. apply ok_inj in E. subst fs. exists []. split; constructor.
      - cbn [fst snd build_formatters] in *. apply bind_ok in E. destruct E as (u & _ & E). apply bind_ok in E. destruct E as (fs' & E & E').
        apply ok_inj in E'. cbv zeta in E'.
        assert (X : exists extra, fs = extra ++ (ty, i, content) :: fs' /\ (extra = [] \/ extra = [(BLANK_LINE, i, [[]])])).
        { subst fs. eexists. split; [reflexivity|]. destruct ty; auto. destruct last as [[]|]; auto. }
        clear E'. destruct X as (extra & -> & X). apply Forall_app in H. destruct H as [_ H].
        destruct (Forall_inv H) as (out & Eo). assert (H' := Forall_inv_tail H). destruct (IH _ _ _ E H') as (ms & W & F).
        destruct (reformatted_warned _ _ _ _ _ Sh Ho Eo) as (ns & W1 & F1).
        exists (ns ++ ms). split.
        + apply sections_warned_cons; [exact W1|]. replace (i + 1 + length content) with (i + length content + 1) by lia. exact W.
        + rewrite map_app, concat_app, at_level_app. cbn [map concat]. rewrite at_level_app.
          replace (at_level WARNING (concat (map _ extra))) with (@nil record); [cbn [app]; apply Forall2_app; [exact F1|exact F]|].
          destruct X as [->| ->]; reflexivity.
    Qed.
  End Warned.

  Lemma pass_warned lim : forall info text w out, info <> WARNING ->
    snd (reformat_pass_log R lim info text w) = Ok out ->
    exists ns, warned (splitlines text) ns
      /\ Forall2 announces ns (at_level WARNING (fst (reformat_pass_log R lim info text w))).
  Proof.
    induction lim as [|lim IH]; intros info text w out Hi E; [discriminate|].
    cbn [reformat_pass_log] in *. rewrite snd_lbind in E. cbn [quietly snd] in E. rewrite fst_quietly_bind.
    destruct (parse_markdown lim (splitlines text)) as [secs|] eqn:Ep; [|discriminate]. cbn [bind] in E. cbv zeta in E |- *.
    rewrite snd_lbind in E. apply bind_ok in E. destruct E as (fs & Eb & E). rewrite (fst_lbind_ok _ _ _ Eb).
    set (nested := fun lines w' => reformat_pass_log R lim DEBUG (str_join [c_nl] lines ++ [c_nl]) w') in *.
    set (f := fun '(ty, line_index, lines) => reformatted_log nested ty line_index lines w) in *.
    rewrite snd_lbind in E. apply bind_ok in E. destruct E as (outs & E & _).
    assert (Em : snd (mapL f fs) = Ok outs).
    { destruct (mapL f fs) as [rs x]. cbn [snd] in E |- *. destruct x; [exact E|]. destruct e; discriminate. }
    rewrite (fst_lbind_ok _ _ _ E). cbn [quietly fst]. rewrite app_nil_r.
    destruct (mapL_ok _ _ _ Em) as [Er Hok]. destruct (mapL f fs) as [rs x]. cbn [fst] in Er |- *. rewrite Er. rewrite at_level_app. rewrite build_snd in Eb.
    assert (So := sound_sections _ _ _ Ep (splitlines_one_line text)).
    destruct (build_inserted info secs Hi _ _ _ Eb) as (ins & I & FI).
    destruct (sections_warned_ok nested) with (w := w) (secs := secs) (i := 0) (last := @None section_type) (fs := fs) as (ns & W & F).
    - intros lines w' out' Hn Ho En. unfold nested in En |- *. assert (G := IH DEBUG _ _ _ ltac:(intros X; discriminate X) En).
      rewrite splitlines_join in G by assumption. exact G.
    - exact So.
    - exact Eb.
    - eapply Forall_impl; [|exact Hok]. intros [[ty i] ls] Hx. exact Hx.
    - exists (ins ++ ns). split; [eapply warned_text; eassumption|]. apply Forall2_app; [exact FI|].
      replace (map (fun x => fst (f x)) fs) with (map (fun '(ty, i, ls) => fst (reformatted_log nested ty i ls w)) fs); [exact F|].
      apply map_ext. intros [[ty i] ls]. reflexivity.
  Qed.
End R.
