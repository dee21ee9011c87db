(** Properties C26-C29: lists. *)
From Coq Require Import String DecimalN.
From Verif Require Import Py Regex Utils TextWrap Lines Detectors Formatters Base
  SpecLines SpecParser SpecFormat SpecList ProofsLines ProofsParser ProofsShapes ProofsPass
  ProofsKinds PropsParser ProofsList.

Lemma one_line_nl s : one_line s -> no_nl s.
Proof. intros H. eapply Forall_impl; [|exact H]. intros c Hc ->. discriminate. Qed.

Lemma bullet_marked l : bullet_line l ->
  exists ws b body, marked l ws [b] body /\ In b [c_star; c_plus; c_dash].
Proof.
  intros (ws & b & body & -> & Hw & _ & Hb). exists ws, b, (c_sp :: body). split; [|exact Hb].
  split; [reflexivity|]. split; [exact Hw|]. split; [left; eauto|right; eauto].
Qed.

Lemma ordered_marked l : ordered_line l ->
  exists ws ds body, marked l ws (ds ++ [c_dot]) body /\ digits ds.
Proof.
  intros (ws & ds & body & -> & Hw & _ & Hd). exists ws, ds, (c_sp :: body). split; [|exact Hd].
  split; [rewrite <- app_assoc; reflexivity|]. split; [exact Hw|]. split; [right; eauto|right; eauto].
Qed.

Definition list_type (ty : section_type) : Prop := ty = BULLET_LIST \/ ty = ORDERED_LIST.

Lemma list_starts_marked ty content : list_type ty -> section_shape ty content ->
  exists l rest ws m body, content = l :: rest /\ marked l ws m body.
Proof.
  intros [->| ->] (l & rest & -> & H & _).
  - apply bullet_marked in H. destruct H as (ws & b & body & H & _). exists l, rest, ws, [b], body. auto.
  - apply ordered_marked in H. destruct H as (ws & ds & body & H & _).
    exists l, rest, ws, (ds ++ [c_dot]), body. auto.
Qed.

Lemma splitlines_one_line text : Forall one_line (splitlines text).
Proof.
  remember (length text) as n eqn:Hn. assert (Hle : length text <= n) by lia. clear Hn.
  revert text Hle. induction n as [|n IH]; intros text Hle.
  - destruct text; [constructor|cbn in Hle; lia].
  - destruct text as [|c text]; [constructor|]. cbn in Hle. cbn [splitlines].
    destruct (is_linebreak c) eqn:Hc.
    + destruct text as [|d text]; [repeat constructor|].
      destruct (N.eqb c c_cr && N.eqb d c_nl); constructor; try constructor; apply IH; cbn in *; lia.
    + assert (G := IH text ltac:(lia)). destruct (splitlines text) as [|l ls].
      * repeat constructor. exact Hc.
      * inversion G; subst. constructor; [constructor; assumption|assumption].
Qed.

(** The sections of a text have the shape of their type, and their lines no separators. *)
Lemma section_of_text lim text secs ty content :
  parse_markdown lim (splitlines text) = Ok secs -> In (ty, content) secs ->
  section_shape ty content /\ Forall one_line content.
Proof.
  intros Hp Hin. split; [exact (C10_section_shapes _ _ _ _ _ Hp Hin)|].
  apply C07_lossless in Hp. destruct Hp as [Hp _]. assert (H := splitlines_one_line text).
  rewrite <- Hp in H. rewrite Forall_concat in H. rewrite Forall_forall in H. apply (H content).
  apply in_map_iff. exists (ty, content). auto.
Qed.

(** * C26 *)

(** A list section is always split into entries. They are the lines of the section in
    order, each entry starts with a marker; and if no fence is indented then no entry
    starts inside a fence, and outside fences a line with a marker starts an entry exactly
    if it is not indented beyond the marker of the entry before it. *)
Theorem C26_partial : forall lim text secs ty content,
  parse_markdown lim (splitlines text) = Ok secs -> In (ty, content) secs -> list_type ty ->
  exists entries, split_list content = Ok entries
    /\ partition_of content entries
    /\ (fences_unindented content -> entries_start_right entries).
Proof.
  intros lim text secs ty content Hp Hin Hty.
  destruct (section_of_text _ _ _ _ _ Hp Hin) as [Hs Hl].
  destruct (list_starts_marked _ _ Hty Hs) as (l & rest & ws & m & body & -> & Hm).
  destruct (split_list_total l rest ws m body Hm) as (entries & E). exists entries. split; [exact E|].
  apply split_list_ok; [|exact E]. eapply Forall_impl; [|exact Hl]. apply one_line_nl.
Qed.

(** With an indented fence an entry can start inside it: the second line opens a fence of
    backticks, the third is taken for its end because it is indented, too. *)
Theorem C26_refuted : exists text content entries before l rest after,
  parse_markdown 9 (splitlines text) = Ok [(BULLET_LIST, content)]
  /\ split_list content = Ok entries
  /\ entries = before ++ (l :: rest) :: after
  /\ inside_fence (concat before).
Proof.
  exists (lit "- a" ++ [c_nl] ++ lit "  ```" ++ [c_nl] ++ lit "  ~~~" ++ [c_nl] ++ lit "- b" ++ [c_nl]
          ++ lit "  ```").
  exists [lit "- a"; lit "  ```"; lit "  ~~~"; lit "- b"; lit "  ```"].
  exists [[lit "- a"; lit "  ```"; lit "  ~~~"]; [lit "- b"; lit "  ```"]].
  exists [[lit "- a"; lit "  ```"; lit "  ~~~"]], (lit "- b"), [lit "  ```"], [].
  split; [vm_compute; reflexivity|]. split; [vm_compute; reflexivity|]. split; [reflexivity|].
  exists (lit "```"). cbn [concat app].
  change (fence_open (([] ++ [lit "- a"]) ++ [lit "  ```"] ++ [lit "  ~~~"]) (Some (lit "```"))).
  rewrite app_assoc. apply fence_inside with (lit "~~~"); [|apply full_fence_spec; reflexivity|discriminate].
  apply fence_opens; [|apply full_fence_spec; reflexivity]. apply fence_same; [constructor|].
  intros run H. apply full_fence_spec in H. discriminate.
Qed.

(** * C27 *)

(** Removing the marker and the indentation never fails, and drops only that. *)
Theorem C27_dedent : forall lim text secs ty content,
  parse_markdown lim (splitlines text) = Ok secs -> In (ty, content) secs -> list_type ty ->
  exists entries inners, split_list content = Ok entries /\ dedent_entries entries = Ok inners
    /\ Forall2 dedented entries inners.
Proof.
  intros lim text secs ty content Hp Hin Hty.
  destruct (section_of_text _ _ _ _ _ Hp Hin) as [_ Hl].
  destruct (C26_partial _ _ _ _ _ Hp Hin Hty) as (entries & E & [Hc Hf] & _).
  assert (D : exists inners, Forall2 (fun e i => dedent_entry e = Ok i) entries inners).
  { clear -Hf. induction entries as [|e entries IH]; [exists []; constructor|].
    inversion Hf as [|? ? He Hf']; subst. destruct (IH Hf') as (is & Hi).
    destruct (dedent_total e He) as (i & Ei). exists (i :: is). constructor; assumption. }
  destruct D as (inners & D). exists entries, inners. split; [exact E|].
  split; [apply mapM_ok; exact D|]. rewrite <- Hc in Hl. rewrite Forall_concat in Hl.
  clear -D Hl. induction D as [|e i es is He D IH]; [constructor|]. inversion Hl; subst.
  constructor; [|auto]. apply dedent_entry_spec; [|exact He].
  eapply Forall_impl; [|eassumption]. apply one_line_nl.
Qed.

(** * What is common to both types of lists *)

Lemma dedent_entries_spec entries inners : Forall (Forall no_nl) entries ->
  dedent_entries entries = Ok inners -> Forall2 dedented entries inners.
Proof.
  intros Hn H. apply mapM_ok in H. induction H as [|e i es is He H IH]; [constructor|].
  inversion Hn; subst. constructor; [apply dedent_entry_spec; assumption|auto].
Qed.

Lemma format_entry_ok nested prefix n w inner out : format_entry nested prefix n w inner = Ok out ->
  exists text, nested inner (width_sub w (Z.of_nat n)) = Ok text /\ listed prefix n text out.
Proof.
  unfold format_entry. intros E. apply bind_ok in E. destruct E as (text & Et & E).
  rewrite !with_redirect_ok in Et. apply ok_inj in E. subst out. exists text. split; [exact Et|].
  apply listed_spec.
Qed.

Lemma layout_of lim w content entries inners prefixes n outs :
  Forall one_line content -> split_list content = Ok entries ->
  dedent_entries entries = Ok inners -> length prefixes = length inners ->
  Forall2 (fun '(prefix, inner) out =>
             format_entry (fun lines w' => reformat_pass lim (str_join [c_nl] lines ++ [c_nl]) w')
               prefix n w inner = Ok out) (combine prefixes inners) outs ->
  list_layout lim w content n prefixes (str_join [c_nl] outs).
Proof.
  intros Hl Es Ed Hlen H.
  assert (Hn : Forall no_nl content) by (eapply Forall_impl; [apply one_line_nl|exact Hl]).
  destruct (split_list_ok _ _ Hn Es) as [P R].
  assert (Hd : Forall2 dedented entries inners).
  { apply dedent_entries_spec; [|exact Ed]. destruct P as [<- _]. apply Forall_concat. exact Hn. }
  assert (L : length entries = length inners) by (clear -Hd; induction Hd; cbn; auto).
  assert (T : exists texts,
    Forall2 (fun inner text => reformat_pass lim (str_join [c_nl] inner ++ [c_nl])
                                    (width_sub w (Z.of_nat n)) = Ok text) inners texts
    /\ Forall2 (fun '(prefix, text) out => listed prefix n text out) (combine prefixes texts) outs).
  { clear -H Hlen. revert inners outs Hlen H.
    induction prefixes as [|p prefixes IH]; intros [|i inners] outs Hlen H; try discriminate.
    - inversion H; subst. exists []. split; constructor.
    - cbn [combine] in H. inversion H as [|? o ? outs' Ho H']; subst.
      apply format_entry_ok in Ho. destruct Ho as (text & Et & Ht).
      destruct (IH inners outs' ltac:(cbn in Hlen; lia) H') as (texts & T1 & T2).
      exists (text :: texts). split; constructor; assumption. }
  destruct T as (texts & T1 & T2). exists entries, inners, texts, outs.
  repeat (split; [assumption|]). split; [congruence|reflexivity].
Qed.

(** * C29 *)

Theorem C29_bullet_list : forall lim w i content r,
  section_shape BULLET_LIST content -> Forall one_line content ->
  section_text lim w i BULLET_LIST content r ->
  exists ws b body rest prefixes,
    content = (ws ++ b :: body) :: rest /\ spaces ws /\ In b [c_star; c_plus; c_dash]
    /\ Forall (fun p => p = [b]) prefixes
    /\ list_layout lim w content 2 prefixes r.
Proof.
  intros lim w i content r (l & rest & -> & Hb & _) Hl H.
  destruct Hb as (ws & b & body & -> & Hw & _ & Hb). unfold section_text in H.
  cbn [reformatted] in H. unfold fmt_bullet_list in H.
  apply bind_ok in H. destruct H as (entries & Es & H). apply bind_ok in H. destruct H as (inners & Ed & H).
  cbn [nth_line nth_error bind] in H.
  assert (Hsp : is_space b = false).
  { cbn in Hb. repeat destruct Hb as [<-|Hb]; try reflexivity. destruct Hb. }
  rewrite lstrip_app in H by assumption. cbn [first_char bind] in H.
  apply bind_ok in H. destruct H as (outs & Eo & H). apply ok_inj in H. subst r.
  apply mapM_ok in Eo.
  exists ws, b, (c_sp :: body), rest, (map (fun _ => [b]) inners).
  repeat (split; [solve [auto]|]). split.
  - apply Forall_forall. intros p Hp. apply in_map_iff in Hp. destruct Hp as (x & <- & _). reflexivity.
  - eapply layout_of; try eassumption; [apply map_length|].
    clear -Eo. induction Eo; cbn [map combine]; constructor; assumption.
Qed.

(** * C28 *)

Lemma digits_val_acc u acc :
  fold_left (fun a c => (a * 10 + (c - 48))%N) (uint_str u) (Npos acc) = Npos (Pos.of_uint_acc u acc).
Proof.
  revert acc. induction u; intros acc; cbn [uint_str fold_left Pos.of_uint_acc]; [reflexivity|..].
  all: rewrite <- IHu; f_equal; change (48 - 48)%N with 0%N; lia.
Qed.

Lemma digits_val_uint u : digits_val (uint_str u) = N.of_uint u.
Proof.
  unfold digits_val, N.of_uint. induction u; cbn [uint_str fold_left Pos.of_uint]; try reflexivity.
  - exact IHu.
  - apply (digits_val_acc u 1).
  - apply (digits_val_acc u 2).
  - apply (digits_val_acc u 3).
  - apply (digits_val_acc u 4).
  - apply (digits_val_acc u 5).
  - apply (digits_val_acc u 6).
  - apply (digits_val_acc u 7).
  - apply (digits_val_acc u 8).
  - apply (digits_val_acc u 9).
Qed.

Lemma uint_str_digits u : Forall (fun c => is_digit c = true) (uint_str u).
Proof. induction u; cbn [uint_str]; constructor; auto. Qed.

Lemma nzhead_zero u u' : Decimal.nzhead u <> Decimal.D0 u'.
Proof. induction u; cbn; congruence. Qed.

Lemma dec_decimal n : decimal n (dec n).
Proof.
  unfold dec. assert (E : N.to_uint n = Decimal.unorm (N.to_uint n)).
  { rewrite <- DecimalN.Unsigned.to_of, DecimalN.Unsigned.of_to. reflexivity. }
  split; [split|split].
  - rewrite E. unfold Decimal.unorm. destruct (Decimal.nzhead (N.to_uint n)); discriminate.
  - apply uint_str_digits.
  - rewrite digits_val_uint. apply DecimalN.Unsigned.of_to.
  - intros ds'. rewrite E. unfold Decimal.unorm. destruct (Decimal.nzhead (N.to_uint n)) eqn:En;
      cbn [uint_str]; intros H; try discriminate.
    + injection H as <-. reflexivity.
    + exfalso. eapply nzhead_zero. exact En.
Qed.

Lemma take_digits ds c s : Forall (fun c => is_digit c = true) ds -> is_digit c = false ->
  take_while is_digit (ds ++ c :: s) = ds.
Proof. intros H Hc. induction H as [|d ds Hd H IH]; cbn; [rewrite Hc; reflexivity|]. rewrite Hd, IH. reflexivity. Qed.

Lemma enumerate_spec {A} start (l : list A) k x :
  nth_error (enumerate start l) k = Some x ->
  exists a, nth_error l k = Some a /\ x = ((start + N.of_nat k)%N, a).
Proof.
  revert start k. induction l as [|a l IH]; intros start [|k] E; cbn in E; try discriminate.
  - injection E as <-. exists a. split; [reflexivity|]. f_equal. lia.
  - apply IH in E. destruct E as (b & E & ->). exists b. split; [exact E|]. f_equal. lia.
Qed.

Lemma enumerate_combine {A} start (l : list A) :
  enumerate start l = combine (map fst (enumerate start l)) l.
Proof. revert start. induction l as [|a l IH]; intros start; cbn; [reflexivity|]. f_equal. apply IH. Qed.

Lemma enumerate_length {A} start (l : list A) : length (enumerate start l) = length l.
Proof. revert start. induction l as [|a l IH]; intros start; cbn; auto. Qed.

(** The entries are numbered consecutively from the number on the first line, whatever
    numbers the others have, and all are indented by the length of the last number plus
    two. *)
Theorem C28_ordered_list : forall lim w i content r,
  section_shape ORDERED_LIST content -> Forall one_line content ->
  section_text lim w i ORDERED_LIST content r ->
  exists ws ds body rest prefixes largest,
    content = (ws ++ ds ++ c_dot :: body) :: rest /\ spaces ws /\ digits ds
    /\ (forall k prefix, nth_error prefixes k = Some prefix ->
          exists num, decimal (digits_val ds + N.of_nat k) num /\ prefix = num ++ [c_dot])
    /\ decimal (digits_val ds + N.of_nat (length prefixes) - 1) largest
    /\ list_layout lim w content (length largest + 2) prefixes r.
Proof.
  intros lim w i content r (l & rest & -> & Hb & _) Hl H.
  destruct Hb as (ws & ds & body & -> & Hw & _ & Hd). unfold section_text in H.
  cbn [reformatted] in H. unfold fmt_ordered_list in H.
  apply bind_ok in H. destruct H as (entries & Es & H).
  cbn [nth_line nth_error bind] in H. destruct Hd as [Hne Hd].
  apply bind_ok in H. destruct H as (first & Ef & H).
  apply bind_ok in H. destruct H as (inners & Ed & H).
  apply bind_ok in H. destruct H as (outs & Eo & H). apply ok_inj in H. subst r.
  assert (Ef' : first = digits_val ds).
  { unfold first_number in Ef. destruct ds as [|d ds]; [congruence|]. cbn [app] in Ef.
    rewrite lstrip_app in Ef by (auto; apply digit_not_space, (Forall_inv Hd)).
    change (d :: ds ++ c_dot :: c_sp :: body) with ((d :: ds) ++ c_dot :: c_sp :: body) in Ef.
    rewrite take_digits in Ef by (auto; reflexivity). apply ok_inj in Ef. congruence. }
  subst first. apply mapM_ok in Eo.
  set (prefixes := map (fun n => dec n ++ [c_dot]) (map fst (enumerate (digits_val ds) inners))).
  assert (Lp : length prefixes = length inners).
  { unfold prefixes. rewrite !map_length. apply enumerate_length. }
  assert (Li : length inners = length entries) by (apply mapM_length in Ed; exact Ed).
  exists ws, ds, (c_sp :: body), rest, prefixes, (dec (digits_val ds + N.of_nat (length prefixes) - 1)).
  repeat (split; [solve [auto]|]). split; [split; assumption|]. split; [|split].
  - intros k prefix E. unfold prefixes in E. rewrite nth_error_map in E.
    destruct (nth_error (map fst (enumerate (digits_val ds) inners)) k) as [n|] eqn:En; [|discriminate].
    cbn in E. injection E as <-. rewrite nth_error_map in En.
    destruct (nth_error (enumerate (digits_val ds) inners) k) as [x|] eqn:Ex; [|discriminate].
    cbn in En. injection En as <-. apply enumerate_spec in Ex. destruct Ex as (a & _ & ->).
    cbn [fst]. eexists. split; [apply dec_decimal|reflexivity].
  - apply dec_decimal.
  - eapply layout_of; try eassumption. rewrite Lp, Li.
    assert (C := enumerate_combine (digits_val ds) inners). unfold prefixes.
    rewrite C in Eo. revert Eo. generalize (map fst (enumerate (digits_val ds) inners)).
    generalize (length (dec (digits_val ds + N.of_nat (length entries) - 1)) + 2). clear.
    intros n nums Eo. remember (combine nums inners) as ni eqn:Eq. revert nums inners Eq.
    induction Eo as [|[k inner] o ni outs Ho Eo IH]; intros nums inners Eq.
    + destruct nums, inners; try discriminate; constructor.
    + destruct nums as [|k' nums], inners as [|i' inners]; try discriminate. cbn in Eq.
      injection Eq as <- <- ->. cbn [map combine]. constructor; [exact Ho|]. eapply IH; reflexivity.
Qed.

(** * Failure *)

Lemma mapM_err {A B} (f : A -> res B) l e :
  mapM f l = Err e -> exists a, In a l /\ f a = Err e.
Proof.
  induction l as [|a l IH]; cbn [mapM bind]; [discriminate|]. destruct (f a) as [b|e'] eqn:Ea; cbn [bind].
  - destruct (mapM f l) as [bs|e'] eqn:El; cbn [bind]; [discriminate|]. intros E.
    destruct (IH E) as (x & Hx & Ex). exists x. split; [right; exact Hx|exact Ex].
  - intros E. exists a. split; [left; reflexivity|]. rewrite Ea. injection E as ->. reflexivity.
Qed.

Lemma with_redirect_err {A} (x : res A) e : with_redirect x = Err e ->
  exists e', x = Err e' /\ exn_base e = exn_base e'.
Proof. destruct x as [a|e']; [discriminate|]. intros E. injection E as <-. exists e'. auto. Qed.

Lemma format_entry_err nested prefix n w inner e : format_entry nested prefix n w inner = Err e ->
  exists e', nested inner (width_sub w (Z.of_nat n)) = Err e' /\ exn_base e = exn_base e'.
Proof.
  unfold format_entry. intros E. destruct (with_redirect (with_redirect _)) as [t|e1] eqn:E1; [discriminate|].
  cbn [bind] in E. injection E as <-. apply with_redirect_err in E1. destruct E1 as (e2 & E2 & B2).
  apply with_redirect_err in E2. destruct E2 as (e3 & E3 & B3). exists e3. split; [exact E3|congruence].
Qed.

(** Formatting a list fails only if formatting the text of one of its entries does, with
    the same exception. *)
Theorem C29_fails_only_nested : forall lim w i ty content e,
  list_type ty -> section_shape ty content -> Forall one_line content ->
  reformatted (fun lines w' => reformat_pass lim (str_join [c_nl] lines ++ [c_nl]) w')
    ty i content w = Err e ->
  exists entry inner n e', dedented entry inner /\ (exists a b, content = a ++ entry ++ b)
    /\ reformat_pass lim (str_join [c_nl] inner ++ [c_nl]) (width_sub w n) = Err e'
    /\ exn_base e = exn_base e'.
Proof.
  intros lim w i ty content e Hty Hs Hl E.
  assert (Hn : Forall no_nl content) by (eapply Forall_impl; [apply one_line_nl|exact Hl]).
  destruct (list_starts_marked _ _ Hty Hs) as (l & rest & ws & m & body & Ec & Hm).
  destruct (split_list_total l rest ws m body Hm) as (entries & Es). rewrite <- Ec in Es.
  destruct (split_list_ok _ _ Hn Es) as [[Hc Hf] _].
  assert (D : exists inners, dedent_entries entries = Ok inners).
  { assert (D : exists inners, Forall2 (fun e i => dedent_entry e = Ok i) entries inners).
    { clear -Hf. induction entries as [|e entries IH]; [exists []; constructor|].
      inversion Hf as [|? ? He Hf']; subst. destruct (IH Hf') as (is & Hi).
      destruct (dedent_total e He) as (i & Ei). exists (i :: is). constructor; assumption. }
    destruct D as (inners & D). exists inners. apply mapM_ok. exact D. }
  destruct D as (inners & D).
  assert (Hd : Forall2 dedented entries inners).
  { apply dedent_entries_spec; [|exact D]. rewrite <- Hc in Hn. apply Forall_concat. exact Hn. }
  assert (Fin : forall prefix n inner, In inner inners ->
    format_entry (fun lines w' => reformat_pass lim (str_join [c_nl] lines ++ [c_nl]) w')
      prefix n w inner = Err e ->
    exists entry inner n e', dedented entry inner /\ (exists a b, content = a ++ entry ++ b)
      /\ reformat_pass lim (str_join [c_nl] inner ++ [c_nl]) (width_sub w n) = Err e'
      /\ exn_base e = exn_base e').
  { intros prefix n inner Hin Ee. apply format_entry_err in Ee. destruct Ee as (e' & Ee & Eb).
    assert (G : exists entry, In entry entries /\ dedented entry inner).
    { clear -Hd Hin. induction Hd as [|x y xs ys Hxy Hd IH]; [destruct Hin|]. destruct Hin as [<-|Hin].
      - exists x. split; [left; reflexivity|exact Hxy].
      - destruct (IH Hin) as (z & Hz & Hz'). exists z. split; [right; exact Hz|exact Hz']. }
    destruct G as (entry & He & Hed). exists entry, inner, (Z.of_nat n), e'.
    split; [exact Hed|]. split; [|split; assumption].
    apply in_split in He. destruct He as (a & b & ->). exists (concat a), (concat b).
    rewrite <- Hc, concat_app. reflexivity. }
  destruct Hty as [->| ->]; cbn [reformatted] in E.
  - unfold fmt_bullet_list in E. rewrite Es in E. cbn [bind] in E. rewrite D in E. cbn [bind] in E.
    destruct Hs as (l0 & rest0 & -> & Hb & _).
    destruct Hb as (ws0 & b & body0 & -> & Hw0 & _ & Hb). cbn [nth_line nth_error bind] in E.
    assert (Hsp : is_space b = false).
    { cbn in Hb. repeat destruct Hb as [<-|Hb]; try reflexivity. destruct Hb. }
    rewrite lstrip_app in E by assumption. cbn [first_char bind] in E.
    destruct (mapM _ _) as [ts|e1] eqn:E1; [discriminate|]. cbn [bind] in E. injection E as ->.
    apply mapM_err in E1. destruct E1 as (inner & Hin & E1). eapply Fin; eassumption.
  - unfold fmt_ordered_list in E. rewrite Es in E. cbn [bind] in E.
    destruct Hs as (l0 & rest0 & -> & Hb & _).
    destruct Hb as (ws0 & ds & body0 & -> & Hw0 & _ & [Hne Hdg]). cbn [nth_line nth_error bind] in E.
    assert (Ef : first_number (ws0 ++ ds ++ c_dot :: c_sp :: body0) = Ok (digits_val ds)).
    { unfold first_number. destruct ds as [|d ds]; [congruence|]. cbn [app].
      rewrite lstrip_app by (auto; apply digit_not_space, (Forall_inv Hdg)).
      change (d :: ds ++ c_dot :: c_sp :: body0) with ((d :: ds) ++ c_dot :: c_sp :: body0).
      rewrite take_digits by (auto; reflexivity). reflexivity. }
    rewrite Ef in E. cbn [bind] in E. rewrite D in E. cbn [bind] in E.
    destruct (mapM _ _) as [ts|e1] eqn:E1; [discriminate|]. cbn [bind] in E. injection E as ->.
    apply mapM_err in E1. destruct E1 as ([k inner] & Hin & E1). eapply Fin; [|eassumption].
    clear -Hin. revert Hin. generalize (digits_val ds). induction inners as [|x inners IH]; intros s Hin; [destruct Hin|].
    destruct Hin as [Hin|Hin]; [injection Hin as _ <-; left; reflexivity|right; eapply IH; exact Hin].
Qed.

(** * Examples *)

Definition c26_lines : list str :=
  [lit "+ a"; lit "```"; lit "- no entry"; lit "```"; lit " * b"; lit "   - c"; lit "-"; lit "* d"].

Example C26_nonvacuous :
  parse_markdown 9 (splitlines (str_join [c_nl] c26_lines)) = Ok [(BULLET_LIST, c26_lines)]
  /\ fences_unindented c26_lines
  /\ split_list c26_lines
     = Ok [[lit "+ a"; lit "```"; lit "- no entry"; lit "```"]; [lit " * b"; lit "   - c"];
           [lit "-"]; [lit "* d"]].
Proof.
  split; [vm_compute; reflexivity|]. split; [|vm_compute; reflexivity].
  intros l run Hin Ho. apply full_fence_spec in Ho. cbn in Hin.
  repeat (destruct Hin as [<-|Hin]; [vm_compute in Ho; try discriminate|]); try destruct Hin.
  - injection Ho as <-. exists []. reflexivity.
  - injection Ho as <-. exists []. reflexivity.
Qed.

Example C28_nonvacuous :
  section_shape ORDERED_LIST [lit "9. a"; lit "  b"; lit "1. c"]
  /\ section_text 9 (WInt 20) 0 ORDERED_LIST [lit "9. a"; lit "  b"; lit "1. c"]
       (lit "9. a b" ++ [c_nl] ++ lit "10. c").
Proof.
  split; [|vm_compute; reflexivity]. eexists _, _. split; [reflexivity|]. split.
  - exists [], (lit "9"), (lit "a"). split; [reflexivity|]. split; [constructor|]. split; [cbn; lia|].
    split; [discriminate|]. vm_compute. repeat constructor.
  - repeat constructor;
      (intros H; first [apply blank_line_spec in H|apply table_spec in H|apply thematic_spec in H]; discriminate).
Qed.

Example C29_nonvacuous :
  section_text 9 (WInt 7) 0 BULLET_LIST [lit " * a b c d"; lit "+ e"; lit "    # f"; lit "- g"]
    (lit "* a b c" ++ [c_nl] ++ lit "  d" ++ [c_nl] ++ lit "* e" ++ [c_nl] ++ lit "  # f" ++ [c_nl] ++ lit "* g").
Proof. vm_compute. reflexivity. Qed.
