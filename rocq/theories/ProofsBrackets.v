(** Where square brackets are in a text. *)
From Coq Require Import String.
From Verif Require Import Py Regex Utils TextWrap Base SpecLines ProofsLines ProofsRegex SpecWrap
  ProofsScan ProofsWrap ProofsTokens ProofsParser ProofsLinks ProofsPieces ProofsFilled ProofsCode
  ProofsGaps ProofsSeams SpecFormat PropsWrap SpecInline ProofsStable.

Definition off (cs s : str) : Prop := Forall (fun c => ~ In c cs) s.
Definition spaceless (s : str) : Prop := Forall (fun c => is_space c = false) s.
Definition sq : str := [c_lbr; c_rbr].

Lemma off_app cs a b : off cs (a ++ b) <-> off cs a /\ off cs b.
Proof. apply Forall_app. Qed.

Lemma off_incl cs ds s : (forall c, In c ds -> In c cs) -> off cs s -> off ds s.
Proof. intros H. apply Forall_impl. intros c Hc Hd. apply Hc, H, Hd. Qed.

Lemma off_notin cs s c : off cs s -> In c cs -> ~ In c s.
Proof. unfold off. rewrite Forall_forall. intros H Hc Hs. exact (H c Hs Hc). Qed.

Lemma off_sq g : ~ In c_lbr g -> ~ In c_rbr g -> off sq g.
Proof.
  intros H1 H2. apply Forall_forall. intros c Hc [<-|[<-|[]]]; contradiction.
Qed.

(** * Texts without links *)

(** Whether an opening bracket has been read, and whether a closing one has just been. *)
Inductive gst := GA (r : bool) | GB (r : bool) | GBad.

Definition gstep (q : gst) (c : char) : gst :=
  match q with
  | GA r => if N.eqb c c_lbr then if r then GBad else GB false else GA (N.eqb c c_rbr)
  | GB r => if r && (N.eqb c c_lbr || N.eqb c c_lpar) then GBad else GB (N.eqb c c_rbr)
  | GBad => GBad
  end.
Definition grun (q : gst) (s : str) : gst := fold_left gstep s q.
Definition gok (q : gst) (s : str) : Prop := grun q s <> GBad.
Definition gsp (q : gst) : gst := match q with GA _ => GA false | GB _ => GB false | GBad => GBad end.

Lemma grun_app q a b : grun q (a ++ b) = grun (grun q a) b.
Proof. apply fold_left_app. Qed.

Lemma grun_cons q c s : grun q (c :: s) = grun (gstep q c) s.
Proof. reflexivity. Qed.

Lemma grun_bad s : grun GBad s = GBad.
Proof. induction s as [|c s IH]; [reflexivity|exact IH]. Qed.

Lemma gok_prefix q a b : gok q (a ++ b) -> gok q a.
Proof. unfold gok. rewrite grun_app. intros H E. rewrite E, grun_bad in H. congruence. Qed.

Lemma gok_suffix q a b : gok q (a ++ b) -> gok (grun q a) b.
Proof. unfold gok. rewrite grun_app. auto. Qed.

Lemma gstep_space q c : is_space c = true -> gstep q c = gsp q.
Proof.
  intros H. assert (N1 : N.eqb c c_lbr = false) by (apply N.eqb_neq; intros ->; discriminate).
  assert (N2 : N.eqb c c_rbr = false) by (apply N.eqb_neq; intros ->; discriminate).
  assert (N4 : N.eqb c c_lpar = false) by (apply N.eqb_neq; intros ->; discriminate).
  destruct q; cbn [gstep gsp]; rewrite ?N1, ?N2, ?N4; cbn [orb]; rewrite ?andb_false_r; reflexivity.
Qed.

Lemma gsp_twice q : gsp (gsp q) = gsp q.
Proof. destruct q; reflexivity. Qed.

(** Less is known of what has been read. *)
Definition gle (q q' : gst) : Prop :=
  match q', q with
  | GBad, _ => True
  | GB false, GB true => False | GA false, GA true => False
  | GB _, GB _ => True | GA _, GA _ => True
  | GB true, GA _ => True | GB false, GA false => True
  | _, _ => False
  end.

Lemma gle_refl q : gle q q.
Proof. destruct q as [[]|[]|]; exact I. Qed.

Lemma gle_step q q' c : gle q q' -> gle (gstep q c) (gstep q' c).
Proof.
  unfold gstep. destruct q as [[]|[]|], q' as [[]|[]|]; cbn [gle andb]; try tauto; intros _;
  destruct (N.eqb_spec c c_lbr) as [->|]; cbn [orb]; try exact I;
  destruct (N.eqb_spec c c_lpar) as [->|]; try exact I; destruct (N.eqb c c_rbr); exact I.
Qed.

Lemma gle_run s : forall q q', gle q q' -> gle (grun q s) (grun q' s).
Proof.
  induction s as [|c s IH]; intros q q' H; [exact H|]. rewrite !grun_cons. apply IH, gle_step, H.
Qed.

Lemma gle_ok q q' s : gle q q' -> gok q' s -> gok q s.
Proof.
  unfold gok. intros H Hk E. assert (G := gle_run s q q' H). rewrite E in G. destruct (grun q' s) as [[]|[]|]; try destruct G. congruence.
Qed.

Lemma gsp_le q : gle (gsp q) q.
Proof. destruct q as [[]|[]|]; exact I. Qed.

Definition gplain (q : gst) : Prop := q = GA false \/ q = GB false.

Lemma grun_off q s : gplain q -> off sq s -> grun q s = q.
Proof.
  intros Hq H. revert q Hq. induction H as [|c s Hc H IH]; intros q Hq; [reflexivity|]. rewrite grun_cons.
  assert (E : gstep q c = q).
  { assert (N1 : N.eqb c c_lbr = false) by (apply N.eqb_neq; intros ->; apply Hc; cbn; auto).
    assert (N2 : N.eqb c c_rbr = false) by (apply N.eqb_neq; intros ->; apply Hc; cbn; auto).
    destruct Hq as [-> | ->]; cbn [gstep andb]; rewrite ?N1, ?N2; reflexivity. }
  rewrite E. apply IH, Hq.
Qed.

Lemma gok_off q s : gplain q -> off sq s -> gok q s.
Proof. intros Hq H. unfold gok. rewrite grun_off by assumption. destruct Hq as [->| ->]; discriminate. Qed.

Lemma gok_off_open q s : gplain q -> off sq s -> gok q (s ++ [c_lbr]).
Proof. intros Hq H. unfold gok. rewrite grun_app, (grun_off q s) by assumption. destruct Hq as [->| ->]; discriminate. Qed.

Lemma gok_ref q s : gok q s -> forall a b, s <> a ++ [c_rbr; c_lbr] ++ b.
Proof.
  intros H a b ->. apply H. rewrite !grun_app.
  assert (E : grun (grun q a) [c_rbr; c_lbr] = GBad) by (destruct (grun q a) as [[]|[]|]; reflexivity).
  rewrite E. apply grun_bad.
Qed.

Lemma grun_b r s : grun (GB r) s = GBad \/ exists r', grun (GB r) s = GB r'.
Proof.
  revert r. induction s as [|c s IH]; intros r; [right; exists r; reflexivity|]. rewrite grun_cons. cbn [gstep].
  destruct (r && _); [left; apply grun_bad|apply IH].
Qed.

Lemma gok_b r s : gok (GB r) s -> forall a b, s <> a ++ [c_rbr; c_lpar] ++ b.
Proof.
  intros H a b ->. apply H. rewrite !grun_app.
  assert (E : grun (grun (GB r) a) [c_rbr; c_lpar] = GBad) by (destruct (grun_b r a) as [->|(r' & ->)]; [|destruct r']; reflexivity).
  rewrite E. apply grun_bad.
Qed.

Lemma gok_url q s : gok q s -> forall a y z, s <> a ++ [c_lbr] ++ y ++ [c_rbr; c_lpar] ++ z.
Proof.
  intros H a y z ->. rewrite app_assoc in H.
  assert (G : grun q (a ++ [c_lbr]) = GBad \/ grun q (a ++ [c_lbr]) = GB false).
  { rewrite grun_app. destruct (grun q a) as [[]|[]|]; cbn; auto. }
  assert (H1 := gok_prefix _ _ _ H). apply gok_suffix in H. destruct G as [G|G]; [contradiction|]. rewrite G in H.
  apply (gok_b _ _ H y z). reflexivity.
Qed.

(** * Texts with links *)

Inductive state := Out | Text (ink : bool) | Closed (ink : bool) | Target (ink : bool) | Bad.

Definition step (q : state) (c : char) : state :=
  match q with
  | Out => if N.eqb c c_lbr then Text false else if N.eqb c c_rbr then Bad else Out
  | Text b => if N.eqb c c_lbr then Bad
              else if N.eqb c c_rbr then Closed b else Text (b || negb (is_space c))
  | Closed b => if N.eqb c c_lpar then if b then Target false else Bad
                else if N.eqb c c_lbr || N.eqb c c_rbr then Bad else Out
  | Target b => if N.eqb c c_lbr || N.eqb c c_rbr || N.eqb c c_bt then Bad
                else if N.eqb c c_rpar then if b then Out else Bad else Target (b || negb (is_space c))
  | Bad => Bad
  end.
Definition run (q : state) (s : str) : state := fold_left step s q.
Definition spaced_out (q : state) : state := match q with Closed _ => Out | _ => q end.
Definition good (q : state) : Prop := match q with Out | Text _ | Closed _ => True | _ => False end.

Lemma run_app q a b : run q (a ++ b) = run (run q a) b.
Proof. apply fold_left_app. Qed.

Lemma run_cons q c s : run q (c :: s) = run (step q c) s.
Proof. reflexivity. Qed.

Lemma run_bad s : run Bad s = Bad.
Proof. induction s as [|c s IH]; [reflexivity|exact IH]. Qed.

Lemma step_space q c : is_space c = true -> step q c = spaced_out q.
Proof.
  intros H. assert (N1 : N.eqb c c_lbr = false) by (apply N.eqb_neq; intros ->; discriminate).
  assert (N2 : N.eqb c c_rbr = false) by (apply N.eqb_neq; intros ->; discriminate).
  assert (N3 : N.eqb c c_bt = false) by (apply N.eqb_neq; intros ->; discriminate).
  assert (N4 : N.eqb c c_lpar = false) by (apply N.eqb_neq; intros ->; discriminate).
  assert (N5 : N.eqb c c_rpar = false) by (apply N.eqb_neq; intros ->; discriminate).
  destruct q; cbn [step spaced_out]; rewrite ?N1, ?N2, ?N3, ?N4, ?N5, ?H; cbn [orb negb]; rewrite ?orb_false_r; reflexivity.
Qed.

Lemma spaced_twice q : spaced_out (spaced_out q) = spaced_out q.
Proof. destruct q; reflexivity. Qed.

(** A piece of a text between backticks. *)
Definition piece (s : str) : Prop := exists q, (q = Out \/ q = Text true) /\ good (run q s).

Definition not_bracket (c : char) : Prop := ~ In c [c_lbr; c_rbr].

Lemma step_start q c : q = Out \/ q = Text true -> not_bracket c -> step q c = q.
Proof.
  intros Hq Hc. unfold not_bracket in Hc. cbn [In] in Hc.
  assert (N1 : N.eqb c c_lbr = false) by (apply N.eqb_neq; intuition congruence).
  assert (N2 : N.eqb c c_rbr = false) by (apply N.eqb_neq; intuition congruence).
  destruct Hq as [->| ->]; cbn [step]; rewrite N1, N2; reflexivity.
Qed.

Lemma piece_lead ws s : Forall not_bracket ws -> piece (ws ++ s) <-> piece s.
Proof.
  intros H. assert (E : forall q, q = Out \/ q = Text true -> run q (ws ++ s) = run q s).
  { intros q Hq. rewrite run_app. f_equal. induction H as [|c ws Hc H IH]; [reflexivity|]. rewrite run_cons, step_start by assumption. exact IH. }
  split; intros (q & Hq & G); exists q; (split; [exact Hq|]); [rewrite <- E|rewrite E]; assumption.
Qed.

Lemma good_prefix_bt q a b : good (run q (a ++ c_bt :: b)) -> good (run q a) /\ piece b.
Proof.
  rewrite run_app, run_cons. assert (B := run_bad b).
  destruct (run q a) as [| i | i | i |]; cbn [step]; cbn; intros H; try (rewrite B in H; destruct H).
  - split; [exact I|]. exists Out. auto.
  - split; [exact I|]. exists (Text true). rewrite orb_true_r in H. auto.
  - split; [exact I|]. exists Out. auto.
Qed.

Lemma piece_cut a b : piece (a ++ c_bt :: b) -> piece a /\ piece b.
Proof. intros (q & Hq & H). apply good_prefix_bt in H. destruct H as [H1 H2]. split; [exists q; auto|exact H2]. Qed.

Lemma space_not_bracket c : is_space c = true -> not_bracket c.
Proof. intros H [<-|[<-|[]]]; discriminate. Qed.

Lemma good_trail ws : Forall (fun c => is_space c = true) ws -> forall q, good (run q ws) -> good q.
Proof.
  intros H. induction H as [|c ws Hc H IH]; intros q G; [exact G|]. rewrite run_cons, step_space in G by exact Hc. apply IH in G.
  destruct q; try exact G.
Qed.

Lemma piece_trail s ws : Forall (fun c => is_space c = true) ws -> piece (s ++ ws) -> piece s.
Proof. intros H (q & Hq & G). exists q. split; [exact Hq|]. rewrite run_app in G. eapply good_trail; eassumption. Qed.

Lemma forallb_space ws : forallb is_space ws = true -> Forall (fun c => is_space c = true) ws.
Proof. intros H. apply Forall_forall. rewrite forallb_forall in H. exact H. Qed.

Lemma piece_strip s : piece s -> piece (strip s).
Proof.
  intros H. destruct (strip_spec s) as (a & b & E & Ha & Hb). rewrite E in H. apply forallb_space in Ha, Hb.
  apply piece_lead in H; [|eapply Forall_impl; [|exact Ha]; intros c Hc; apply space_not_bracket, Hc].
  eapply piece_trail; eassumption.
Qed.

Lemma piece_rstrip s : piece s -> piece (rstrip s).
Proof.
  intros H. destruct (rstrip_by_spec is_space s) as (b & E & Hb). fold (rstrip s) in E. rewrite E in H. apply forallb_space in Hb.
  eapply piece_trail; eassumption.
Qed.

(** ** Grammar and automaton *)

Lemma run_out g : off sq g -> run Out g = Out.
Proof.
  intros H. induction H as [|c g Hc H IH]; [reflexivity|]. rewrite run_cons, step_start by auto. exact IH.
Qed.

Lemma run_text b t : off sq t -> run (Text b) t = Text (b || existsb (fun c => negb (is_space c)) t).
Proof.
  intros H. revert b. induction H as [|c t Hc H IH]; intros b; [cbn; rewrite orb_false_r; reflexivity|].
  rewrite run_cons. cbn [step]. assert (N1 : N.eqb c c_lbr = false) by (apply N.eqb_neq; intros ->; apply Hc; cbn; auto).
  assert (N2 : N.eqb c c_rbr = false) by (apply N.eqb_neq; intros ->; apply Hc; cbn; auto).
  rewrite N1, N2, IH. cbn [existsb]. rewrite orb_assoc. reflexivity.
Qed.

Lemma run_target b t : off [c_lbr; c_rbr; c_bt; c_rpar] t ->
  run (Target b) t = Target (b || existsb (fun c => negb (is_space c)) t).
Proof.
  intros H. revert b. induction H as [|c t Hc H IH]; intros b; [cbn; rewrite orb_false_r; reflexivity|]. cbn [In] in Hc.
  rewrite run_cons. cbn [step]. destruct (N.eqb_spec c c_lbr) as [->|]; [tauto|]. destruct (N.eqb_spec c c_bt) as [->|]; [tauto|].
  destruct (N.eqb_spec c c_rbr) as [->|]; [tauto|]. destruct (N.eqb_spec c c_rpar) as [->|]; [tauto|]. cbn [orb].
  rewrite IH. cbn [existsb]. rewrite orb_assoc. reflexivity.
Qed.

Lemma part_ink cs t : link_part cs t -> existsb (fun c => negb (is_space c)) t = true.
Proof. intros [(c & Hc & Hs) _]. apply existsb_exists. exists c. rewrite Hs. auto. Qed.

Lemma run_closed b s : (forall s', s <> c_lpar :: s') -> (forall s', s <> c_lbr :: s') -> good (run Out s) -> good (run (Closed b) s).
Proof.
  intros H1 H2 H. destruct s as [|c s]; [exact I|]. rewrite run_cons in *. cbn [step] in *.
  destruct (N.eqb_spec c c_lpar) as [->|]; [exfalso; apply (H1 s); reflexivity|].
  destruct (N.eqb_spec c c_lbr) as [->|]; [exfalso; apply (H2 s); reflexivity|].
  cbn [orb]. destruct (N.eqb c c_rbr); exact H.
Qed.

Lemma links_good s : inline_links s -> good (run Out s).
Proof.
  intros H. induction H as [g [H1 H2]|g t s [H1 H2] [H3 H4] H5 H6 H7 IH|g t u s [H1 H2] H3 H4 H5 IH].
  - rewrite run_out by (apply off_sq; assumption). exact I.
  - rewrite !run_app, (run_out g) by (apply off_sq; assumption). change (run Out [c_lbr]) with (Text false).
    rewrite run_text by (apply off_sq; assumption). change (run (Text ?b) [c_rbr]) with (Closed b). apply run_closed; assumption.
  - rewrite !run_app, (run_out g) by (apply off_sq; assumption). change (run Out [c_lbr]) with (Text false).
    rewrite run_text by apply H3. rewrite (part_ink _ _ H3). change (run (Text (false || true)) [c_rbr; c_lpar]) with (Target false).
    rewrite run_target by apply H4. rewrite (part_ink _ _ H4). exact IH.
Qed.

(** ** The first link of a text *)

Definition cut_end (g : str) : Prop := g = [] \/ exists g' c, g = g' ++ [c] /\ (c = c_sp \/ c = c_rpar \/ c = c_rbr).

Lemma existsb_blank t : existsb (fun c => negb (is_space c)) t = true -> blank t = false.
Proof.
  intros H. apply existsb_exists in H. destruct H as (c & Hc & Hs). apply ink_ne_blank. intros E.
  assert (G : In c (ink t)) by (apply filter_In; unfold not_space; auto). rewrite E in G. destruct G.
Qed.

Lemma text_split s : forall b, good (run (Text b) s) -> off sq s \/ exists t s', s = t ++ [c_rbr] ++ s' /\ off sq t
  /\ good (run (Closed (b || existsb (fun c => negb (is_space c)) t)) s').
Proof.
  induction s as [|c s IH]; intros b H; [left; constructor|]. rewrite run_cons in H. cbn [step] in H.
  destruct (N.eqb_spec c c_lbr) as [->|N1]; [rewrite run_bad in H; destruct H|].
  destruct (N.eqb_spec c c_rbr) as [->|N2].
  - right. exists [], s. split; [reflexivity|]. split; [constructor|]. cbn [existsb]. rewrite orb_false_r. exact H.
  - destruct (IH _ H) as [G|(t & s' & -> & G1 & G2)].
    + left. constructor; [cbn; intuition congruence|exact G].
    + right. exists (c :: t), s'. split; [reflexivity|]. split; [constructor; [cbn; intuition congruence|exact G1]|].
      cbn [existsb]. rewrite orb_assoc. exact G2.
Qed.

Lemma target_split s : forall b, good (run (Target b) s) -> exists u s', s = u ++ [c_rpar] ++ s' /\ off [c_lbr; c_rbr; c_rpar] u
  /\ b || existsb (fun c => negb (is_space c)) u = true /\ good (run Out s').
Proof.
  induction s as [|c s IH]; intros b H; [destruct H|]. rewrite run_cons in H. cbn [step] in H.
  destruct (N.eqb_spec c c_lbr) as [->|N1]; [cbn [orb] in H; rewrite run_bad in H; destruct H|].
  destruct (N.eqb_spec c c_rbr) as [->|N2]; [cbn [orb] in H; rewrite run_bad in H; destruct H|].
  destruct (N.eqb_spec c c_bt) as [->|N3]; [cbn [orb] in H; rewrite run_bad in H; destruct H|]. cbn [orb] in H.
  destruct (N.eqb_spec c c_rpar) as [->|N4].
  - destruct b; [|rewrite run_bad in H; destruct H]. exists [], s. split; [reflexivity|]. split; [constructor|]. auto.
  - destruct (IH _ H) as (u & s' & -> & G1 & G2 & G3). exists (c :: u), s'. split; [reflexivity|].
    split; [constructor; [cbn; intuition congruence|exact G1]|]. cbn [existsb]. rewrite orb_assoc. auto.
Qed.

Lemma closed_split s b : good (run (Closed b) s) -> s = []
  \/ (exists c s', s = c :: s' /\ c <> c_lbr /\ c <> c_rbr /\ c <> c_lpar /\ good (run Out s))
  \/ (b = true /\ exists u s', s = [c_lpar] ++ u ++ [c_rpar] ++ s' /\ off [c_lbr; c_rbr; c_rpar] u /\ blank u = false /\ good (run Out s')).
Proof.
  intros H. destruct s as [|c s]; [auto|right]. assert (H' := H). rewrite run_cons in H. cbn [step] in H.
  destruct (N.eqb_spec c c_lpar) as [->|N1].
  - right. destruct b; [|rewrite run_bad in H; destruct H]. split; [reflexivity|].
    destruct (target_split _ _ H) as (u & s' & -> & G1 & G2 & G3). exists u, s'. split; [reflexivity|]. split; [exact G1|].
    split; [apply existsb_blank, G2|exact G3].
  - left. destruct (N.eqb_spec c c_lbr) as [->|N2]; [cbn [orb] in H; rewrite run_bad in H; destruct H|].
    destruct (N.eqb_spec c c_rbr) as [->|N3]; [cbn [orb] in H; rewrite run_bad in H; destruct H|]. cbn [orb] in H.
    exists c, s. repeat split; auto. rewrite run_cons. rewrite step_start; [exact H|auto|]. intros [<-|[<-|[]]]; congruence.
Qed.

Lemma first_bracket s : good (run Out s) -> off sq s \/ exists g s1, s = g ++ [c_lbr] ++ s1 /\ off sq g /\ good (run (Text false) s1).
Proof.
  induction s as [|c s IH]; intros H; [left; constructor|]. rewrite run_cons in H. cbn [step] in H.
  destruct (N.eqb_spec c c_lbr) as [->|N1]; [right; exists [], s; split; [reflexivity|]; split; [constructor|exact H]|].
  destruct (N.eqb_spec c c_rbr) as [->|N2]; [rewrite run_bad in H; destruct H|].
  destruct (IH H) as [G|(g & s1 & -> & G1 & G2)].
  - left. constructor; [cbn; intuition congruence|exact G].
  - right. exists (c :: g), s1. split; [reflexivity|]. split; [constructor; [cbn; intuition congruence|exact G1]|exact G2].
Qed.

(** [linked q s]: nothing is a link before the first part of [s]. *)
Definition linked (q : gst) (s : str) : Prop :=
  exists h1 h2 t u s', s = (h1 ++ h2) ++ [c_lbr] ++ t ++ [c_rbr; c_lpar] ++ u ++ [c_rpar] ++ s'
    /\ gok q ((h1 ++ h2) ++ [c_lbr]) /\ cut_end h1 /\ off sq h2
    /\ off sq t /\ blank t = false /\ off [c_lbr; c_rbr; c_rpar] u /\ blank u = false /\ good (run Out s').

Lemma linked_app q x s : (x = [] \/ cut_end x) -> linked (grun q x) s -> gok q s \/ True -> linked q (x ++ s).
Proof.
  intros Hx (h1 & h2 & t & u & s' & -> & G1 & G2 & G3 & G4 & G5 & G6 & G7 & G8) _.
  exists (x ++ h1), h2, t, u, s'. split; [rewrite <- !app_assoc; reflexivity|]. split; [|split].
  - unfold gok in *. rewrite <- app_assoc, <- app_assoc. rewrite grun_app. rewrite app_assoc. exact G1.
  - destruct G2 as [->|(g' & c & -> & Hc)]; [rewrite app_nil_r; destruct Hx as [->|Hx]; [left; reflexivity|exact Hx]|].
    right. exists (x ++ g'), c. rewrite app_assoc. auto.
  - auto 8.
Qed.

Lemma gplain_le q : gplain q -> gle q (GB false).
Proof. intros [->| ->]; exact I. Qed.

Lemma grun_pair q g t : gplain q -> off sq g -> off sq t -> grun q (g ++ [c_lbr] ++ t ++ [c_rbr]) = GB true.
Proof.
  intros Hq Hg Ht. rewrite !grun_app, (grun_off q g) by assumption.
  assert (E : grun q [c_lbr] = GB false) by (destruct Hq as [->| ->]; reflexivity). rewrite E.
  rewrite (grun_off _ t); [reflexivity|right; reflexivity|exact Ht].
Qed.

Lemma gstep_after b c : c <> c_lbr -> c <> c_lpar -> gstep (GB b) c = gstep (GB false) c /\ gstep (GA b) c = gstep (GA false) c.
Proof.
  intros H1 H2. apply N.eqb_neq in H1, H2. cbn [gstep]. rewrite H1, H2. cbn [orb andb]. rewrite andb_false_r. auto.
Qed.

Lemma linked_after q q' c s : gstep q c = gstep q' c -> linked q' (c :: s) -> linked q (c :: s).
Proof.
  intros E (h1 & h2 & t & u & s' & Es & G1 & G). exists h1, h2, t, u, s'. split; [exact Es|]. split; [|exact G].
  unfold gok in *. destruct ((h1 ++ h2) ++ [c_lbr]) as [|d x] eqn:Ex; [destruct (h1 ++ h2); discriminate|].
  assert (d = c).
  { destruct (h1 ++ h2) as [|e y]; [injection Ex as <- _; injection Es as -> _; reflexivity|]. injection Ex as -> _. injection Es as -> _. reflexivity. }
  subst d. rewrite grun_cons, E, <- grun_cons. exact G1.
Qed.

Lemma split_out n : forall s q, length s <= n -> gplain q -> good (run Out s) -> gok q s \/ linked q s.
Proof.
  induction n as [|n IH]; intros s q Hn Hq H.
  { destruct s; [|cbn in Hn; lia]. left. apply gok_off; [exact Hq|constructor]. }
  destruct (first_bracket s H) as [G|(g & s1 & -> & Hg & G)]; [left; apply gok_off; assumption|].
  destruct (text_split _ _ G) as [G1|(t & s2 & -> & Ht & G1)].
  { left. unfold gok. rewrite !grun_app, (grun_off q g) by assumption.
    assert (E : grun q [c_lbr] = GB false) by (destruct Hq as [->| ->]; reflexivity). rewrite E.
    apply gok_off; [right; reflexivity|exact G1]. }
  rewrite !app_length in Hn. cbn [length] in Hn. cbn [orb] in G1.
  assert (X : g ++ [c_lbr] ++ t ++ [c_rbr] ++ s2 = (g ++ [c_lbr] ++ t ++ [c_rbr]) ++ s2) by (rewrite <- !app_assoc; reflexivity).
  assert (P := grun_pair q g t Hq Hg Ht).
  destruct (closed_split _ _ G1) as [->|[(c & s3 & -> & N1 & N2 & N3 & G2)|(Hb & u & s3 & -> & U1 & U2 & U3)]].
  - left. rewrite X, app_nil_r. unfold gok. rewrite P. discriminate.
  - rewrite X. destruct (gstep_after true c N1 N3) as [E _].
    destruct (IH (c :: s3) (GB false)) as [K|K]; [cbn [length] in *; lia|right; reflexivity|exact G2| |].
    + left. unfold gok in *. rewrite grun_app, P, grun_cons, E, <- grun_cons. exact K.
    + right. apply linked_app; [|rewrite P; eapply linked_after; [exact E|exact K]|auto]. right. right.
      exists (g ++ [c_lbr] ++ t), c_rbr. rewrite <- !app_assoc. auto.
  - right. exists [], g, t, u, s3. cbn [app]. split; [rewrite <- ?app_assoc; reflexivity|].
    split; [apply gok_off_open; assumption|]. split; [left; reflexivity|]. split; [exact Hg|]. split; [exact Ht|].
    split; [apply existsb_blank, Hb|]. auto.
Qed.

Lemma split_piece s : piece s -> gok (GA false) s \/ linked (GA false) s.
Proof.
  intros (q & [->| ->] & H); [eapply split_out; [apply le_n|left; reflexivity|exact H]|].
  destruct (text_split _ _ H) as [G1|(t & s2 & -> & Ht & G1)]; [left; apply gok_off; [left; reflexivity|exact G1]|].
  assert (X : t ++ [c_rbr] ++ s2 = (t ++ [c_rbr]) ++ s2) by (rewrite <- !app_assoc; reflexivity).
  assert (P : grun (GA false) (t ++ [c_rbr]) = GA true) by (rewrite grun_app, (grun_off _ t); [reflexivity|left; reflexivity|exact Ht]).
  destruct (closed_split _ _ G1) as [->|[(c & s3 & -> & N1 & N2 & N3 & G2)|(Hb & u & s3 & -> & U1 & U2 & U3)]].
  - left. rewrite app_nil_r. unfold gok. rewrite P. discriminate.
  - rewrite X. destruct (gstep_after true c N1 N3) as [_ E].
    destruct (split_out _ (c :: s3) (GA false) (le_n _)) as [K|K]; [left; reflexivity|exact G2| |].
    + left. unfold gok in *. rewrite grun_app, P, grun_cons, E, <- grun_cons. exact K.
    + right. apply linked_app; [|rewrite P; eapply linked_after; [exact E|exact K]|auto]. right. right. exists t, c_rbr. auto.
  - assert (Y : t ++ [c_rbr] ++ [c_lpar] ++ u ++ [c_rpar] ++ s3 = (t ++ [c_rbr] ++ [c_lpar] ++ u ++ [c_rpar]) ++ s3) by (rewrite <- !app_assoc; reflexivity).
    assert (Q : grun (GA false) (t ++ [c_rbr] ++ [c_lpar] ++ u ++ [c_rpar]) = GA false).
    { rewrite !grun_app, (grun_off _ t); [|left; reflexivity|exact Ht]. change (grun (grun (GA false) [c_rbr]) [c_lpar]) with (GA false).
      rewrite (grun_off _ u); [reflexivity|left; reflexivity|]. eapply off_incl; [|exact U1]. cbn. tauto. }
    rewrite Y. destruct (split_out _ s3 (GA false) (le_n _)) as [K|K]; [left; reflexivity|exact U3| |].
    + left. unfold gok in *. rewrite grun_app, Q. exact K.
    + right. apply linked_app; [|rewrite Q; exact K|auto]. right. right. exists (t ++ [c_rbr] ++ [c_lpar] ++ u), c_rpar.
      rewrite <- !app_assoc. auto.
Qed.
