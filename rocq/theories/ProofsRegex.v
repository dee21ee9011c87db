(** What a successful match means, declaratively. *)
From Verif Require Import Py Regex Base.

(** The strings a regular expression describes. *)
Fixpoint den (r : list ritem) (s : str) : Prop :=
  match r with
  | [] => s = []
  | One p :: r' => exists c s', s = c :: s' /\ p c = true /\ den r' s'
  | Star p :: r' => exists a b, s = a ++ b /\ Forall (fun c => p c = true) a /\ den r' b
  | Upto p k :: r' =>
      exists a b, s = a ++ b /\ Forall (fun c => p c = true) a /\ length a <= k /\ den r' b
  end.

Definition star_fix (p : char -> bool) (r : list ritem) : str -> option nat :=
  fix star (s : str) : option nat :=
    match s with
    | c :: s' =>
        if p c then match star s' with Some n => Some (S n) | None => rmatch r s end
        else rmatch r s
    | [] => rmatch r []
    end.

Lemma rmatch_star p r s : rmatch (Star p :: r) s =
  match s with
  | c :: s' => if p c then match rmatch (Star p :: r) s' with
                           | Some n => Some (S n) | None => rmatch r s end
               else rmatch r s
  | [] => rmatch r []
  end.
Proof. destruct s; reflexivity. Qed.

Lemma rmatch_upto p k r s : rmatch (Upto p k :: r) s =
  match k, s with
  | S k', c :: s' => if p c then match rmatch (Upto p k' :: r) s' with
                                 | Some n => Some (S n) | None => rmatch r s end
                     else rmatch r s
  | _, _ => rmatch r s
  end.
Proof. destruct k, s; reflexivity. Qed.

Lemma rmatch_den r s n : rmatch r s = Some n -> n <= length s /\ den r (firstn n s).
Proof.
  revert s n. induction r as [|[p|p|p k] r IH]; intros s n.
  - intros H. inv H. cbn. split; [lia|reflexivity].
  - destruct s as [|c s]; [discriminate|]. cbn [rmatch].
    destruct (p c) eqn:Hc; [|discriminate].
    destruct (rmatch r s) as [m|] eqn:E; [|discriminate]. intros H. inv H.
    destruct (IH _ _ E) as [Hl Hd]. cbn [firstn den length]. split; [lia|].
    exists c, (firstn m s). auto.
  - revert n. induction s as [|c s IHs]; intros n; rewrite rmatch_star.
    + intros H. destruct (IH _ _ H) as [Hl Hd]. split; [exact Hl|].
      exists [], (firstn n []). auto.
    + destruct (p c) eqn:Hc.
      * destruct (rmatch (Star p :: r) s) as [m|] eqn:E.
        -- intros H. inv H. destruct (IHs _ eq_refl) as [Hl (a & b & Eab & Ha & Hb)].
           cbn [length]. split; [lia|]. cbn [firstn den]. exists (c :: a), b.
           rewrite Eab. repeat split; auto.
        -- intros H. destruct (IH _ _ H) as [Hl Hd]. split; [exact Hl|].
           exists [], (firstn n (c :: s)). auto.
      * intros H. destruct (IH _ _ H) as [Hl Hd]. split; [exact Hl|].
        exists [], (firstn n (c :: s)). auto.
  - revert s n. induction k as [|k IHk]; intros s n; rewrite rmatch_upto.
    + intros H. destruct (IH _ _ H) as [Hl Hd]. split; [exact Hl|].
      exists [], (firstn n s). cbn. auto.
    + destruct s as [|c s].
      * intros H. destruct (IH _ _ H) as [Hl Hd]. split; [exact Hl|].
        exists [], (firstn n []). cbn. repeat split; auto. lia.
      * destruct (p c) eqn:Hc.
        -- destruct (rmatch (Upto p k :: r) s) as [m|] eqn:E.
           ++ intros H. inv H. destruct (IHk _ _ E) as [Hl (a & b & Eab & Ha & Hk & Hb)].
              cbn [length]. split; [lia|]. cbn [firstn den]. exists (c :: a), b.
              rewrite Eab. cbn. repeat split; auto. lia.
           ++ intros H. destruct (IH _ _ H) as [Hl Hd]. split; [exact Hl|].
              exists [], (firstn n (c :: s)). cbn. repeat split; auto. lia.
        -- intros H. destruct (IH _ _ H) as [Hl Hd]. split; [exact Hl|].
           exists [], (firstn n (c :: s)). cbn. repeat split; auto. lia.
Qed.

Lemma den_rmatch r a b : den r a -> rmatch r (a ++ b) <> None.
Proof.
  revert a b. induction r as [|[p|p|p k] r IH]; intros a b H; cbn [den] in H.
  - discriminate.
  - destruct H as (c & s' & -> & Hc & Hd). cbn [app rmatch]. rewrite Hc.
    specialize (IH _ b Hd). destruct (rmatch r (s' ++ b)); [discriminate|congruence].
  - destruct H as (x & y & -> & Hx & Hd). rewrite <- app_assoc.
    induction Hx as [|c x Hc Hx IHx]; cbn [app]; rewrite rmatch_star.
    + specialize (IH _ b Hd). destruct (y ++ b) as [|c s]; [exact IH|].
      destruct (p c); [|exact IH].
      destruct (rmatch (Star p :: r) s); [discriminate|exact IH].
    + rewrite Hc. destruct (rmatch (Star p :: r) (x ++ y ++ b)); [discriminate|congruence].
  - destruct H as (x & y & -> & Hx & Hk & Hd). rewrite <- app_assoc.
    revert k Hk. induction Hx as [|c x Hc Hx IHx]; intros k Hk; cbn [app];
      rewrite rmatch_upto.
    + specialize (IH _ b Hd). destruct k, (y ++ b) as [|c s]; try exact IH.
      destruct (p c); [|exact IH].
      destruct (rmatch (Upto p k :: r) s); [discriminate|exact IH].
    + cbn [length] in Hk. destruct k as [|k]; [lia|]. rewrite Hc.
      assert (G := IHx k ltac:(lia)).
      destruct (rmatch (Upto p k :: r) (x ++ y ++ b)); [discriminate|congruence].
Qed.
