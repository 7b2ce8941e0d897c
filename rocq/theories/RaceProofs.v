(** Proofs for C54 and C55. *)
Require Import List Bool String Arith Lia Permutation.
Require Import Verif.Pool Verif.PoolSpec Verif.PoolProofs Verif.RaceSpec.
Import ListNotations.
Open Scope nat_scope.

Section P.
Context {D : Type}.
Variable h : string -> D -> D.

(** *** C55 *)
Record calmw (G : D -> Prop) (s : state D) : Prop := {
  cw_g : G (data s);
  cw_c : pushes_winners G (prog s);
  cw_q : forall e, In e (queue s) -> wins G (snd e) (true, ""%string);
  cw_w : forall i id r l, nth_error (workers s) i = Some (WRun id r l) -> wins G r l;
  cw_h : forall i id m, nth_error (workers s) i <> Some (WHandle id m) }.

Lemma calmw_put G (ws : list (worker D)) i o x : nth_error ws i = Some o ->
  (forall k id r l, nth_error ws k = Some (WRun id r l) -> wins G r l) -> (forall k id m, nth_error ws k <> Some (WHandle id m)) ->
  (forall id r l, x = WRun id r l -> wins G r l) -> (forall id m, x <> WHandle id m) ->
  (forall k id r l, nth_error (put ws i x) k = Some (WRun id r l) -> wins G r l) /\ (forall k id m, nth_error (put ws i x) k <> Some (WHandle id m)).
Proof.
  intros H A B C E. split; intros k id; intros; rewrite (nth_error_put ws i o x k H) in *; destruct (Nat.eqb k i); eauto.
  - injection H0 as ->. eauto.
  - intros X. injection X as ->. eapply E; eauto.
Qed.
Lemma calmw_step G s x s' : calmw G s -> step h s x s' -> calmw G s'.
Proof.
  intros [A B C E F] [H|[H|H]].
  - destruct H; cbn [data prog queue workers] in *; try (constructor; cbn [data prog queue workers]; auto; inversion B; subst; auto; fail).
    + inversion B as [|? ? K| | | | |]; subst. destruct (K d A). constructor; auto.
    + inversion B as [| |? ? K1 K2| | | |]; subst.
      assert (X : (forall k0 id r l0, nth_error ws' k0 = Some (WRun id r l0) -> wins G r l0) /\ (forall k0 id m, nth_error ws' k0 <> Some (WHandle id m))).
      { destruct (notify_cases _ _ H) as [(i & N & ->)|[N ->]]; [|auto]. eapply calmw_put; eauto; discriminate. }
      destruct X. constructor; cbn [data prog queue workers]; auto. intros e He. apply in_app_iff in He as [He|[<-|[]]]; auto.
    + inversion B; subst. constructor; cbn [data prog queue workers]; auto.
      * intros i id r l0 X. rewrite run_notify_all in X. eapply E; exact X.
      * intros i id m X. apply notify_all_nth in X; [|discriminate]. eapply F; eauto.
    + constructor; cbn [data prog queue workers]; auto; [inversion B; auto|]. intros e [].
  - destruct H; cbn [data prog queue workers] in *;
    match goal with N : nth_error ?ws ?i = Some ?o |- calmw _ (mkstate _ _ _ _ (put ?ws ?i ?y) _ _ _ _) =>
      cut (G d) end; auto; intros _.
    + destruct (calmw_put G ws i _ WHold H E F) as [X Y]; try discriminate. constructor; cbn; auto.
    + destruct (calmw_put G ws i _ WWait H E F) as [X Y]; try discriminate. constructor; cbn; auto.
    + destruct (calmw_put G ws i _ WDone H E F) as [X Y]; try discriminate. constructor; cbn; auto.
    + destruct (calmw_put G ws i _ (WRun id j (true, ""%string)) H E F) as [X Y]; try discriminate.
      { intros id' r l' Z. injection Z as <- <- <-. apply (C (id, j)). left. reflexivity. }
      constructor; cbn; auto. intros e He. apply C. right. exact He.
    + pose proof (E _ _ _ _ H) as W. inversion W as [| |? ? ? K]; subst. destruct (K d A) as [K1 K2]. rewrite H0 in K1, K2. cbn in K1, K2.
      destruct (calmw_put G ws i _ (WRun id r x') H E F) as [X Y]; try discriminate. { intros id' r' l' Z. injection Z as <- <- <-. exact K2. }
      constructor; cbn; auto.
    + pose proof (E _ _ _ _ H) as W. inversion W as [|? ? K|]; subst.
      destruct (calmw_put G ws i _ (WRun id r x) H E F) as [X Y]; try discriminate. { intros id' r' l' Z. injection Z as <- <- <-. exact K. }
      constructor; cbn; auto.
    + destruct (calmw_put G ws i _ WLock H E F) as [X Y]; try discriminate. constructor; cbn; auto.
    + exfalso. pose proof (E _ _ _ _ H) as W. inversion W. discriminate.
    + exfalso. eapply F; eauto.
  - destruct H. cbn [data prog queue workers] in *. destruct (calmw_put G ws i _ WLock H E F) as [X Y]; try discriminate. constructor; cbn; auto.
Qed.
Lemma calmw_steps (G : D -> Prop) n c d t s : G d -> pushes_winners G c -> steps h (init n c d) t s -> calmw G s.
Proof.
  intros HG Hc H. remember (init n c d) as s0 eqn:E. induction H as [|s t s' x s'' H IH HS].
  - subst. constructor; cbn; auto.
    + intros e [].
    + intros i id r l X. apply nth_error_In, repeat_spec in X. discriminate.
    + intros i id m X. apply nth_error_In, repeat_spec in X. discriminate.
  - eapply calmw_step; eauto.
Qed.

(** *** C54 *)
(** from here on nobody touches the job *)
Definition over (id : nat) (s : state D) : Prop := id < accepted s /\ ~ queued s id /\ ~ uses_frame s id.
Lemma frame_put (ws : list (worker D)) i o x id : nth_error ws i = Some o ->
  (forall k a r l, nth_error ws k <> Some (WRun id (a :: r) l)) -> (forall a r l, x <> WRun id (a :: r) l) ->
  forall k a r l, nth_error (put ws i x) k <> Some (WRun id (a :: r) l).
Proof. intros H A B k a r l. rewrite (nth_error_put ws i o x k H). destruct (Nat.eqb k i); [|apply A]. intros X. injection X as X. eapply B; eauto. Qed.
Lemma over_step id s x s' : inv s -> over id s -> step h s x s' -> over id s'.
Proof.
  intros I (A & B & C) H. assert (C' : forall k a r l, nth_error (workers s) k <> Some (WRun id (a :: r) l)) by (intros k a r l X; apply C; exists k, a, r, l; exact X).
  assert (K : id < accepted s' /\ ~ queued s' id /\ (forall k a r l, nth_error (workers s') k <> Some (WRun id (a :: r) l))).
  { destruct H as [H|[H|H]].
    - destruct H; cbn [accepted workers queued queue] in *; auto.
      + split; [lia|]. split; [|destruct (notify_cases _ _ H) as [(i & N & ->)|[N ->]]; [|auto]; eapply frame_put; eauto; discriminate].
        unfold queued in *. cbn [queue] in *. rewrite map_app, in_app_iff. intros [X|[X|[]]]; auto. cbn in X. lia.
      + split; auto. split; auto. intros i b r l0 X. rewrite run_notify_all in X. eapply C'; eauto.
    - destruct H; cbn [accepted workers queued queue] in *; (split; [exact A|]); unfold queued in *; cbn [queue map fst] in *;
        try (split; [auto|eapply frame_put; eauto; discriminate]).
      + split; [intros X; apply B; right; exact X|]. eapply frame_put; eauto. intros b r l' X. injection X as -> _ _. apply B. left. reflexivity.
      + split; auto. eapply frame_put; eauto. intros b r' l' X. injection X as -> X _. eapply C'; eauto.
      + split; auto. eapply frame_put; eauto. intros b r' l' X. injection X as -> X _. eapply C'; eauto.
    - destruct H; cbn [accepted workers queued queue] in *. split; auto. split; auto. eapply frame_put; eauto. discriminate. }
  destruct K as (K1 & K2 & K3). split; auto. split; auto. intros (i & a & r & l & X). eapply K3; eauto.
Qed.
Lemma over_steps id s t s' : inv s -> over id s -> steps h s t s' -> over id s'.
Proof.
  intros I O H. induction H as [|s t s' x s'' H IH HS]; auto. exact (over_step id s' x s'' (inv_steps h s t s' I H) (IH I O) HS).
Qed.
Lemma tail_of (j pre r acts : job D) : j = acts ++ [CountDown] -> cds acts = 0 -> j = pre ++ r -> cds r = 0 -> r = [].
Proof.
  intros -> HA H HR. destruct r as [|a r] using rev_ind; auto. exfalso. rewrite app_assoc in H. apply app_inj_tail in H as [_ <-]. rewrite cds_app in HR. change (cds [CountDown]) with 1 in HR. lia.
Qed.
Lemma over_after_pass n c d t s : disciplined false 0 c -> steps h (init n c d) (t ++ [LPass]) s ->
  forall id j, In (LAccept id j) t -> counts_last j -> over id s.
Proof.
  intros Hc H id j HA (acts & HJ & HZ).
  assert (Y : exists s3, steps h (init n c d) t s3 /\ step h s3 LPass s).
  { remember (t ++ [LPass]) as t' eqn:E. remember (init n c d) as s0. destruct H as [|s0 t0 s1 x s2 H HS]; [destruct t; discriminate|]. apply app_inj_tail in E as [-> ->]. eauto. }
  destruct Y as (s3 & H3 & X2).
  destruct (all_steps h n c d t s3 H3) as (I & HI & F).
  assert (P : pending s3 = 0 /\ drops t = []).
  { destruct (phase_steps h n c d t s3 Hc H3) as [(o & m & A & B & C & J & DD)|[A _]]; destruct X2 as [X2|[X2|X2]]; inversion X2; subst; cbn in *; inversion A; subst. cbn in B. split; [lia|auto]. }
  destruct P as [P DD]. unfold pending in P. eapply over_step; [exact I| |exact X2].
  pose proof (accept_lt _ _ _ _ HI HA) as LT. split; [exact LT|].
  assert (Q : ~ queued s3 id).
  { intros Q. apply in_map_iff in Q as ([id' j'] & E & Q). cbn in E. subst id'. destruct (f_queue _ _ F id j' Q) as [A' _]. pose proof (sum_zero (fun e => cds (snd e)) (queue s3) ltac:(lia) _ Q) as Z. change (cds j' = 0) in Z.
    pose proof (pushed_cds h n c d t s3 Hc H3 id j' A'). lia. }
  split; [exact Q|]. intros (i & a & r & l & W).
  destruct (f_all _ _ F id j HA) as [[Q' _]|[(i' & r' & x & pre & W' & E & G)|[(_ & _ & _ & G)|G]]].
  - apply Q. apply in_map_iff. exists (id, j). auto.
  - assert (i = i') by (eapply (unique_runner t s3); eauto; left; reflexivity). subst i'. rewrite W in W'. injection W' as <- <-.
    assert (Z : cds (a :: r) = 0). { apply (sum_zero wcds (workers s3) ltac:(lia) (WRun id (a :: r) l)). eapply nth_error_In; eauto. }
    pose proof (tail_of j pre (a :: r) acts HJ HZ E Z). discriminate.
  - eapply G; eauto.
  - rewrite DD in G. destruct G.
Qed.
End P.
