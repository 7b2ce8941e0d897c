(** A proof rule for jobs on the pool: assertions for each point of a job, which the steps of the others preserve. *)
Require Import List Bool String Arith Lia.
Require Import Verif.Pool Verif.PoolSpec Verif.PoolProofs.
Import ListNotations.

Lemma accepts_unique {D} (t : list (label D)) : NoDup (accepts t) -> forall id j j', In (LAccept id j) t -> In (LAccept id j') t -> j = j'.
Proof.
  induction t as [|x t IH]; intros ND id j j' H H'; [destruct H|]. unfold accepts in ND. cbn [flat_map] in ND. fold (accepts t) in ND.
  assert (IN : forall k, In (LAccept id k) t -> In id (accepts t)) by (intros k Hk; apply in_flat_map; exists (LAccept id k); split; [auto|left; reflexivity]).
  destruct H as [->|H], H' as [H'|H'].
  - congruence.
  - exfalso. cbn in ND. inversion ND; subst. eauto.
  - exfalso. subst x. cbn in ND. inversion ND; subst. eauto.
  - apply nodup_app in ND as (_ & ND & _). eauto.
Qed.

Section A.
Context {D : Type} (h : string -> D -> D).
Variables (G : D -> Prop) (AI : job D -> job D -> local -> D -> Prop) (AH : job D -> string -> D -> Prop) (AE : job D -> D -> Prop) (good : job D -> Prop) (okc : client D -> Prop).
Definition stable (d d' : D) : Prop := forall j, (forall r x, AI j r x d -> AI j r x d') /\ (forall m, AH j m d -> AH j m d') /\ (AE j d -> AE j d').
Hypothesis o_do : forall f k d, okc (CDo f k) -> G d -> okc (k d) /\ G (f d) /\ stable d (f d).
Hypothesis o_push : forall j k b, okc (CPush j k) -> good j /\ okc (k b).
Hypothesis o_latch : forall n k, okc (CLatch n k) -> okc k.
Hypothesis o_wait : forall k, okc (CWait k) -> okc k.
Hypothesis o_stop : forall k, okc (CStop k) -> okc k.
Hypothesis o_clear : forall k, okc (CClear k) -> okc k.
Hypothesis a_start : forall j d, good j -> G d -> AI j j (true, ""%string) d.
Hypothesis a_act : forall j f r x d x' d', good j -> G d -> AI j (Act f :: r) x d -> f x d = (x', d') -> G d' /\ AI j r x' d' /\ stable d d'.
Hypothesis a_count : forall j r x d, AI j (CountDown :: r) x d -> AI j r x d.
Hypothesis a_ok : forall j m d, G d -> AI j [] (true, m) d -> AE j d.
Hypothesis a_fail : forall j m d, G d -> AI j [] (false, m) d -> AH j m d.
Hypothesis a_handle : forall j m d, G d -> AH j m d -> G (h m d) /\ AE j (h m d) /\ stable d (h m d).

Record ainv (t : list (label D)) (s : state D) : Prop := mkainv {
  v_prog : okc (prog s);
  v_data : G (data s);
  v_queue : forall id j, In (id, j) (queue s) -> In (LAccept id j) t /\ good j;
  v_run : forall w id r x, nth_error (workers s) w = Some (WRun id r x) -> exists j, In (LAccept id j) t /\ good j /\ AI j r x (data s);
  v_handle : forall w id m, nth_error (workers s) w = Some (WHandle id m) -> exists j, In (LAccept id j) t /\ AH j m (data s);
  v_end : forall id, In id (ends t) -> exists j, In (LAccept id j) t /\ AE j (data s)
}.
Lemma acc_snoc t x id (P : job D -> Prop) : (exists j, In (LAccept id j) t /\ P j) -> exists j, In (LAccept id j) (t ++ [x]) /\ P j.
Proof. intros (j & A & B). exists j. split; auto. apply in_app_iff. auto. Qed.
Lemma ends_snoc (t : list (label D)) x id : In id (ends (t ++ [x])) -> In id (ends t) \/ exists i, x = LEnd id i.
Proof.
  destruct (labs_app t [x]) as (_ & _ & -> & _). rewrite in_app_iff. intros [H|H]; auto. right. destruct x; cbn in H; try destruct H as [H|[]]; try destruct H; try contradiction. eauto.
Qed.

(** one worker changes its state and the data, no job ends *)
Lemma ainv_worker t q a m l ws c d n jn x m' l' d' i o y : ainv t (mkstate q a m l ws c d n jn) -> nth_error ws i = Some o ->
  (forall id k, x <> LEnd id k) -> G d' -> (d' = d \/ stable d d') ->
  (forall id r z, y = WRun id r z -> exists j, In (LAccept id j) t /\ good j /\ AI j r z d') -> (forall id msg, y = WHandle id msg -> exists j, In (LAccept id j) t /\ AH j msg d') ->
  ainv (t ++ [x]) (mkstate q a m' l' (put ws i y) c d' n jn).
Proof.
  intros [B1 B2 B3 B4 B5 B6] H NX GD ST HR HH. cbn in *.
  assert (SI : forall j r z, AI j r z d -> AI j r z d') by (intros j r z X; destruct ST as [->|ST]; [auto|]; apply (ST j); auto).
  assert (SH : forall j r, AH j r d -> AH j r d') by (intros j r X; destruct ST as [->|ST]; [auto|]; apply (ST j); auto).
  assert (SE : forall j, AE j d -> AE j d') by (intros j X; destruct ST as [->|ST]; [auto|]; apply (ST j); auto).
  constructor; cbn; auto.
  - intros id j X. destruct (B3 id j X). rewrite in_app_iff. auto.
  - intros w id r z X. rewrite (nth_error_put ws i _ _ w H) in X. apply acc_snoc. destruct (Nat.eqb_spec w i) as [E|E]; [injection X as X; eapply HR; eauto|]. destruct (B4 w id r z X) as (j & A1 & A2 & A3). exists j. auto.
  - intros w id r X. rewrite (nth_error_put ws i _ _ w H) in X. apply acc_snoc. destruct (Nat.eqb_spec w i) as [E|E]; [injection X as X; eapply HH; eauto|]. destruct (B5 w id r X) as (j & A1 & A2). exists j. auto.
  - intros id X. apply acc_snoc. destruct (ends_snoc _ _ _ X) as [Y|(k & Y)]; [|edestruct NX; eauto]. destruct (B6 id Y) as (j & A1 & A2). exists j. auto.
Qed.
(** the client does something; the workers keep their jobs *)
Lemma ainv_client t q a m l ws c d n jn x q' a' m' l' ws' c' d' n' jn' : ainv t (mkstate q a m l ws c d n jn) ->
  (forall id k, x <> LEnd id k) -> okc c' -> G d' -> (d' = d \/ stable d d') ->
  (forall id j, In (id, j) q' -> In (id, j) q \/ x = LAccept id j /\ good j) ->
  (forall w id r z, nth_error ws' w = Some (WRun id r z) -> nth_error ws w = Some (WRun id r z)) -> (forall w id msg, nth_error ws' w = Some (WHandle id msg) -> nth_error ws w = Some (WHandle id msg)) ->
  ainv (t ++ [x]) (mkstate q' a' m' l' ws' c' d' n' jn').
Proof.
  intros [B1 B2 B3 B4 B5 B6] NX OC GD ST HQ HR HH. cbn in *.
  assert (SI : forall j r z, AI j r z d -> AI j r z d') by (intros j r z X; destruct ST as [->|ST]; [auto|]; apply (ST j); auto).
  assert (SH : forall j r, AH j r d -> AH j r d') by (intros j r X; destruct ST as [->|ST]; [auto|]; apply (ST j); auto).
  assert (SE : forall j, AE j d -> AE j d') by (intros j X; destruct ST as [->|ST]; [auto|]; apply (ST j); auto).
  constructor; cbn; auto.
  - intros id j X. rewrite in_app_iff. destruct (HQ id j X) as [Y|[-> Y]]; [destruct (B3 id j Y); auto|]. split; auto. right. left. reflexivity.
  - intros w id r z X. apply acc_snoc. destruct (B4 w id r z (HR _ _ _ _ X)) as (j & A1 & A2 & A3). exists j. auto.
  - intros w id r X. apply acc_snoc. destruct (B5 w id r (HH _ _ _ X)) as (j & A1 & A2). exists j. auto.
  - intros id X. apply acc_snoc. destruct (ends_snoc _ _ _ X) as [Y|(k & Y)]; [|edestruct NX; eauto]. destruct (B6 id Y) as (j & A1 & A2). exists j. auto.
Qed.

Lemma ainv_step t s x s' : ainv t s -> step h s x s' -> ainv (t ++ [x]) s'.
Proof.
  intros A [H|[H|H]].
  - destruct H; pose proof (v_prog _ _ A) as P; pose proof (v_data _ _ A) as GD; cbn in P, GD.
    + destruct (o_do f k d P GD) as (X & Y & Z). eapply ainv_client; eauto; discriminate.
    + eapply ainv_client; eauto; discriminate.
    + eapply ainv_client; eauto; discriminate.
    + eapply ainv_client; eauto; discriminate.
    + destruct (o_push j k true P) as [X Y]. eapply ainv_client; eauto; try discriminate.
      * intros id j' Z. apply in_app_iff in Z as [Z|[Z|[]]]; auto. injection Z as <- <-. auto.
      * intros w id r z Z. destruct (notify_cases _ _ H) as [(i' & N & ->)|[N ->]]; auto. rewrite (nth_error_put ws i' _ _ w N) in Z. destruct (Nat.eqb w i'); [discriminate|auto].
      * intros w id r Z. destruct (notify_cases _ _ H) as [(i' & N & ->)|[N ->]]; auto. rewrite (nth_error_put ws i' _ _ w N) in Z. destruct (Nat.eqb w i'); [discriminate|auto].
    + destruct (o_push j k false P) as [X Y]. eapply ainv_client; eauto; discriminate.
    + eapply ainv_client; eauto; try discriminate; intros; eapply notify_all_nth; eauto; discriminate.
    + eapply ainv_client; eauto; discriminate.
    + eapply ainv_client; eauto; discriminate.
    + eapply ainv_client; eauto; try discriminate. intros id j [].
  - destruct H; pose proof (v_data _ _ A) as GD; cbn in GD.
    + eapply ainv_worker; eauto; discriminate.
    + eapply ainv_worker; eauto; discriminate.
    + eapply ainv_worker; eauto; discriminate.
    + destruct (v_queue _ _ A id j (or_introl eq_refl)) as [Q1 Q2]. assert (A' : ainv t (mkstate q a m l ws c d n jn)). { destruct A as [B1 B2 B3 B4 B5 B6]. constructor; cbn in *; auto. }
      eapply ainv_worker; eauto; try discriminate. intros id' r z Y. injection Y as <- <- <-. exists j. auto.
    + destruct (v_run _ _ A _ _ _ _ H) as (j & J1 & J2 & J3). cbn in J3. destruct (a_act j f r x d x' d' J2 GD J3 H0) as (X & Y & Z). eapply ainv_worker; eauto; try discriminate. intros id' r' z E. injection E as <- <- <-. exists j. auto.
    + destruct (v_run _ _ A _ _ _ _ H) as (j & J1 & J2 & J3). cbn in J3. eapply ainv_worker; eauto; try discriminate. intros id' r' z E. injection E as <- <- <-. exists j. split; auto.
    + destruct (v_run _ _ A _ _ _ _ H) as (j & J1 & J2 & J3). cbn in J3. destruct A as [B1 B2 B3 B4 B5 B6]. cbn in *. constructor; cbn; auto.
      * intros id' j' X. destruct (B3 id' j' X). rewrite in_app_iff. auto.
      * intros w id' r z X. rewrite (nth_error_put ws i _ _ w H) in X. destruct (Nat.eqb_spec w i) as [E|E]; [discriminate|]. apply acc_snoc. eauto.
      * intros w id' r X. rewrite (nth_error_put ws i _ _ w H) in X. destruct (Nat.eqb_spec w i) as [E|E]; [discriminate|]. apply acc_snoc. eauto.
      * intros id' X. apply acc_snoc. destruct (ends_snoc _ _ _ X) as [Y|(k & Y)]; [auto|]. injection Y as <- <-. exists j. split; auto. eapply a_ok; eauto.
    + destruct (v_run _ _ A _ _ _ _ H) as (j & J1 & J2 & J3). cbn in J3. eapply ainv_worker; eauto; try discriminate. intros id' m' E. injection E as <- <-. exists j. split; auto.
    + destruct (v_handle _ _ A _ _ _ H) as (j & J1 & J3). cbn in J3. destruct (a_handle j msg d GD J3) as (X & Y & ST). destruct A as [B1 B2 B3 B4 B5 B6]. cbn in *. constructor; cbn; auto.
      * intros id' j' Z. destruct (B3 id' j' Z). rewrite in_app_iff. auto.
      * intros w id' r z Z. rewrite (nth_error_put ws i _ _ w H) in Z. destruct (Nat.eqb_spec w i) as [E|E]; [discriminate|]. apply acc_snoc. destruct (B4 w id' r z Z) as (j' & Z1 & Z2 & Z3). exists j'. split; auto. split; auto. apply (ST j'). auto.
      * intros w id' r Z. rewrite (nth_error_put ws i _ _ w H) in Z. destruct (Nat.eqb_spec w i) as [E|E]; [discriminate|]. apply acc_snoc. destruct (B5 w id' r Z) as (j' & Z1 & Z2). exists j'. split; auto. apply (ST j'). auto.
      * intros id' Z. apply acc_snoc. destruct (ends_snoc _ _ _ Z) as [Y'|(k & Y')]; [|injection Y' as <- <-; exists j; auto]. destruct (B6 id' Y') as (j' & Z1 & Z2). exists j'. split; auto. apply (ST j'). auto.
  - destruct H. eapply ainv_worker; eauto; try discriminate. apply (v_data _ _ A).
Qed.
Lemma ainv_steps n c d t s : okc c -> G d -> steps h (init n c d) t s -> ainv t s.
Proof.
  intros OC GD H. remember (init n c d) as s0 eqn:E. induction H as [|s0 t s1 x s2 H IH HS]; [|eapply ainv_step; eauto]. subst s.
  constructor; cbn; auto; try tauto.
  - intros w id r x X. apply nth_error_In, repeat_spec in X. discriminate.
  - intros w id m X. apply nth_error_In, repeat_spec in X. discriminate.
Qed.
(** a job that has ended *)
Lemma ended n c d t s : okc c -> G d -> steps h (init n c d) t s -> forall id j, In (LAccept id j) t -> In id (ends t) -> AE j (data s).
Proof.
  intros OC GD H id j HA HE. destruct (v_end _ _ (ainv_steps n c d t s OC GD H) id HE) as (j' & A & B). destruct (hist_steps h n c d t s H) as [_ HI].
  assert (ND : NoDup (accepts t)) by (rewrite (h_acc _ _ HI); apply seq_NoDup). rewrite (accepts_unique t ND id j j' HA A). exact B.
Qed.
End A.
Section B.
Context {D : Type} (h : string -> D -> D).
Variables (G : D -> Prop) (AI : job D -> job D -> local -> D -> Prop) (AH : job D -> string -> D -> Prop) (AE : job D -> D -> Prop) (good : job D -> Prop) (okc : client D -> Prop).
Let I := ainv G AI AH AE good okc.
Hypothesis c_clear : forall k, ~ okc (CClear k).
Lemma no_drops n c d t s : (forall t s, steps h (init n c d) t s -> I t s) -> steps h (init n c d) t s -> drops t = [].
Proof.
  intros HI H. remember (init n c d) as s0 eqn:E. induction H as [|s0 t s1 x s2 H IH HS]; [reflexivity|]. specialize (IH E HI). subst s0. pose proof (v_prog _ _ _ _ _ _ _ _ (HI _ _ H)) as P.
  destruct (labs_app t [x]) as (_ & _ & _ & ->). rewrite IH. destruct HS as [HS|[HS|HS]]; destruct HS; try reflexivity. destruct (c_clear _ P).
Qed.
(** once the client has got past the latch: every job is past its count-down, at the latest assertion it has reached *)
Lemma passed n c d t1 t2 s : (forall t s, steps h (init n c d) t s -> I t s) ->
  (forall id j, In (LAccept id j) t1 -> nacts (before j) <= acted id t1) -> (forall j, good j -> 0 < nacts (before j)) ->
  steps h (init n c d) (t1 ++ LPass :: t2) s -> forall id j, In (LAccept id j) t1 ->
  good j -> (exists pre r x, j = pre ++ r /\ 0 < nacts pre /\ AI j r x (data s)) \/ (exists m, AH j m (data s)) \/ AE j (data s).
Proof.
  intros HI HP HB H id j HA HG. pose proof (HI _ _ H) as V. destruct (all_steps h n c d _ s H) as (_ & HH & HF).
  assert (HA' : In (LAccept id j) (t1 ++ LPass :: t2)) by (apply in_app_iff; auto).
  assert (ND : NoDup (accepts (t1 ++ LPass :: t2))) by (rewrite (h_acc _ _ HH); apply seq_NoDup).
  assert (AC : 0 < acted id (t1 ++ LPass :: t2)) by (rewrite acted_app; specialize (HP id j HA); specialize (HB j HG); lia).
  assert (DR : drops (t1 ++ LPass :: t2) = []) by (eapply no_drops; eauto).
  destruct (f_all _ _ HF id j HA') as [(Q & Z)|[(i & r & x & pre & W & -> & A)|[(A & Q & L & W)|X]]].
  - lia.
  - destruct (v_run _ _ _ _ _ _ _ _ V _ _ _ _ W) as (j' & J1 & J2 & J3). rewrite <- (accepts_unique _ ND id _ _ HA' J1) in J3. left. exists pre, r, x. split; auto. split; [lia|auto].
  - destruct (hist_nodup _ _ HH) as (_ & _ & _ & _ & _ & _ & X). apply X in L as [L|[L|L]]; [|rewrite DR in L; destruct L|contradiction].
    apply (Permutation.Permutation_in _ (h_run _ _ HH)) in L. apply in_app_iff in L as [L|L].
    + destruct (v_end _ _ _ _ _ _ _ _ V id L) as (j' & J1 & J2). rewrite <- (accepts_unique _ ND id _ _ HA' J1) in J2. auto.
    + apply in_flat_map in L as (w & L1 & L2). apply In_nth_error in L1 as (i & L1). destruct w; cbn in L2; try destruct L2 as [L2|[]]; try destruct L2; try contradiction; subst.
      * destruct (W _ _ _ L1).
      * destruct (v_handle _ _ _ _ _ _ _ _ V _ _ _ L1) as (j' & J1 & J2). rewrite <- (accepts_unique _ ND _ _ _ HA' J1) in J2. eauto.
  - rewrite DR in X. destruct X.
Qed.
End B.
