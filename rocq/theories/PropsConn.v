(** C64: threads that share the S3 connections, for all numbers of threads and connections, all tasks, all answers of the server and all
    interleavings. *)
Require Import ZArith List Bool String Lia Permutation.
Require Import Verif.Base Verif.World Verif.S3Spec Verif.Conn Verif.ConnSpec Verif.ConnProofs Verif.ConnRun.
Require Verif.PoolProofs Verif.PropsS3.
Import ListNotations.
Open Scope list_scope.
Open Scope nat_scope.

Definition anything (e : event) : Prop := True.
Lemma start_ok (tasks : list (list task)) : List.length (map tasks_cost tasks) = List.length (map p_tasks tasks) /\
  forall i p d, nth_error (map p_tasks tasks) i = Some p -> nth_error (map tasks_cost tasks) i = Some d -> sane anything d false p.
Proof.
  rewrite !map_length. split; auto. intros i p d. rewrite !nth_error_map. destruct (nth_error tasks i) as [l|]; [|discriminate]. cbn. intros H1 H2. injection H1 as <-. injection H2 as <-.
  eapply sane_weak; [|apply tasks_sane]. intros; exact I.
Qed.
Definition cost (tasks : list (list task)) : nat := 4 * list_sum (map tasks_cost tasks) + 2 * List.length tasks.
Lemma run_inv n tasks t s : csteps (start n (map p_tasks tasks)) t s -> inv anything (map p_tasks tasks) n (cost tasks) t s.
Proof.
  intros H. pose proof (inv_steps anything (map p_tasks tasks) n (map tasks_cost tasks) (start_ok tasks) t s H) as X. unfold budget in X. rewrite map_length in X. exact X.
Qed.
Lemma csteps_split {R} (s s' : cstate R) t1 t2 : csteps s (t1 ++ t2) s' -> exists s1, csteps s t1 s1 /\ csteps s1 t2 s'.
Proof.
  revert s'. induction t2 as [|x t2 IH] using rev_ind; intros s' H.
  - rewrite app_nil_r in H. exists s'. split; auto. constructor.
  - rewrite app_assoc in H. inversion H as [? E|? t s1 y ? H1 H2 E1 E2 E3]; [destruct (t1 ++ t2); discriminate|]. apply app_inj_tail in E2 as [-> ->]. destruct (IH s1 H1) as (s2 & A & B). exists s2. split; auto. econstructor; eauto.
Qed.
Lemma csteps_app {R} (s s1 s2 : cstate R) t1 t2 : csteps s t1 s1 -> csteps s1 t2 s2 -> csteps s (t1 ++ t2) s2.
Proof. intros H1 H2. induction H2 as [s1|s1 t s3 y s4 H IH HX]; [rewrite app_nil_r; auto|]. rewrite app_assoc. econstructor; eauto. Qed.
Lemma csteps_one {R} (s s' : cstate R) x : csteps s [x] s' -> cstep s x s'.
Proof.
  intros H. remember [x] as t eqn:E. destruct H as [|s t s1 y s2 H HS]; [discriminate|]. apply (app_inj_tail t []) in E as [-> ->]. remember [] as t eqn:E. destruct H as [|s t s1 z s1' H HS']; auto. destruct t; discriminate.
Qed.

(** *** no two threads use one connection *)
(** Every connection is in the pool, or with exactly one thread, or destroyed. *)
Theorem C64_accounted_for : forall n tasks t s, csteps (start n (map p_tasks tasks)) t s ->
  NoDup (pool s ++ in_use s ++ lost s) /\ (forall c, In c (pool s ++ in_use s ++ lost s) <-> c < n).
Proof.
  intros n tasks t s H. pose proof (v_conns _ _ _ _ _ _ (run_inv _ _ _ _ H)) as P. split.
  - eapply Permutation_NoDup; [symmetry; exact P|apply seq_NoDup].
  - intros c. split; intros X.
    + eapply Permutation_in in X; [|exact P]. apply in_seq in X. lia.
    + eapply Permutation_in; [symmetry; exact P|]. apply in_seq. lia.
Qed.
Definition holding {R} (s : cstate R) (i c : nat) : Prop := exists p, nth_error (threads s) i = Some (TRun (Some c) p) \/ nth_error (threads s) i = Some (THold (Some c) p).
Lemma holding_in {R} (s : cstate R) i c : holding s i c -> In c (in_use s).
Proof. intros (p & [H|H]); apply in_flat_map; eexists; (split; [eapply nth_error_In; exact H|left; reflexivity]). Qed.
Lemma holding_one {R} (ts : list (thread R)) i j c : NoDup (flat_map has ts) -> i <> j ->
  (exists x, nth_error ts i = Some x /\ In c (has x)) -> (exists x, nth_error ts j = Some x /\ In c (has x)) -> False.
Proof.
  revert i j. induction ts as [|y ts IH]; intros i j N NE (x1 & H1 & I1) (x2 & H2 & I2); [destruct i; discriminate|]. cbn [flat_map] in N.
  assert (D : forall k x, nth_error ts k = Some x -> In c (has x) -> In c (has y) -> False).
  { intros k x Hk Ik Iy. assert (In c (flat_map has ts)) by (apply in_flat_map; exists x; split; [eapply nth_error_In; eauto|auto]). clear - N Iy H. induction (has y) as [|a l IH]; [destruct Iy|]. cbn in N. inversion N; subst. destruct Iy as [->|Iy]; [|auto]. apply H2. apply in_app_iff. auto. }
  destruct i as [|i], j as [|j]; cbn in H1, H2.
  - congruence.
  - injection H1 as ->. eapply D; eauto.
  - injection H2 as ->. eapply D; eauto.
  - eapply (IH i j); eauto. clear - N. induction (has y); auto. inversion N; auto.
Qed.
Lemma holding_here {R} (s : cstate R) i c : holding s i c -> exists x, nth_error (threads s) i = Some x /\ In c (has x).
Proof. intros (p & [H|H]); eexists; (split; [exact H|left; reflexivity]). Qed.
Lemma no_second n tasks t s i c h k : csteps (start n (map p_tasks tasks)) t s -> nth_error (threads s) i = Some (THold h (PGet k)) -> h = None /\ ~ holding s i c.
Proof.
  intros H HT. destruct (run_inv _ _ _ _ H) as [_ _ _ (ds & C & _)]. destruct (thr_put _ _ _ _ ds i _ C HT) as (p0 & d0 & _ & _ & (_ & S & _) & _). inversion S. destruct h; [discriminate|]. split; auto. intros (p & [X|X]); congruence.
Qed.
Lemma uses_holds {R} (s s' : cstate R) j c a : cstep s (LDo j c a) s' -> (a = AGet /\ In c (pool s) /\ exists h k, nth_error (threads s) j = Some (THold h (PGet k))) \/ (a <> AGet /\ holding s j c).
Proof.
  intros H. inversion H; subst; cbn [threads pool]; [left; split; [auto|split; [apply in_app_iff; right; left; auto|eauto]]|right..]; (split; [discriminate|]); eexists; cbn [threads]; eauto.
Qed.
(** a thread keeps its connection until it releases it *)
Lemma holding_step n tasks t s i c y s' : csteps (start n (map p_tasks tasks)) t s -> holding s i c -> cstep s y s' -> ~ releases i c y -> holding s' i c.
Proof.
  intros H HH HX NR.
  assert (HP : forall (ts : list (thread (list result))) j x x', nth_error ts j = Some x -> (exists p, nth_error ts i = Some (TRun (Some c) p) \/ nth_error ts i = Some (THold (Some c) p)) -> j <> i ->
    exists p, nth_error (put ts j x') i = Some (TRun (Some c) p) \/ nth_error (put ts j x') i = Some (THold (Some c) p)).
  { intros ts j x x' H1 H2 NE. rewrite (PoolProofs.nth_error_put ts j x x' i H1). destruct (Nat.eqb_spec i j); [congruence|auto]. }
  inversion HX; subst; unfold holding in *; cbn [threads] in *.
  - destruct (Nat.eq_dec i0 i) as [->|NE]; [|eapply HP; eauto]. destruct HH as (p1 & [X|X]); [|congruence]. rewrite H0 in X. injection X as -> ->. exists p1. right. rewrite (PoolProofs.nth_error_put ts i _ _ i H0), Nat.eqb_refl. auto.
  - destruct (Nat.eq_dec i0 i) as [->|NE]; [|eapply HP; eauto]. exfalso. eapply (proj2 (no_second n tasks t _ i c h k H H0)); exact HH.
  - destruct (Nat.eq_dec i0 i) as [->|NE]; [|eapply HP; eauto]. exfalso. eapply (proj2 (no_second n tasks t _ i c h k H H0)); exact HH.
  - destruct (Nat.eq_dec i0 i) as [->|NE].
    + exfalso. apply NR. left. destruct HH as (p1 & [X|X]); congruence.
    + pose proof (HP ts i0 _ (TRun None k) H0 HH NE) as HH2. match goal with X : notified _ _ |- _ => inversion X; subst; auto end.
      match goal with X : nth_error (Pool.put _ _ _) ?j = Some (TWait _) |- _ => destruct (Nat.eq_dec j i) as [->|NE2]; [destruct HH2 as (p1 & [Y|Y]); congruence|eapply HP; eauto] end.
  - destruct (Nat.eq_dec i0 i) as [->|NE]; [|eapply HP; eauto]. destruct HH as (p1 & [X|X]); [|congruence]. exists (k ok). left. rewrite (PoolProofs.nth_error_put ts i _ _ i H0), Nat.eqb_refl. congruence.
  - destruct (Nat.eq_dec i0 i) as [->|NE]; [|eapply HP; eauto]. destruct HH as (p1 & [X|X]); [|congruence]. eexists. left. rewrite (PoolProofs.nth_error_put ts i _ _ i H0), Nat.eqb_refl. f_equal. f_equal. congruence.
  - destruct (Nat.eq_dec i0 i) as [->|NE]; [|eapply HP; eauto]. exfalso. apply NR. right. destruct HH as (p1 & [X|X]); congruence.
  - destruct (Nat.eq_dec i0 i) as [->|NE]; [|eapply HP; eauto]. exfalso. destruct HH as (p1 & [X|X]); congruence.
Qed.
Lemma nodup_tail {A} (l m : list A) : NoDup (l ++ m) -> NoDup m.
Proof. induction l; cbn; auto. intros N. inversion N; auto. Qed.
Lemma nodup_head {A} (l m : list A) : NoDup (l ++ m) -> NoDup l.
Proof. induction l; cbn; intros N; [constructor|]. inversion N; subst. constructor; auto. intros X. apply H1. apply in_app_iff. auto. Qed.
(** From the moment a thread gets a connection until it gives it back (or an exception destroys it), nobody else uses it, and no one gets it. *)
Theorem C64_exclusive : forall n tasks t1 i c t2 j a t3 s, csteps (start n (map p_tasks tasks)) (t1 ++ LDo i c AGet :: t2 ++ LDo j c a :: t3) s ->
  (forall x, In x t2 -> ~ releases i c x) -> j = i /\ a <> AGet.
Proof.
  intros n tasks t1 i c t2 j a t3 s H NR.
  replace (t1 ++ LDo i c AGet :: t2 ++ LDo j c a :: t3) with (((t1 ++ [LDo i c AGet]) ++ t2) ++ [LDo j c a] ++ t3) in H by (rewrite <- !app_assoc; reflexivity).
  apply csteps_split in H as (s3 & H & HX). apply csteps_split in HX as (s4 & HX & _). apply csteps_one in HX.
  assert (HH : holding s3 i c).
  { clear HX. revert s3 H. induction t2 as [|x t2 IH] using rev_ind; intros s3 H.
    - rewrite app_nil_r in H. apply csteps_split in H as (s1 & H & HX). apply csteps_one in HX. inversion HX; subst. exists k. left. cbn [threads]. erewrite PoolProofs.nth_error_put by eassumption. rewrite Nat.eqb_refl. auto.
    - rewrite app_assoc in H. apply csteps_split in H as (s2 & H & HX). apply csteps_one in HX. eapply holding_step; [exact H| |exact HX|apply NR; apply in_app_iff; right; left; auto]. apply IH; auto. intros y Hy. apply NR. apply in_app_iff. auto. }
  destruct (C64_accounted_for n tasks _ _ H) as [ND _]. destruct (uses_holds _ _ _ _ _ HX) as [(-> & HI & h & k & HT)|[HA HJ]].
  - exfalso. pose proof (holding_in _ _ _ HH) as HU. clear - ND HI HU. induction (pool s3) as [|x l IH]; [destruct HI|]. cbn in ND. inversion ND; subst. destruct HI as [->|HI]; [|auto]. apply H1. apply in_app_iff. right. apply in_app_iff. auto.
  - split; auto. destruct (Nat.eq_dec j i) as [|NE]; auto. exfalso. eapply (holding_one (threads s3) j i c); [|exact NE|apply holding_here; auto|apply holding_here; auto].
    clear - ND. unfold in_use in ND. apply nodup_tail in ND. revert ND. generalize (flat_map has (threads s3)). intros l ND. induction l as [|x l IH]; [constructor|]. cbn in ND. inversion ND; subst. constructor; auto. intros X. apply H1. apply in_app_iff. auto.
Qed.

Lemma nil_or_snoc {A} (l : list A) : l = [] \/ exists l' x, l = l' ++ [x].
Proof. destruct l as [|a l] using rev_ind; [auto|right; eauto]. Qed.
Lemma notified_ex {R} (ts : list (thread R)) : exists ts', notified ts ts'.
Proof.
  destruct (existsb asleep ts) eqn:E.
  - apply existsb_exists in E as (x & I & A). destruct x as [| |p]; try discriminate. apply In_nth_error in I as (i & I). eexists. eapply nt_one. exact I.
  - exists ts. apply nt_none. intros p I. assert (existsb asleep ts = true) by (apply existsb_exists; exists (TWait p); auto). congruence.
Qed.
(** *** nobody waits in vain *)
(** While a thread sleeps, there are at most as many free connections as threads awake that will look for one next. *)
Theorem C64_no_lost_wakeup : forall n tasks t s i, csteps (start n (map p_tasks tasks)) t s -> sleeping s i ->
  List.length (pool s) <= List.length (filter looks (threads s)).
Proof.
  intros n tasks t s i H (p & HS). apply (v_wait _ _ _ _ _ _ (run_inv _ _ _ _ H)). apply existsb_exists. exists (TWait p). split; [eapply nth_error_In; eauto|reflexivity].
Qed.
(** Whatever the server answers, the number of steps is bounded, apart from spurious wake-ups. *)
Theorem C64_bounded : forall n tasks, exists N, forall t s, csteps (start n (map p_tasks tasks)) t s -> List.length t <= N + 3 * spurious t.
Proof.
  intros n tasks. exists (cost tasks). intros t s H. destruct (v_thr _ _ _ _ _ _ (run_inv _ _ _ _ H)) as (ds & _ & X). lia.
Qed.
(** As long as a connection is left (all were valid at the start and some have been destroyed since), the threads only stop when all have
    done their tasks. *)
Theorem C64_all_finish : forall n tasks t s, csteps (start n (map p_tasks tasks)) t s -> List.length (lost s) < n ->
  (forall y s', cstep s y s' -> exists i, y = LWake i) -> forall i l, nth_error tasks i = Some l -> exists rs, finished s i rs.
Proof.
  intros n tasks t s H HL HS. destruct (run_inv _ _ _ _ H) as [V1 V2 V3 (ds & C & _)]. destruct s as [q m ts tk ls]. cbn [pool lost threads cmutex] in *.
  assert (NS : forall y s', cstep (mkc q m ts tk ls) y s' -> (forall i, y <> LWake i) -> False) by (intros y s' X Y; destruct (HS y s' X) as [i ->]; eapply Y; eauto).
  assert (M : m = None).
  { destruct m as [i|]; auto. exfalso. destruct (proj1 (V2 i) eq_refl) as (h & p & HT). destruct (thr_put _ _ _ _ ds i _ C HT) as (p0 & d0 & _ & _ & (_ & S & W) & _). destruct p; try discriminate W.
    - destruct (nil_or_snoc q) as [->|(q' & c & ->)].
      + eapply NS; [eapply c_sleep; exact HT|discriminate].
      + eapply NS; [eapply c_take; exact HT|discriminate].
    - inversion S; subst. destruct h as [c|]; [|discriminate]. destruct (notified_ex (put ts i (TRun None p))) as (ts' & N). eapply NS; [eapply c_give; [exact HT|exact N]|discriminate]. }
  subst m. assert (T : forall i x, nth_error ts i = Some x -> (exists rs, x = TRun None (PRet rs)) \/ exists p, x = TWait p).
  { intros i x HT. destruct (thr_put _ _ _ _ ds i _ C HT) as (p0 & d0 & _ & _ & K & _). destruct x as [h p|h p|p]; [|exfalso; assert (None = Some i) by (apply V2; eauto); discriminate|eauto].
    destruct K as [_ S]. destruct p as [r|k|es k|f k|k|k].
    - inversion S. destruct h; [discriminate|]. eauto.
    - exfalso. eapply NS; [eapply c_lock; [exact HT|reflexivity]|discriminate].
    - exfalso. inversion S; subst. destruct h as [c|]; [|discriminate]. eapply NS; [eapply (c_req q None ts tk ls i c es k true); exact HT|discriminate].
    - exfalso. inversion S; subst. destruct h as [c|]; [|discriminate]. eapply NS; [eapply (c_new q None ts tk ls i c f k true); exact HT|discriminate].
    - exfalso. eapply NS; [eapply c_lock; [exact HT|reflexivity]|discriminate].
    - exfalso. inversion S; subst. destruct h as [c|]; [|discriminate]. eapply NS; [eapply c_lose; exact HT|discriminate]. }
  assert (U : flat_map has ts = []).
  { destruct (flat_map has ts) as [|c l] eqn:E; auto. exfalso. assert (I : In c (flat_map has ts)) by (rewrite E; left; auto). apply in_flat_map in I as (x & I & J). apply In_nth_error in I as (i & I). destruct (T i x I) as [(rs & ->)|(p & ->)]; destruct J. }
  assert (L : looking ts = 0).
  { unfold looking. destruct (filter looks ts) as [|x l] eqn:E; auto. exfalso. assert (I : In x (filter looks ts)) by (rewrite E; left; auto). apply filter_In in I as (I & J). apply In_nth_error in I as (i & I). destruct (T i x I) as [(rs & ->)|(p & ->)]; discriminate. }
  intros i l HT. assert (HI : i < List.length ts) by (destruct C as (_ & C2 & _); rewrite C2, map_length; apply nth_error_Some; congruence).
  destruct (nth_error ts i) as [x|] eqn:EX; [|apply nth_error_None in EX; lia]. destruct (T i x EX) as [(rs & ->)|(p & ->)]; [exists rs; exact EX|]. exfalso.
  assert (A : existsb asleep ts = true) by (apply existsb_exists; exists (TWait p); split; [eapply nth_error_In; eauto|auto]). specialize (V3 A). unfold in_use in V1. cbn [threads] in V1. rewrite U in V1.
  apply Permutation_length in V1. rewrite !app_length, seq_length in V1. cbn in V1. lia.
Qed.

(** *** what each thread finds *)
(** Whatever the others do, whatever the server refuses and however the threads are scheduled: each task of a thread that is done has stored
    and reported what it does alone on a machine where its requests get the same answers. *)
Theorem C64_same_as_alone : forall n tasks t s i l rs, csteps (start n (map p_tasks tasks)) t s -> nth_error tasks i = Some l -> finished s i rs ->
  one_by_one l (answers i t) (uploads i t) rs.
Proof.
  intros n tasks t s i l rs H HT HF. destruct (run_inv _ _ _ _ H) as [_ _ _ (ds & C & _)]. destruct (thr_put _ _ _ _ ds i _ C HF) as (p0 & d0 & A1 & _ & (A2 & _) & _).
  rewrite nth_error_map, HT in A1. injection A1 as <-. apply tasks_alone. exact A2.
Qed.

Definition keyed (b k : string) (e : event) : bool :=
  match e with EPut b' k' _ | EMpCreate b' k' _ | EMpPart b' k' _ _ _ | EMpComplete b' k' _ _ => String.eqb b b' && String.eqb k k' | _ => false end.
Lemma part_keyed b k id m l : part_of (filter (keyed b k) l) b k id m = part_of l b k id m.
Proof.
  induction l as [|e l IH]; [reflexivity|]. destruct e; try exact IH; cbn [filter keyed]; match goal with |- context [if ?x then _ else _] => destruct x eqn:E end; cbn [part_of]; auto; rewrite ?E, ?IH; reflexivity.
Qed.
Lemma object_keyed E b k l : object_rev E b k (filter (keyed b k) l) = object_rev E b k l.
Proof.
  induction l as [|e l IH]; [reflexivity|]. destruct e; try exact IH; cbn [filter keyed]; match goal with |- context [if ?x then _ else _] => destruct x eqn:E1 end; cbn [object_rev]; auto; rewrite ?E1; auto.
  do 2 f_equal. apply map_ext. intros m. apply part_keyed.
Qed.
Lemma object_of_keyed E b k tr : object_of E tr b k = object_of E (filter (keyed b k) tr) b k.
Proof.
  unfold object_of. rewrite <- object_keyed. f_equal. induction tr as [|e l IH]; [reflexivity|]. cbn [rev filter]. rewrite filter_app, IH. destruct (keyed b k e) eqn:E1; cbn [filter]; rewrite E1; cbn [rev]; rewrite ?app_nil_r; reflexivity.
Qed.
Lemma all_mine (f : event -> bool) i t : (forall j, j <> i -> filter f (uploads j t) = []) -> filter f (all_uploads t) = filter f (uploads i t).
Proof.
  induction t as [|y t IH]; intros H; [reflexivity|].
  assert (H' : forall j, j <> i -> filter f (uploads j t) = []).
  { intros j NE. specialize (H j NE). unfold uploads, did in *. destruct y as [k|k c a|k]; cbn [flat_map app] in H; auto. destruct (Nat.eqb k j); auto. cbn [app flat_map] in H. rewrite filter_app in H. apply app_eq_nil in H. tauto. }
  specialize (IH H'). unfold all_uploads, uploads, did in *. destruct y as [k|k c a|k]; cbn [flat_map app]; auto. rewrite filter_app. destruct (Nat.eqb_spec k i) as [->|NE].
  - cbn [app flat_map]. rewrite filter_app. congruence.
  - cbn [app]. rewrite IH. specialize (H k NE). cbn [flat_map] in H. rewrite Nat.eqb_refl in H. cbn [app flat_map] in H. rewrite filter_app in H. apply app_eq_nil in H as [-> _]. reflexivity.
Qed.
Lemma not_keyed b k l es : ~ In (b, k) (flat_map keys l) -> Forall (any_stores l) es -> filter (keyed b k) es = [].
Proof.
  intros N F. induction F as [|e es (j & I & S) F IH]; [reflexivity|]. cbn [filter]. destruct (keyed b k e) eqn:E; auto. exfalso. apply N. apply in_flat_map. exists j. split; auto.
  destruct j as [b' k' ds|b']; cbn [stores] in S; [|destruct S]. cbn [keys]. left. destruct e; cbn [about keyed] in *; try contradiction; destruct S as [-> ->]; apply andb_prop in E as [E1 E2]; apply String.eqb_eq in E1, E2; congruence.
Qed.
Lemma path_mid l1 j l2 : forall t rs, path (p_tasks (l1 ++ j :: l2)) t (PRet rs) -> exists t1 tj t2 rs1 r rs2, t = t1 ++ tj ++ t2 /\ rs = rs1 ++ r :: rs2 /\ List.length rs1 = List.length l1 /\
  path (p_tasks l1) t1 (PRet rs1) /\ path (p_task j) tj (PRet r) /\ path (p_tasks l2) t2 (PRet rs2).
Proof.
  induction l1 as [|j0 l1 IH]; intros t rs H; cbn [app p_tasks] in H; apply path_split in H as (t1 & r & t2 & -> & H1 & H2); apply path_split in H2 as (t3 & rs' & t4 & -> & H3 & H4); inversion H4; subst.
  - exists [], t1, (t3 ++ []), [], r, rs'. rewrite app_nil_r. cbn. repeat (split; auto). constructor.
  - destruct (IH _ _ H3) as (u1 & uj & u2 & rs1 & r1 & rs2 & -> & -> & L & A1 & A2 & A3). exists (t1 ++ u1), uj, u2, (r :: rs1), r1, rs2. rewrite !app_nil_r, <- !app_assoc. cbn [app List.length]. repeat (split; auto).
    cbn [p_tasks]. rewrite <- (app_nil_r (t1 ++ u1)), <- !app_assoc. eapply path_bind; [exact H1|reflexivity|]. eapply path_bind; [exact A1|reflexivity|]. constructor.
Qed.
Lemma tasks_len l : forall t rs, path (p_tasks l) t (PRet rs) -> List.length rs = List.length l.
Proof.
  induction l as [|j l IH]; intros t rs H; cbn [p_tasks] in H; [inversion H; reflexivity|].
  apply path_split in H as (t1 & r & t2 & -> & H1 & H2). apply path_split in H2 as (t3 & rs' & t4 & -> & H3 & H4). inversion H4; subst. cbn. f_equal. eapply IH; eauto.
Qed.
Lemma idle_did n tasks t s j : csteps (start n (map p_tasks tasks)) t s -> nth_error (threads s) j = None -> did j t = [].
Proof.
  intros H. remember (start n (map p_tasks tasks)) as s0 eqn:E. induction H as [s|s t s1 y s2 H IH HX]; intros HN; [reflexivity|]. subst s.
  assert (L : List.length (threads s2) = List.length (threads s1)).
  { destruct (run_inv _ _ _ _ H) as [_ _ _ (d1 & (_ & L1 & _) & _)]. destruct (run_inv _ _ _ _ (cs_snoc _ _ _ _ _ H HX)) as [_ _ _ (d2 & (_ & L2 & _) & _)]. congruence. }
  assert (HN1 : nth_error (threads s1) j = None) by (apply nth_error_None; apply nth_error_None in HN; lia). rewrite did_snoc, IH by auto. cbn [app].
  destruct y as [i|i c a|i]; auto. cbn. destruct (Nat.eqb_spec i j) as [->|NE]; auto. exfalso. inversion HX; subst; cbn [threads] in HN1; congruence.
Qed.
Lemma nodup_piece (tasks : list (list task)) i l : NoDup (flat_map keys (List.concat tasks)) -> nth_error tasks i = Some l -> NoDup (flat_map keys l).
Proof.
  intros N H. destruct (nth_error_split tasks i H) as (l1 & l2 & -> & _). rewrite concat_app in N. cbn [List.concat] in N. rewrite !flat_map_app in N. apply nodup_tail in N. apply nodup_head in N. exact N.
Qed.
Lemma nodup_two (tasks : list (list task)) i j l lj x : NoDup (flat_map keys (List.concat tasks)) -> nth_error tasks i = Some l -> nth_error tasks j = Some lj -> j <> i ->
  In x (flat_map keys l) -> In x (flat_map keys lj) -> False.
Proof.
  revert i j. induction tasks as [|a tasks IH]; intros i j N H1 H2 NE I1 I2; [destruct i; discriminate|]. cbn [List.concat] in N. rewrite flat_map_app in N.
  assert (D : forall k m, nth_error tasks k = Some m -> In x (flat_map keys m) -> In x (flat_map keys a) -> False).
  { intros k m Hk Im Ia. assert (In x (flat_map keys (List.concat tasks))) by (apply in_flat_map in Im as (y & Y1 & Y2); apply in_flat_map; exists y; split; auto; apply in_concat; exists m; split; auto; eapply nth_error_In; eauto).
    clear - N Ia H. induction (flat_map keys a) as [|z u IHu]; [destruct Ia|]. cbn in N. inversion N; subst. destruct Ia as [->|Ia]; [apply H2; apply in_app_iff; auto|auto]. }
  destruct i as [|i], j as [|j]; cbn in H1, H2; try congruence.
  - injection H1 as ->. eauto.
  - injection H2 as ->. eauto.
  - eapply (IH i j); eauto. apply nodup_tail in N. exact N.
Qed.
(** One task per object. Whatever the server refuses: when a task has reported success, then at every later moment its object is stored whole. *)
Theorem C64_success_means_stored : forall n tasks t s i l rs m b k ds E, csteps (start n (map p_tasks tasks)) t s ->
  NoDup (flat_map keys (List.concat tasks)) -> nth_error tasks i = Some l -> finished s i rs ->
  nth_error l m = Some (TObject b k ds) -> b <> ""%string -> k <> ""%string -> (zlen (List.concat ds) < 2 ^ 64)%Z -> List.concat ds <> [] ->
  nth_error rs m = Some (RObject (Ok (true, true))) -> object_of E (all_uploads t) b k = Some (List.concat ds).
Proof.
  intros n tasks t s i l rs m b k ds E H ND HT HF HM Hb Hk HL HN HR.
  destruct (run_inv _ _ _ _ H) as [_ _ _ (dd & C & _)].
  assert (PJ : forall j lj x, nth_error tasks j = Some lj -> nth_error (threads s) j = Some x -> exists q, path (p_tasks lj) (did j t) q /\ (x = TRun None (PRet rs) -> q = PRet rs)).
  { intros j lj x E1 E2. destruct (thr_put _ _ _ _ dd j _ C E2) as (p0 & d0 & A1 & _ & K & _). rewrite nth_error_map, E1 in A1. injection A1 as <-. destruct x as [h p|h p|p]; destruct K as [K _]; exists p; split; auto; intros X; congruence. }
  assert (OTH : forall j, j <> i -> filter (keyed b k) (uploads j t) = []).
  { intros j NE. destruct (nth_error (threads s) j) as [x|] eqn:EX; cycle 1.
    - unfold uploads. replace (did j t) with (@nil act); [reflexivity|]. symmetry. eapply (idle_did n tasks t s j H). exact EX.
    - assert (HI : j < List.length tasks) by (destruct C as (_ & C2 & _); rewrite map_length in C2; rewrite <- C2; apply nth_error_Some; congruence). destruct (nth_error tasks j) as [lj|] eqn:EJ; [|apply nth_error_None in EJ; lia].
      destruct (PJ j lj x EJ EX) as (q & Q & _). eapply (not_keyed b k lj); [|unfold uploads; eapply path_stores; [apply tasks_sane|exact Q]].
      intros X. eapply (nodup_two tasks i j l lj (b, k)); eauto. apply in_flat_map. exists (TObject b k ds). split; [eapply nth_error_In; eauto|left; auto]. }
  rewrite object_of_keyed, (all_mine _ i t OTH). destruct (PJ i l _ HT HF) as (q & Q & HQ). rewrite (HQ eq_refl) in Q. clear HQ q.
  destruct (nth_error_split l m HM) as (l1 & l2 & -> & LM). destruct (path_mid l1 _ l2 _ _ Q) as (t1 & tj & t2 & rs1 & r & rs2 & ET & -> & LR & A1 & A2 & A3).
  rewrite nth_error_app2 in HR by lia. replace (m - List.length rs1) with 0 in HR by lia. cbn in HR. injection HR as ->.
  assert (K : ~ In (b, k) (flat_map keys l1) /\ ~ In (b, k) (flat_map keys l2)).
  { pose proof (nodup_piece tasks i _ ND HT) as N. rewrite flat_map_app in N. cbn [flat_map keys app] in N. apply NoDup_remove_2 in N. rewrite in_app_iff in N. tauto. }
  unfold uploads. rewrite ET, !flat_map_app, !filter_app. rewrite (not_keyed b k l1 (flat_map accepted t1)); [|tauto|exact (path_stores _ _ _ _ (tasks_sane l1) _ _ A1)].
  rewrite (not_keyed b k l2 (flat_map accepted t2)); [|tauto|exact (path_stores _ _ _ _ (tasks_sane l2) _ _ A3)]. cbn [app]. rewrite app_nil_r, <- object_of_keyed.
  destruct (task_alone _ _ _ A2) as (E1 & w & w' & W1 & W2 & W3 & W4 & o & W5 & W6). injection W6 as <-.
  destruct (PropsS3.C15_C16_success_means_stored E1 b k ds w w' Hb Hk W2 HL W5) as ((evs & Y1 & Y2) & _ & _). rewrite W1 in Y1. cbn [app] in Y1. rewrite <- W4, Y1. exact (PropsS3.object_of_requests E b k [] _ evs HN Y2).
Qed.

(** *** connections are lost only where requests are refused *)
Lemma lost_did n tasks t s c : csteps (start n (map p_tasks tasks)) t s -> In c (lost s) -> exists i, In (LDo i c ALose) t.
Proof.
  intros H. remember (start n (map p_tasks tasks)) as s0 eqn:E. induction H as [s|s t s1 y s2 H IH HX]; intros HI; subst; [destruct HI|]. specialize (IH eq_refl).
  inversion HX; subst; cbn [lost] in *; try (destruct (IH HI) as (j & J); exists j; apply in_app_iff; auto).
  destruct HI as [->|HI]; [exists i; apply in_app_iff; right; left; auto|]. destruct (IH HI) as (j & J). exists j. apply in_app_iff. auto.
Qed.
Lemma in_did i c a t : In (LDo i c a) t -> In a (did i t).
Proof. intros H. apply in_flat_map. eexists. split; [exact H|]. cbn beta iota. rewrite Nat.eqb_refl. left. auto. Qed.
Lemma answers_true i t : none_refused t -> ~ In false (answers i t).
Proof.
  intros N H. unfold answers in H. apply in_flat_map in H as (a & A & F). apply in_flat_map in A as (y & Y & A). destruct y as [j|j c x|j]; try destruct A. destruct (Nat.eqb_spec j i) as [->|NE]; [|destruct A]. destruct A as [->|[]]. exact (N i c a Y F).
Qed.
Theorem C64_nothing_lost : forall n tasks t s, csteps (start n (map p_tasks tasks)) t s -> none_refused t ->
  (forall l b k ds, In l tasks -> In (TObject b k ds) l -> (zlen (List.concat ds) < 2 ^ 64)%Z) -> lost s = [].
Proof.
  intros n tasks t s H NR HF. destruct (lost s) as [|c ls] eqn:EL; auto. exfalso. destruct (lost_did n tasks t s c H) as (i & HI); [rewrite EL; left; auto|].
  pose proof (in_did _ _ _ _ HI) as HD. destruct (nth_error (threads s) i) as [x|] eqn:EX; [|rewrite (idle_did n tasks t s i H EX) in HD; destruct HD].
  destruct (run_inv _ _ _ _ H) as [_ _ _ (ds & C & _)]. destruct (thr_put _ _ _ _ ds i _ C EX) as (p0 & d0 & A1 & _ & K & _). rewrite nth_error_map in A1. destruct (nth_error tasks i) as [l|] eqn:ET; [|discriminate]. injection A1 as <-.
  assert (FL : Forall fits l). { apply Forall_forall. intros [b k dd|b] I; [|exact Logic.I]. eapply HF; [eapply nth_error_In; exact ET|exact I]. }
  assert (L0 : loses (did i t) = 0).
  { destruct x as [h p|h p|p]; destruct K as (K1 & K2); [|destruct K2 as [K2 _]|destruct K2 as [K2 _]]; eapply tasks_never_lose; eauto; apply answers_true; auto. }
  unfold loses in L0. assert (I : In ALose (filter (fun a => match a with ALose => true | _ => false end) (did i t))) by (apply filter_In; auto). destruct (filter _ (did i t)); [destruct I|discriminate].
Qed.
(** If the server refuses nothing: with at least one connection, however many threads there are and however they are scheduled, when they
    stop all have done all their tasks, every write and flush has reported success and every object is stored whole. *)
Theorem C64_stored : forall n tasks t s, 0 < n -> csteps (start n (map p_tasks tasks)) t s -> none_refused t ->
  (forall y s', cstep s y s' -> exists i, y = LWake i) -> NoDup (flat_map keys (List.concat tasks)) ->
  (forall l b k ds, In l tasks -> In (TObject b k ds) l -> b <> ""%string /\ k <> ""%string /\ (zlen (List.concat ds) < 2 ^ 64)%Z) ->
  forall i l, nth_error tasks i = Some l -> exists rs, finished s i rs /\ List.length rs = List.length l /\
    forall m b k ds, nth_error l m = Some (TObject b k ds) -> nth_error rs m = Some (RObject (Ok (true, true))) /\
      (List.concat ds <> [] -> forall E, object_of E (all_uploads t) b k = Some (List.concat ds)).
Proof.
  intros n tasks t s Hn H NR HS ND HB i l HT.
  assert (HL : lost s = []) by (eapply C64_nothing_lost; [exact H|exact NR|]; intros; eapply HB; eauto).
  destruct (C64_all_finish n tasks t s H ltac:(rewrite HL; cbn; lia) HS i l HT) as (rs & HF). exists rs. split; auto.
  destruct (run_inv _ _ _ _ H) as [_ _ _ (dd & C & _)]. destruct (thr_put _ _ _ _ dd i _ C HF) as (p0 & d0 & A1 & _ & (Q & _) & _). rewrite nth_error_map, HT in A1. injection A1 as <-.
  split; [eapply tasks_len; eauto|]. intros m b k ds HM. destruct (HB l b k ds (nth_error_In _ _ HT) (nth_error_In _ _ HM)) as (Hb & Hk & HZ).
  assert (HR : nth_error rs m = Some (RObject (Ok (true, true)))).
  { destruct (nth_error_split l m HM) as (l1 & l2 & -> & LM). destruct (path_mid l1 _ l2 _ _ Q) as (t1 & tj & t2 & rs1 & r & rs2 & ET & -> & LR & _ & A2 & _). rewrite nth_error_app2 by lia. replace (m - List.length rs1) with 0 by lia. cbn. f_equal.
    pose proof (answers_true i t NR) as AT. unfold answers in AT. rewrite ET, !flat_map_app, !in_app_iff in AT.
    destruct (task_alone _ _ _ A2) as (E1 & w & w' & W1 & W2 & W3 & W4 & o & W5 & ->). f_equal.
    destruct (PropsS3.C15_sequential E1 b k ds w) as (w2 & evs & S1 & _); auto; [intros j; rewrite W3; apply nth_true; tauto|]. rewrite S1 in W5. injection W5 as _ <-. reflexivity. }
  split; auto. intros HN E. eapply C64_success_means_stored; eauto.
Qed.

(** *** with refused requests the threads can stop for ever *)
Lemma lost_grows {R} (s s' : cstate R) y : cstep s y s' -> List.length (lost s) <= List.length (lost s').
Proof. intros H. inversion H; subst; cbn [lost List.length]; lia. Qed.
Lemma lost_grows_all {R} (s s' : cstate R) t : csteps s t s' -> List.length (lost s) <= List.length (lost s').
Proof. intros H. induction H as [|s t s1 y s2 H IH HX]; [lia|]. pose proof (lost_grows _ _ _ HX). lia. Qed.
(** When every connection has been destroyed, no thread gets one any more: a thread that sleeps never comes to its end. *)
Theorem C64_all_lost : forall n tasks t s i, csteps (start n (map p_tasks tasks)) t s -> List.length (lost s) = n -> sleeping s i ->
  forall t' s', csteps s t' s' -> (forall c, ~ In (LDo i c AGet) t') /\ forall rs, ~ finished s' i rs.
Proof.
  intros n tasks t s i H HL HS t' s' H'.
  assert (X : (forall c, ~ In (LDo i c AGet) t') /\ exists h k, nth_error (threads s') i = Some (TWait (PGet k)) \/ nth_error (threads s') i = Some (TRun h (PGet k)) \/ nth_error (threads s') i = Some (THold h (PGet k))).
  { induction H' as [s|s t' s1 y s2 H' IH HX].
    - split; [intros c []|]. destruct HS as (p & HS). destruct (run_inv _ _ _ _ H) as [_ _ _ (ds & C & _)]. destruct (thr_put _ _ _ _ ds i _ C HS) as (p0 & d0 & _ & _ & (_ & _ & k & ->) & _). exists None, k. auto.
    - destruct (IH H HL HS) as (N & h & k & HT). clear IH.
      assert (P : pool s1 = []).
      { pose proof (v_conns _ _ _ _ _ _ (run_inv _ _ _ _ (csteps_app _ _ _ _ _ H H'))) as V. apply Permutation_length in V. rewrite !app_length, seq_length in V. pose proof (lost_grows_all _ _ _ H'). destruct (pool s1); auto. cbn in V. lia. }
      assert (O : forall (ts : list (thread (list result))) j x x', nth_error ts j = Some x -> j <> i -> nth_error (put ts j x') i = nth_error ts i).
      { intros ts j x x' A NE. rewrite (PoolProofs.nth_error_put ts j x x' i A). destruct (Nat.eqb_spec i j); congruence. }
      assert (W : forall (ts : list (thread (list result))) x x', nth_error ts i = Some x -> nth_error (put ts i x') i = Some x').
      { intros ts x x' A. rewrite (PoolProofs.nth_error_put ts i x x' i A), Nat.eqb_refl. auto. }
      assert (NG : forall c, y <> LDo i c AGet). { intros c ->. inversion HX; subst. cbn [pool] in P. destruct q; discriminate. }
      split; [intros c I; apply in_app_iff in I as [I|[I|[]]]; [eapply N; eauto|eapply NG; eauto]|].
      inversion HX; subst; cbn [threads pool] in *;
        try (match goal with A : nth_error ?ts ?j = Some _ |- exists _ _, nth_error (Pool.put ?ts ?j _) _ = _ \/ _ => destruct (Nat.eq_dec j i) as [->|NE]; [|exists h, k; rewrite (O ts j _ _ A NE); exact HT] end).
      + exists h0, k. right. right. rewrite (W _ _ _ H0). destruct HT as [T|[T|T]]; congruence.
      + destruct q; discriminate.
      + exists h, k. left. rewrite (W _ _ _ H0). destruct HT as [T|[T|T]]; congruence.
      + match goal with A : nth_error ts ?j = Some (THold (Some c) (PGive _)) |- _ => rename j into i0; destruct (Nat.eq_dec i0 i) as [->|NE]; [destruct HT as [T|[T|T]]; congruence|] end.
        pose proof (O ts i0 _ (TRun None k0) H0 NE) as T. rewrite <- T in HT. match goal with V : notified _ _ |- _ => inversion V; subst; [|eauto] end.
        match goal with V : nth_error (Pool.put ts i0 _) ?j = Some (TWait _) |- _ => destruct (Nat.eq_dec j i) as [->|NE2]; [exists None, k; right; left; rewrite (W _ _ _ V); destruct HT as [U|[U|U]]; congruence|exists h, k; rewrite (O _ j _ _ V NE2); exact HT] end.
      + destruct HT as [T|[T|T]]; congruence.
      + destruct HT as [T|[T|T]]; congruence.
      + destruct HT as [T|[T|T]]; congruence.
      + exists None, k. right. left. rewrite (W _ _ _ H0). destruct HT as [T|[T|T]]; congruence. }
  destruct X as (X1 & h & k & X2). split; auto. intros rs F. unfold finished in F. destruct X2 as [T|[T|T]]; congruence.
Qed.

(** Full statement: the threads always come to their end. False: one connection; the server refuses to start the upload of thread 0; the
    exception destroys the connection, and thread 1, that only asks whether a bucket exists, waits for ever. *)
Definition starts {A} (p : prog (s3sink * outcome A)) : Prop :=
  exists k, p = PGet (PNew (fun id => [EMpCreate "b" "k" id]) k) /\ forall id, exists s, k false id = PLose (PRet (s, Throw "Upload id returned empty."%string)).
Lemma starts_bind {A B} (q : SP A) (f : A -> SP B) s : starts (q s) -> starts (sbind q f s).
Proof. intros (k & E & H). unfold sbind. rewrite E. eexists. split; [reflexivity|]. intros id. cbn beta. destruct (H id) as (s1 & ->). exists s1. reflexivity. Qed.
Lemma starts_part buf : starts (p_flush_part (mks3 "b" "k" buf part_size 0 None)).
Proof.
  unfold p_flush_part. unfold sbind at 1, sget at 1. cbn [pbind fst snd s_nbuf]. change (part_size =? 0)%Z with false. cbv iota. apply starts_bind. cbn [s_mp].
  eexists. split; [reflexivity|]. intros id. eexists. reflexivity.
Qed.
Lemma refused_create d : zlen d = part_size -> exists k, p_task (TObject "b" "k" [d]) = PGet (PNew (fun id => [EMpCreate "b" "k" id]) k) /\
  forall id, k false id = PLose (PRet (RObject (Throw "Upload id returned empty."%string))).
Proof.
  intros HD. assert (X : starts (sbind (p_write_all 0 [d]) (fun a => sbind p_flush (fun f => sret (a, f))) (mks3 "b" "k" [] 0 0 None))).
  { apply starts_bind. cbn [p_write_all]. apply starts_bind. unfold p_write. rewrite HD. change (part_size =? 0)%Z with false. cbv iota.
    unfold sbind at 1, sget at 1. cbn [pbind fst snd s_nflush s_bucket s_key s_buf s_nbuf s_mp]. change (0 <? 0)%Z with false. cbv iota. change (0 - 0)%Z with 0%Z. unfold sbind at 1, sput at 1. cbn [pbind fst snd].
    replace (2 * List.length d + 2) with (S (2 * List.length d + 1)) by lia. cbn [p_write_loop]. rewrite HD. change (part_size =? 0)%Z with false. cbv iota.
    unfold sbind at 1, sget at 1. cbn [pbind fst snd s_nflush s_bucket s_key s_buf s_nbuf s_mp]. change (part_size <? 0)%Z with false. change (Z.min part_size (part_size - 0)) with part_size. change (0 + part_size)%Z with part_size. change (part_size =? part_size)%Z with true. cbv iota zeta.
    unfold sbind at 1, sput at 1. cbn [pbind fst snd]. apply starts_bind. apply starts_part. }
  destruct X as (k & E & H). unfold p_task. change (String.eqb "b" "") with false. change (String.eqb "k" "") with false. cbv iota. rewrite E. eexists. split; [reflexivity|]. intros id. cbn beta. destruct (H id) as (s1 & ->). reflexivity.
Qed.
Theorem C64_refuted : exists (d : list Z) t s, zlen d = part_size /\
  csteps (start 1 (map p_tasks [[TObject "b" "k" [d]]; [TBucket "b"]])) t s /\ finished s 0 [RObject (Throw "Upload id returned empty."%string)] /\
  answers 0 t = [false] /\ answers 1 t = [] /\
  forall t' s', csteps s t' s' -> forall rs, ~ finished s' 1 rs.
Proof.
  set (d := zrep 1%Z part_size). assert (HD : zlen d = part_size) by (unfold d, zlen, zrep; rewrite repeat_length, Z2Nat.id by (unfold part_size; lia); reflexivity). clearbody d.
  destruct (refused_create d HD) as (k & E & HK). set (tasks := [[TObject "b" "k" [d]]; [TBucket "b"]]).
  assert (E0 : p_tasks [TObject "b" "k" [d]] = PGet (PNew (fun id => [EMpCreate "b" "k" id]) (fun ok id => pbind (k ok id) (fun r => PRet [r])))) by (cbn [p_tasks]; rewrite E; reflexivity).
  set (kb := PReq [] (fun ok => PGive (PRet [RBucket (Ok ok)]))). assert (E1 : p_tasks [TBucket "b"] = PGet kb) by reflexivity.
  set (t := [LTau 0; LDo 0 0 AGet; LDo 0 0 (ANew false 1%Z [EMpCreate "b" "k" 1%Z]); LDo 0 0 ALose; LTau 1; LTau 1]).
  set (s := mkc [] None [TRun None (PRet [RObject (Throw "Upload id returned empty."%string)]); TWait (PGet kb)] 1 [0]).
  assert (R : csteps (start 1 (map p_tasks tasks)) t s).
  { unfold start, tasks. cbn [map seq]. rewrite E0, E1. set (k0 := fun ok id => pbind (k ok id) (fun r => PRet [r])). change t with ((((((([] ++ [LTau 0]) ++ [LDo 0 0 AGet]) ++ [LDo 0 0 (ANew false 1%Z [EMpCreate "b" "k" 1%Z])]) ++ [LDo 0 0 ALose]) ++ [LTau 1]) ++ [LTau 1])).
    set (p0 := PNew (fun id => [EMpCreate "b" "k" id]) k0).
    eapply cs_snoc; [eapply cs_snoc; [eapply cs_snoc; [eapply cs_snoc; [eapply cs_snoc; [eapply cs_snoc; [apply cs_nil|]|]|]|]|]|].
    - apply (c_lock [0] [TRun None (PGet p0); TRun None (PGet kb)] 0 [] 0 None (PGet p0)); reflexivity.
    - apply (c_take [] 0 (Some 0) [THold None (PGet p0); TRun None (PGet kb)] 0 [] 0 None p0); reflexivity.
    - exact (c_new [] None [TRun (Some 0) p0; TRun None (PGet kb)] 0 [] 0 0 (fun id => [EMpCreate "b" "k" id]) k0 false eq_refl).
    - cbn [Pool.put firstn skipn app]. replace (k0 false (Z.of_nat 0 + 1)%Z) with (PLose (PRet [RObject (Throw "Upload id returned empty."%string)])) by (unfold k0; rewrite HK; reflexivity).
      eapply (c_lose [] None _ 1 [] 0 0); reflexivity.
    - eapply (c_lock [] _ 1 [0] 1 None (PGet kb)); reflexivity.
    - exact (c_sleep (Some 1) [TRun None (PRet [RObject (Throw "Upload id returned empty."%string)]); THold None (PGet kb)] 1 [0] 1 None kb eq_refl). }
  exists d, t, s. split; auto. split; [exact R|]. split; [reflexivity|]. split; [reflexivity|]. split; [reflexivity|].
  intros t' s' H'. apply (proj2 (C64_all_lost 1 tasks t s 1 R eq_refl (ex_intro _ (PGet kb) eq_refl) t' s' H')).
Qed.

(** *** a concrete run that meets the hypotheses: two threads and one connection; thread 0 stores an object in two writes, thread 1 sleeps until
    the connection is given back, and asks for the bucket *)
Definition cx_tasks : list (list task) := [[TObject "b" "k" [[7]; [8]]%Z]; [TBucket "b"]].
Definition p_next {R} (p : prog R) : prog R := match p with PGet k => k | PGive k => k | PReq _ k => k true | _ => p end.
Fixpoint p_nexts {R} (m : nat) (p : prog R) : prog R := match m with O => p | S m => p_nexts m (p_next p) end.
Definition cx (m : nat) : prog (list result) := p_nexts m (p_tasks [TObject "b" "k" [[7]; [8]]%Z]).
Definition cy (m : nat) : prog (list result) := p_nexts m (p_tasks [TBucket "b"]).
Definition cx_asleep : list clabel := [LTau 0; LDo 0 0 AGet; LTau 1; LTau 1].
Definition cx_rest : list clabel := [LDo 0 0 (AReq true [EPut "b" "k" [7; 8]%Z]); LTau 0; LDo 0 0 AGive; LTau 1; LDo 1 0 AGet; LDo 1 0 (AReq true []); LTau 1; LDo 1 0 AGive].
Definition cx_mid : cstate (list result) := mkc [] None [TRun (Some 0) (cx 1); TWait (cy 0)] 0 [].
Definition cx_end : cstate (list result) := mkc [0] None [TRun None (PRet [RObject (Ok (true, true))]); TRun None (PRet [RBucket (Ok true)])] 2 [].
Lemma cx_first : csteps (start 1 (map p_tasks cx_tasks)) cx_asleep cx_mid.
Proof.
  change cx_asleep with (((([] ++ [LTau 0]) ++ [LDo 0 0 AGet]) ++ [LTau 1]) ++ [LTau 1]).
  eapply cs_snoc; [eapply cs_snoc; [eapply cs_snoc; [eapply cs_snoc; [apply cs_nil|]|]|]|].
  - exact (c_lock [0] [TRun None (cx 0); TRun None (cy 0)] 0 [] 0 None (cx 0) eq_refl eq_refl).
  - exact (c_take [] 0 (Some 0) [THold None (cx 0); TRun None (cy 0)] 0 [] 0 None (cx 1) eq_refl).
  - exact (c_lock [] [TRun (Some 0) (cx 1); TRun None (cy 0)] 0 [] 1 None (cy 0) eq_refl eq_refl).
  - exact (c_sleep (Some 1) [TRun (Some 0) (cx 1); THold None (cy 0)] 0 [] 1 None (cy 1) eq_refl).
Qed.
Lemma cx_second : csteps cx_mid cx_rest cx_end.
Proof.
  change cx_rest with (((((((([] ++ [LDo 0 0 (AReq true [EPut "b" "k" [7; 8]%Z])]) ++ [LTau 0]) ++ [LDo 0 0 AGive]) ++ [LTau 1]) ++ [LDo 1 0 AGet]) ++ [LDo 1 0 (AReq true [])]) ++ [LTau 1]) ++ [LDo 1 0 AGive]).
  eapply cs_snoc; [eapply cs_snoc; [eapply cs_snoc; [eapply cs_snoc; [eapply cs_snoc; [eapply cs_snoc; [eapply cs_snoc; [eapply cs_snoc; [apply cs_nil|]|]|]|]|]|]|]|].
  - refine (c_req [] None [TRun (Some 0) (cx 1); TWait (cy 0)] 0 [] 0 0 [EPut "b" "k" [7; 8]%Z] (fun ok => match cx 1 with PReq _ k => k ok | p => p end) true _). reflexivity.
  - exact (c_lock [] [TRun (Some 0) (cx 2); TWait (cy 0)] 1 [] 0 (Some 0) (cx 2) eq_refl eq_refl).
  - exact (c_give [] (Some 0) [THold (Some 0) (cx 2); TWait (cy 0)] [TRun None (cx 3); TRun None (cy 0)] 1 [] 0 0 (cx 3) eq_refl (nt_one [TRun None (cx 3); TWait (cy 0)] 1 (cy 0) eq_refl)).
  - exact (c_lock [0] [TRun None (cx 3); TRun None (cy 0)] 1 [] 1 None (cy 0) eq_refl eq_refl).
  - exact (c_take [] 0 (Some 1) [TRun None (cx 3); THold None (cy 0)] 1 [] 1 None (cy 1) eq_refl).
  - exact (c_req [] None [TRun None (cx 3); TRun (Some 0) (cy 1)] 1 [] 1 0 [] (fun ok => PGive (PRet [RBucket (Ok ok)])) true eq_refl).
  - exact (c_lock [] [TRun None (cx 3); TRun (Some 0) (cy 2)] 2 [] 1 (Some 0) (cy 2) eq_refl eq_refl).
  - refine (c_give [] (Some 1) [TRun None (cx 3); THold (Some 0) (cy 2)] [TRun None (cx 3); TRun None (cy 3)] 2 [] 1 0 (cy 3) eq_refl (nt_none _ _)).
    intros p [H|[H|[]]]; discriminate.
Qed.
Example cx_run : csteps (start 1 (map p_tasks cx_tasks)) (cx_asleep ++ cx_rest) cx_end.
Proof. exact (csteps_app _ _ _ _ _ cx_first cx_second). Qed.
Example cx_stops : forall y s', cstep cx_end y s' -> exists i, y = LWake i.
Proof.
  unfold cx_end. intros y s' H. inversion H; subst; eauto; exfalso;
  match goal with A : nth_error _ ?i = Some _ |- _ => destruct i as [|[|[|i]]]; cbn in A; try discriminate A; try (injection A as <- <-; discriminate) end.
Qed.
Example cx_quiet : none_refused (cx_asleep ++ cx_rest).
Proof. intros i c a H. cbn in H. repeat (destruct H as [H|H]; [try discriminate H; injection H as <- <- <-; cbn; intros X; intuition discriminate|]). destruct H. Qed.
Example cx_sound : NoDup (flat_map keys (List.concat cx_tasks)) /\
  (forall l b k ds, In l cx_tasks -> In (TObject b k ds) l -> b <> ""%string /\ k <> ""%string /\ (zlen (List.concat ds) < 2 ^ 64)%Z).
Proof.
  split; [repeat constructor; intros []|]. intros l b k ds [<-|[<-|[]]] H; (destruct H as [H|[]]); [|discriminate]. injection H as <- <- <-. repeat split; discriminate.
Qed.
(* thread 1 sleeps and no connection is free; exclusive use; every theorem applies to this run *)
Example cx_sleeps : sleeping cx_mid 1 /\ List.length (pool cx_mid) = 0.
Proof. split; [eexists; reflexivity|reflexivity]. Qed.
Example cx_exclusive : cx_asleep ++ cx_rest = [LTau 0] ++ LDo 0 0 AGet :: [LTau 1; LTau 1] ++ LDo 0 0 (AReq true [EPut "b" "k" [7; 8]%Z]) :: skipn 1 cx_rest /\
  (forall x, In x [LTau 1; LTau 1] -> ~ releases 0 0 x).
Proof. split; [reflexivity|]. intros x [<-|[<-|[]]] [H|H]; discriminate. Qed.
Example cx_stored : forall E, object_of E (all_uploads (cx_asleep ++ cx_rest)) "b" "k" = Some [7; 8]%Z.
Proof.
  intros E. destruct (C64_stored 1 cx_tasks _ _ ltac:(lia) cx_run cx_quiet cx_stops (proj1 cx_sound) (proj2 cx_sound) 0 _ eq_refl) as (rs & _ & _ & H).
  destruct (H 0 "b"%string "k"%string [[7]; [8]]%Z eq_refl) as (_ & H1). apply H1. discriminate.
Qed.

Print Assumptions C64_accounted_for.
Print Assumptions C64_exclusive.
Print Assumptions C64_no_lost_wakeup.
Print Assumptions C64_bounded.
Print Assumptions C64_all_finish.
Print Assumptions C64_same_as_alone.
Print Assumptions C64_success_means_stored.
Print Assumptions C64_nothing_lost.
Print Assumptions C64_stored.
Print Assumptions C64_all_lost.
Print Assumptions C64_refuted.
