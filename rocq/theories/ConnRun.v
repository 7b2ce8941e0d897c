(** Threads that share the connections: invariants of every interleaving. *)
Require Import ZArith List Bool String Lia Permutation.
Require Import Verif.Base Verif.World Verif.S3Spec Verif.Conn Verif.ConnSpec Verif.ConnProofs.
Require Verif.PoolProofs Verif.PropsS3.
Import ListNotations.
Open Scope list_scope.
Open Scope nat_scope.

(** *** one thread *)
Inductive path {R} : prog R -> list act -> prog R -> Prop :=
| pt_nil p : path p [] p
| pt_get k t p : path k t p -> path (PGet k) (AGet :: t) p
| pt_req es k ok t p : path (k ok) t p -> path (PReq es k) (AReq ok es :: t) p
| pt_new f k ok id t p : (0 < id)%Z -> path (k ok id) t p -> path (PNew f k) (ANew ok id (f id) :: t) p
| pt_give k t p : path k t p -> path (PGive k) (AGive :: t) p
| pt_lose k t p : path k t p -> path (PLose k) (ALose :: t) p.
Lemma path_app {R} (p q r : prog R) t u : path p t q -> path q u r -> path p (t ++ u) r.
Proof. induction 1; intros; cbn [app]; auto; constructor; auto. Qed.
Lemma path_bind {A B} (p : prog A) (f : A -> prog B) t1 q : path p t1 q -> forall a t2 r, q = PRet a -> path (f a) t2 r -> path (pbind p f) (t1 ++ t2) r.
Proof. induction 1; intros a t2 r EQ K; subst; cbn [pbind app]; auto; constructor; eauto. Qed.
Lemma path_split {A B} (p : prog A) (f : A -> prog B) : forall t r, path (pbind p f) t (PRet r) -> exists t1 a t2, t = t1 ++ t2 /\ path p t1 (PRet a) /\ path (f a) t2 (PRet r).
Proof.
  induction p as [a|k IH|es k IH|g k IH|k IH|k IH]; intros t r H; cbn [pbind] in H.
  - exists [], a, t. split; auto. split; [constructor|auto].
  - inversion H; subst. match goal with X : path _ _ _ |- _ => destruct (IH _ _ X) as (t1 & a & t2 & -> & A1 & A2) end. exists (AGet :: t1), a, t2. split; auto. split; auto. constructor; auto.
  - inversion H; subst. match goal with X : path _ _ _ |- _ => destruct (IH _ _ _ X) as (t1 & a & t2 & -> & A1 & A2) end. exists (AReq ok es :: t1), a, t2. split; auto. split; auto. constructor; auto.
  - inversion H; subst. match goal with X : path _ _ _ |- _ => destruct (IH _ _ _ _ X) as (t1 & a & t2 & -> & A1 & A2) end. exists (ANew ok id (g id) :: t1), a, t2. split; auto. split; auto. constructor; auto.
  - inversion H; subst. match goal with X : path _ _ _ |- _ => destruct (IH _ _ X) as (t1 & a & t2 & -> & A1 & A2) end. exists (AGive :: t1), a, t2. split; auto. split; auto. constructor; auto.
  - inversion H; subst. match goal with X : path _ _ _ |- _ => destruct (IH _ _ X) as (t1 & a & t2 & -> & A1 & A2) end. exists (ALose :: t1), a, t2. split; auto. split; auto. constructor; auto.
Qed.
Definition gets (t : list act) : nat := List.length (filter (fun a => match a with AGet => true | _ => false end) t).
Definition gives (t : list act) : nat := List.length (filter (fun a => match a with AGive => true | _ => false end) t).
Definition loses (t : list act) : nat := List.length (filter (fun a => match a with ALose => true | _ => false end) t).
Ltac ih IH t0 A := match goal with X : path _ _ _ |- _ => first [destruct (IH _ _ X) as (t0 & A)|destruct (IH _ _ _ X) as (t0 & A)|destruct (IH _ _ _ _ X) as (t0 & A)] end.
(** with enough connections, and the answers and the id it got, it does the same alone *)
Lemma path_runs {R} P (Q : bool -> bool -> R -> Prop) d c h p : kept P Q d c h p -> forall t r, path p t (PRet r) -> exists t0, forall E w,
  (c = true -> w_tick w = t0) -> (forall j, e_s3 E (w_tick w + j) = nth j (flat_map answer t) true) -> List.length t <= w_conns w ->
  exists w', runp E p w = (w', Some r) /\ w_trace w' = w_trace w ++ flat_map accepted t /\ w_conns w' + gets t = w_conns w + gives t.
Proof.
  induction 1 as [d c h r0 HQ|d c k H IH|d c es k HP H IH|d f k HP H IH|d c k H IH|d c k H IH]; intros t r HT; inversion HT; subst.
  - exists 0%nat. intros E w _ _ _. exists w. split; auto. cbn. rewrite app_nil_r. auto.
  - ih IH tk0 A. exists tk0. intros E w HC HA HL. cbn [List.length] in HL. cbn [runp]. destruct (w_conns w) as [|n] eqn:EW; [lia|].
    destruct (A E (mkworld (w_trace w) (w_tick w) n (w_err w))) as (w' & B1 & B2 & B3); auto; [cbn; lia|]. exists w'. split; auto. split; auto. unfold gets, gives in *. cbn in B3. cbn. lia.
  - ih IH tk0 A. exists 0%nat. intros E w HC HA HL. cbn [List.length] in HL. cbn [runp]. pose proof (HA 0%nat) as H0. rewrite Nat.add_0_r in H0. cbn in H0. rewrite H0.
    destruct (A E (mkworld (if ok then w_trace w ++ es else w_trace w) (S (w_tick w)) (w_conns w) (w_err w))) as (w' & B1 & B2 & B3); [discriminate| |cbn; lia|].
    { intros j. cbn [w_tick]. specialize (HA (S j)). cbn in HA. rewrite <- HA. f_equal. lia. }
    exists w'. split; auto. split; [|unfold gets, gives in *; cbn in B3; cbn; lia]. rewrite B2. cbn [w_trace flat_map accepted]. destruct ok; rewrite <- ?app_assoc; reflexivity.
  - ih IH tk0 A. exists (Z.to_nat (id - 1)). intros E w HC HA HL. specialize (HC eq_refl). cbn [List.length] in HL. cbn [runp]. pose proof (HA 0%nat) as H0. rewrite Nat.add_0_r in H0. cbn in H0. rewrite H0.
    assert (EI : (Z.of_nat (w_tick w) + 1 = id)%Z) by (rewrite HC; lia). rewrite EI.
    destruct (A E (mkworld (if ok then w_trace w ++ f id else w_trace w) (S (w_tick w)) (w_conns w) (w_err w))) as (w' & B1 & B2 & B3); [discriminate| |cbn; lia|].
    { intros j. cbn [w_tick]. specialize (HA (S j)). cbn in HA. rewrite <- HA. f_equal. lia. }
    exists w'. split; auto. split; [|unfold gets, gives in *; cbn in B3; cbn; lia]. rewrite B2. cbn [w_trace flat_map accepted]. destruct ok; rewrite <- ?app_assoc; reflexivity.
  - ih IH tk0 A. exists tk0. intros E w HC HA HL. cbn [List.length] in HL. cbn [runp].
    destruct (A E (mkworld (w_trace w) (w_tick w) (S (w_conns w)) (w_err w))) as (w' & B1 & B2 & B3); auto; [cbn; lia|]. exists w'. split; auto. split; auto. unfold gets, gives in *. cbn in B3. cbn. lia.
  - ih IH tk0 A. exists tk0. intros E w HC HA HL. cbn [List.length] in HL. cbn [runp]. apply A; auto. lia.
Qed.
Lemma path_conns {R} P d h (p : prog R) : sane P d h p -> forall t r, path p t (PRet r) -> gets t + Nat.b2n h = gives t + loses t.
Proof.
  induction 1 as [d r|d k H IH|d es k HP H IH|d f k HP H IH|d k H IH|d k H IH]; intros t r0 HT; inversion HT; subst; [reflexivity|..]; match goal with X : path _ _ _ |- _ => first [pose proof (IH _ _ X) as Y|pose proof (IH _ _ _ X) as Y|pose proof (IH _ _ _ _ X) as Y] end; unfold gets, gives, loses in *; cbn in Y |- *; lia.
Qed.
(** every path can be completed, with requests that are answered *)
Lemma path_complete {R} P d h (p : prog R) : sane P d h p -> exists t r, path p t (PRet r) /\ ~ In false (flat_map answer t).
Proof.
  induction 1 as [d r|d k H (t & r & A & B)|d es k HP H IH|d f k HP H IH|d k H (t & r & A & B)|d k H (t & r & A & B)].
  - exists [], r. split; [constructor|auto].
  - exists (AGet :: t), r. split; [constructor; auto|auto].
  - destruct (IH true) as (t & r & A & B). exists (AReq true es :: t), r. split; [constructor; auto|]. cbn. intros [X|X]; [discriminate|auto].
  - destruct (IH true 1%Z) as (t & r & A & B). exists (ANew true 1 (f 1%Z) :: t), r. split; [constructor; auto; lia|]. cbn. intros [X|X]; [discriminate|auto].
  - exists (AGive :: t), r. split; [constructor; auto|auto].
  - exists (ALose :: t), r. split; [constructor; auto|auto].
Qed.
Definition some_env (oks : list bool) (t0 : nat) : env :=
  mkenv (fun _ => None) (fun _ => false) (fun _ _ => None) (fun _ => false) (fun k => nth (k - t0) oks true) 1 (fun _ _ _ => None) (fun _ => true) (fun _ => None) (fun _ _ => true).
Lemma task_alone j t r : path (p_task j) t (PRet r) -> alone j (flat_map answer t) (flat_map accepted t) r.
Proof.
  intros H. destruct (path_runs _ _ _ _ _ _ (task_kept j) _ _ H) as (t0 & A). set (oks := flat_map answer t). set (E := some_env oks t0). set (w := mkworld [] t0 (S (List.length t)) ""%string).
  destruct (A E w) as (w' & B1 & B2 & _); auto; [intros k; cbn; f_equal; lia|cbn; lia|].
  exists E, w, w'. split; [reflexivity|]. split; [cbn; lia|]. split; [reflexivity|]. split; [rewrite B2; reflexivity|]. exact (task_runs E j w w' r B1).
Qed.
(** if nothing is refused no connection is lost *)
Definition fits (j : task) : Prop := match j with TObject _ _ ds => (zlen (List.concat ds) < 2 ^ 64)%Z | TBucket _ => True end.
Lemma nth_true (l : list bool) j : ~ In false l -> nth j l true = true.
Proof. intros H. destruct (nth_in_or_default j l true) as [I|E]; auto. destruct (nth j l true); [reflexivity|contradiction]. Qed.
Lemma task_good j t r : fits j -> path (p_task j) t (PRet r) -> ~ In false (flat_map answer t) -> loses t = 0%nat.
Proof.
  intros HF H NR. destruct j as [b k ds|b]; cycle 1.
  { cbn [p_task] in H. destruct (String.eqb b ""); inversion H; subst; [reflexivity|]. repeat match goal with X : path _ _ _ |- _ => inversion X; subst; clear X end; reflexivity. }
  destruct (path_runs _ _ _ _ _ _ (task_kept (TObject b k ds)) _ _ H) as (t0 & A). set (oks := flat_map answer t) in *. set (E := some_env oks t0). set (w := mkworld [] t0 (S (List.length t)) ""%string).
  destruct (A E w) as (w' & B1 & B2 & B3); auto; [intros j; cbn; f_equal; lia|cbn; lia|].
  pose proof (path_conns _ _ _ _ (kept_sane _ _ _ _ _ _ (task_kept (TObject b k ds)) (fun _ _ _ X => X)) _ _ H) as C. cbn [Nat.b2n] in C.
  destruct (String.eqb b "") eqn:Eb; [cbn [p_task] in H; rewrite Eb in H; inversion H; reflexivity|]. destruct (String.eqb k "") eqn:Ek; [cbn [p_task] in H; rewrite Eb, Ek in H; inversion H; reflexivity|].
  apply String.eqb_neq in Eb, Ek. destruct (task_runs E (TObject b k ds) w w' r B1) as (o & O1 & O2).
  destruct (PropsS3.C15_sequential E b k ds w) as (w2 & evs & S1 & _); auto; [intros j; cbn; apply nth_true; auto|cbn; lia|]. rewrite S1 in O1. injection O1 as <- <-.
  pose proof (proj2 (proj2 (PropsS3.C15_C16_success_means_stored E b k ds w w2 Eb Ek ltac:(cbn; lia) HF S1))) as CC. lia.
Qed.
Lemma tasks_good l : Forall fits l -> forall t rs, path (p_tasks l) t (PRet rs) -> ~ In false (flat_map answer t) -> loses t = 0%nat.
Proof.
  induction 1 as [|j l HF HL IH]; intros t rs H NR; cbn [p_tasks] in H; [inversion H; reflexivity|].
  apply path_split in H as (t1 & r & t2 & -> & H1 & H2). apply path_split in H2 as (t3 & rs' & t4 & -> & H3 & H4). inversion H4; subst. rewrite !flat_map_app, !in_app_iff in NR.
  pose proof (task_good j t1 r HF H1 ltac:(tauto)) as A1. pose proof (IH t3 rs' H3 ltac:(tauto)) as A2. unfold loses in *. rewrite !filter_app, !app_length. cbn in *. lia.
Qed.
Lemma tasks_never_lose l t q P d h : Forall fits l -> path (p_tasks l) t q -> sane P d h q -> ~ In false (flat_map answer t) -> loses t = 0%nat.
Proof.
  intros HF H S NR. destruct (path_complete P d h q S) as (t2 & r & C1 & C2). pose proof (tasks_good l HF (t ++ t2) r (path_app _ _ _ _ _ H C1)) as X. rewrite flat_map_app, in_app_iff in X. specialize (X ltac:(tauto)).
  unfold loses in *. rewrite filter_app, app_length in X. lia.
Qed.
Lemma tasks_alone l : forall t rs, path (p_tasks l) t (PRet rs) -> one_by_one l (flat_map answer t) (flat_map accepted t) rs.
Proof.
  induction l as [|j l IH]; intros t rs H; cbn [p_tasks] in H.
  - inversion H; subst. split; reflexivity.
  - apply path_split in H as (t1 & r & t2 & -> & H1 & H2). apply path_split in H2 as (t3 & rs' & t4 & -> & H3 & H4). inversion H4; subst. rewrite !flat_map_app. cbn [flat_map]. rewrite !app_nil_r.
    exists (flat_map answer t1), (flat_map answer t3), (flat_map accepted t1), (flat_map accepted t3). split; auto. split; auto. split; [apply task_alone; auto|apply IH; auto].
Qed.
Lemma path_stores {R} P d h (p : prog R) : sane P d h p -> forall t q, path p t q -> Forall P (flat_map accepted t).
Proof.
  induction 1 as [d r|d k H IH|d es k HP H IH|d f k HP H IH|d k H IH|d k H IH]; intros t q HT; inversion HT; subst; cbn [flat_map accepted app]; try constructor; eauto; apply Forall_app; split; eauto; destruct ok; auto.
Qed.

(** *** all threads *)
Section Run.
Context {R : Type}.
Variable P : event -> Prop.
Variable ps : list (prog R).
Variable n : nat.
Definition some {A} (o : option A) : bool := match o with Some _ => true | None => false end.
(** thread started with [p0] has done [t]; at most [d] actions are left *)
Definition tok (p0 : prog R) (t : list act) (d : nat) (x : thread R) : Prop :=
  match x with
  | TRun h p => path p0 t p /\ sane P d (some h) p
  | THold h p => path p0 t p /\ sane P d (some h) p /\ wants_mutex p = true
  | TWait p => path p0 t p /\ sane P d false p /\ exists k, p = PGet k
  end.
Definition phase (x : thread R) : nat := match x with TRun _ _ => 2 | THold _ _ => 1 | TWait _ => 0 end.
Definition phases (ts : list (thread R)) : nat := list_sum (map phase ts).
Definition looking (ts : list (thread R)) : nat := List.length (filter looks ts).
Definition asleep (x : thread R) : bool := match x with TWait _ => true | _ => false end.
Definition quiet_steps (t : list clabel) : nat := (List.length t - spurious t)%nat.
Definition clause (ts : list (thread R)) (dd : nat -> list act) (ds : list nat) : Prop :=
  List.length ds = List.length ps /\ List.length ts = List.length ps /\
  forall i p0 x, nth_error ps i = Some p0 -> nth_error ts i = Some x -> exists d, nth_error ds i = Some d /\ tok p0 (dd i) d x.
Record inv (D : nat) (t : list clabel) (s : cstate R) : Prop := {
  v_conns : Permutation (pool s ++ in_use s ++ lost s) (seq 0 n);
  v_mutex : forall i, cmutex s = Some i <-> exists h p, nth_error (threads s) i = Some (THold h p);
  v_wait : existsb asleep (threads s) = true -> List.length (pool s) <= looking (threads s);
  v_thr : exists ds, clause (threads s) (fun i => did i t) ds /\ 4 * list_sum ds + phases (threads s) + List.length t <= D + 3 * spurious t
}.
Lemma sum_put {A} (f : A -> nat) (l : list A) i o x : nth_error l i = Some o -> list_sum (map f (put l i x)) + f o = list_sum (map f l) + f x.
Proof.
  intros H. destruct (PoolProofs.put_split l i o H) as (l1 & l2 & -> & L & E). rewrite E, !map_app, !list_sum_app. cbn. lia.
Qed.
Lemma looking_put ts i o x : nth_error ts i = Some o -> looking (put ts i x) + Nat.b2n (looks o) = looking ts + Nat.b2n (looks x).
Proof. exact (PoolProofs.count_put looks ts i o x). Qed.
Lemma asleep_put ts i o x : nth_error ts i = Some o -> existsb asleep (put ts i x) = true -> asleep x = true \/ existsb asleep ts = true.
Proof.
  intros H. rewrite !existsb_exists. intros (y & I & A). destruct (PoolProofs.in_put _ _ _ _ _ H I) as [->|I']; [auto|right; exists y; auto].
Qed.
Lemma in_use_put (ts : list (thread R)) i o x : nth_error ts i = Some o -> exists u v, flat_map has ts = u ++ has o ++ v /\ flat_map has (put ts i x) = u ++ has x ++ v.
Proof.
  intros H. destruct (PoolProofs.put_split ts i o H) as (l1 & l2 & -> & L & E). exists (flat_map has l1), (flat_map has l2). rewrite E, !flat_map_app. cbn [flat_map]. auto.
Qed.
Lemma thr_put ts dd ds i x : clause ts dd ds -> nth_error ts i = Some x -> exists p0 d0, nth_error ps i = Some p0 /\ nth_error ds i = Some d0 /\ tok p0 (dd i) d0 x /\
  forall d1 x' dd', tok p0 (dd' i) d1 x' -> (forall j, j <> i -> dd' j = dd j) ->
    clause (put ts i x') dd' (put ds i d1) /\ list_sum (put ds i d1) + d0 = list_sum ds + d1 /\ phases (put ts i x') + phase x = phases ts + phase x'.
Proof.
  intros (C1 & C2 & C3) H. assert (HL : i < List.length ps) by (rewrite <- C2; apply nth_error_Some; congruence). destruct (nth_error ps i) as [p0|] eqn:EP; [|apply nth_error_None in EP; lia].
  destruct (C3 i p0 x EP H) as (d0 & ED & T). exists p0, d0. do 3 (split; auto). intros d1 x' dd' T' HD. split; [|split].
  - split; [rewrite (PoolProofs.put_length ds i d0); auto|]. split; [rewrite (PoolProofs.put_length ts i x); auto|]. intros j q y EQ. rewrite (PoolProofs.nth_error_put ts i x x' j H), (PoolProofs.nth_error_put ds i d0 d1 j ED).
    destruct (Nat.eqb_spec j i) as [->|NE].
    + intros Y. injection Y as <-. replace q with p0 by congruence. eauto.
    + intros Y. rewrite HD by auto. apply C3; auto.
  - pose proof (sum_put (fun k => k) ds i d0 d1 ED) as X. rewrite !map_id in X. exact X.
  - apply sum_put; auto.
Qed.
Lemma did_snoc i t x : did i (t ++ [x]) = did i t ++ did i [x].
Proof. unfold did. rewrite flat_map_app. reflexivity. Qed.
Lemma did_other i j c a : j <> i -> did j [LDo i c a] = [].
Proof. intros H. cbn. destruct (Nat.eqb_spec i j); [congruence|auto]. Qed.
Lemma did_own i c a : did i [LDo i c a] = [a].
Proof. cbn. rewrite Nat.eqb_refl. auto. Qed.
Lemma spurious_snoc t x : spurious (t ++ [x]) = spurious t + spurious [x].
Proof. unfold spurious. rewrite filter_app, app_length. reflexivity. Qed.

(** one thread changes; it neither takes nor frees the mutex unless said *)
Lemma inv_thread D t q m l' tk ts i x x' y m' q' tk' l'' :
  inv D t (mkc q m ts tk l') -> nth_error ts i = Some x ->
  Permutation (q' ++ has x' ++ l'') (q ++ has x ++ l') ->
  (forall j, m' = Some j <-> (j = i /\ exists h p, x' = THold h p) \/ (j <> i /\ m = Some j)) ->
  (existsb asleep (put ts i x') = true -> List.length q' <= looking (put ts i x')) ->
  (forall p0 d0, tok p0 (did i t) d0 x -> exists d1, tok p0 (did i (t ++ [y])) d1 x' /\ 4 * d1 + phase x' + 1 <= 4 * d0 + phase x + 3 * spurious [y]) ->
  (forall j, j <> i -> did j [y] = []) ->
  inv D (t ++ [y]) (mkc q' m' (put ts i x') tk' l'').
Proof.
  intros [V1 V2 V3 (ds & V4 & V5)] H HP HM HW HT HD. cbn [threads pool lost cmutex] in *. split; cbn [threads pool lost cmutex].
  - destruct (in_use_put ts i x x' H) as (u & v & U1 & U2). unfold in_use in *. cbn [threads] in *. rewrite U1 in V1. rewrite U2. rewrite <- V1.
    apply (Permutation_count_occ Nat.eq_dec). intros z. rewrite (Permutation_count_occ Nat.eq_dec) in HP. specialize (HP z). rewrite !count_occ_app in *. lia.
  - intros j. rewrite HM. rewrite (PoolProofs.nth_error_put ts i x x' j H). destruct (Nat.eqb_spec j i) as [->|NE].
    + split; [intros [[_ (h & p & ->)]|[X _]]; [eauto|congruence]|]. intros (h & p & X). injection X as ->. left. eauto.
    + rewrite <- V2. split; [intros [[X _]|[_ X]]; [congruence|auto]|]. auto.
  - exact HW.
  - destruct (thr_put ts _ ds i x V4 H) as (p0 & d0 & A1 & A2 & A3 & A4). destruct (HT p0 d0 A3) as (d1 & B1 & B2).
    destruct (A4 d1 x' (fun j => did j (t ++ [y])) B1) as (C1 & C2 & C3); [intros j NE; cbn beta; rewrite did_snoc, HD by auto; rewrite app_nil_r; auto|].
    exists (put ds i d1). split; auto. rewrite app_length, spurious_snoc. cbn [List.length]. lia.
Qed.

Lemma inv_notified D t q c tk ts ts' l : clause ts (fun i => did i t) c -> notified ts ts' -> forall m, m = None ->
  Permutation (q ++ flat_map has ts ++ l) (seq 0 n) -> (forall i, m = Some i <-> exists h p, nth_error ts i = Some (THold h p)) ->
  (existsb asleep ts = true -> List.length q <= S (looking ts)) -> 4 * list_sum c + phases ts + List.length t + 2 <= D + 3 * spurious t ->
  inv D t (mkc q m ts' tk l).
Proof.
  intros C N m -> V1 V2 V3 V4. destruct N as [ts i p H|ts H].
  - destruct (thr_put ts _ c i _ C H) as (p0 & d0 & A1 & A2 & (T1 & T2 & k & ->) & A4). destruct (A4 d0 (TRun None (PGet k)) (fun i => did i t) (conj T1 T2) ltac:(auto)) as (B1 & B2 & B3). cbn [phase] in B3.
    split; cbn [threads pool lost cmutex in_use].
    + destruct (in_use_put ts i _ (TRun None (PGet k)) H) as (u & v & U1 & U2). unfold in_use. cbn [threads]. rewrite U2. rewrite U1 in V1. exact V1.
    + intros j. rewrite V2. rewrite (PoolProofs.nth_error_put ts i _ _ j H). destruct (Nat.eqb_spec j i) as [->|NE]; [|tauto]. rewrite H. split; intros (h & p & X); discriminate.
    + intros _. pose proof (looking_put ts i _ (TRun None (PGet k)) H) as X. cbn [looks Nat.b2n] in X. assert (existsb asleep ts = true) by (apply existsb_exists; exists (TWait (PGet k)); split; [eapply nth_error_In; eauto|auto]). specialize (V3 H0). lia.
    + exists (put c i d0). split; auto. lia.
  - split; cbn [threads pool lost cmutex in_use]; auto.
    + intros X. apply existsb_exists in X as (y & Hy & AY). destruct y; try discriminate. exfalso. eapply H; eauto.
    + exists c. split; auto. lia.
Qed.
Lemma nohold D t q ts tk l : inv D t (mkc q None ts tk l) -> forall i h p, nth_error ts i <> Some (THold h p).
Proof. intros I i h p H. assert (X : None = Some i) by (apply (v_mutex _ _ _ I); cbn; eauto). discriminate. Qed.
Lemma holder D t q m ts tk l i h p : inv D t (mkc q m ts tk l) -> nth_error ts i = Some (THold h p) -> m = Some i.
Proof. intros I H. apply (v_mutex _ _ _ I). cbn. eauto. Qed.
Lemma inv_step D t s y s' : inv D t s -> cstep s y s' -> inv D (t ++ [y]) s'.
Proof.
  intros I H. destruct H as [q ts tk l i h p H W|q c m ts tk l i h k H|m ts tk l i h k H|q m ts ts' tk l i c k H N|q m ts tk l i c es k ok H|q m ts tk l i c f k ok H|q m ts tk l i c k H|q m ts tk l i p H].
  - eapply inv_thread; [exact I|exact H|reflexivity| | | |intros; reflexivity].
    + intros j. split; [intros X; injection X as <-; left; eauto|intros [[-> _]|[_ X]]; [auto|discriminate]].
    + intros X. destruct (asleep_put _ _ _ _ H X) as [Y|Y]; [discriminate|]. pose proof (v_wait _ _ _ I Y) as Z. cbn [pool threads] in Z. pose proof (looking_put ts i _ (THold h p) H) as L. destruct p; cbn [looks Nat.b2n wants_mutex] in L, W; try discriminate; lia.
    + intros p0 d0 [T1 T2]. exists d0. rewrite did_snoc. cbn [did flat_map]. rewrite app_nil_r. split; [split; auto|]. cbn. lia.
  - pose proof (holder _ _ _ _ _ _ _ _ _ _ I H) as ->. eapply inv_thread; [exact I|exact H| | | | |intros; apply did_other; auto].
    + destruct I as [_ _ _ (ds & C & _)]. cbn [threads] in C. destruct (thr_put ts _ ds i _ C H) as (p0 & d0 & _ & _ & (_ & S & _) & _). inversion S; subst. destruct h; [discriminate|]. cbn [has]. rewrite <- app_assoc. reflexivity.
    + intros j. split; [discriminate|]. intros [(_ & h1 & p1 & X)|[X Y]]; congruence.
    + intros X. destruct (asleep_put _ _ _ _ H X) as [Y|Y]; [discriminate|]. pose proof (v_wait _ _ _ I Y) as Z. cbn [pool threads] in Z. rewrite app_length in Z. cbn [List.length] in Z. pose proof (looking_put ts i _ (TRun (Some c) k) H) as L. cbn [looks Nat.b2n] in L. lia.
    + intros p0 d0 (T1 & T2 & _). inversion T2; subst. exists d. rewrite did_snoc, did_own. split; [split; [eapply path_app; [exact T1|constructor; constructor]|auto]|]. cbn. lia.
  - pose proof (holder _ _ _ _ _ _ _ _ _ _ I H) as ->. eapply inv_thread; [exact I|exact H| | | | |intros; reflexivity].
    + destruct I as [_ _ _ (ds & C & _)]. cbn [threads] in C. destruct (thr_put ts _ ds i _ C H) as (p0 & d0 & _ & _ & (_ & S & _) & _). inversion S; subst. destruct h; [discriminate|]. reflexivity.
    + intros j. split; [discriminate|]. intros [(_ & h1 & p1 & X)|[X Y]]; congruence.
    + cbn. lia.
    + intros p0 d0 (T1 & T2 & _). exists d0. rewrite did_snoc. cbn [did flat_map]. rewrite app_nil_r. split; [split; auto; inversion T2; subst; split; [constructor; auto|eauto]|]. cbn. lia.
  - pose proof (holder _ _ _ _ _ _ _ _ _ _ I H) as ->.
    destruct I as [V1 V2 V3 (ds & C & V5)]. cbn [threads pool lost cmutex] in *. destruct (thr_put ts _ ds i _ C H) as (p0 & d0 & A1 & A2 & (T1 & T2 & _) & A4). inversion T2; subst.
    destruct (A4 d (TRun None k) (fun j => did j (t ++ [LDo i c AGive]))) as (B1 & B2 & B3).
    { cbn beta. rewrite did_snoc, did_own. split; auto. eapply path_app; [exact T1|constructor; constructor]. }
    { intros j NE. cbn beta. rewrite did_snoc, did_other by auto. apply app_nil_r. }
    eapply inv_notified; [exact B1|exact N|reflexivity| | | |].
    + destruct (in_use_put ts i _ (TRun None k) H) as (u & v & U1 & U2). unfold in_use in V1. cbn [threads] in V1. rewrite U1 in V1. rewrite U2, <- V1. cbn [has].
      apply (Permutation_count_occ Nat.eq_dec). intros z. rewrite !count_occ_app. cbn [count_occ]. lia.
    + intros j. split; [discriminate|]. intros (h1 & p1 & X). rewrite (PoolProofs.nth_error_put ts i _ _ j H) in X. destruct (Nat.eqb_spec j i) as [->|NE]; [discriminate|]. assert (Some i = Some j) by (apply V2; eauto). congruence.
    + intros X. destruct (asleep_put _ _ _ _ H X) as [Y|Y]; [discriminate|]. specialize (V3 Y). rewrite app_length. cbn [List.length]. pose proof (looking_put ts i _ (TRun None k) H) as L. destruct k; cbn [looks Nat.b2n] in L; lia.
    + rewrite app_length, spurious_snoc. cbn [List.length phase] in *. change (spurious [LDo i c AGive]) with 0. lia.
  - eapply inv_thread; [exact I|exact H|reflexivity| | | |intros; apply did_other; auto].
    + intros j. split; [|intros [(_ & h1 & p1 & X)|[_ X]]; congruence]. intros ->. right. split; auto. intros ->. pose proof (proj1 (v_mutex _ _ _ I i) eq_refl) as (h1 & p1 & X). cbn in X. congruence.
    + intros X. destruct (asleep_put _ _ _ _ H X) as [Y|Y]; [discriminate|]. pose proof (v_wait _ _ _ I Y) as Z. cbn [pool threads] in Z. pose proof (looking_put ts i _ (TRun (Some c) (k ok)) H) as L. cbn [looks Nat.b2n] in L. destruct (k ok); cbn [Nat.b2n looks] in L; lia.
    + intros p0 d0 (T1 & T2). inversion T2; subst. exists d. rewrite did_snoc, did_own. split; [split; [eapply path_app; [exact T1|apply (pt_req es k ok []), pt_nil]|cbn [some]; auto]|]. cbn. lia.
  - eapply inv_thread; [exact I|exact H|reflexivity| | | |intros; apply did_other; auto].
    + intros j. split; [|intros [(_ & h1 & p1 & X)|[_ X]]; congruence]. intros ->. right. split; auto. intros ->. pose proof (proj1 (v_mutex _ _ _ I i) eq_refl) as (h1 & p1 & X). cbn in X. congruence.
    + intros X. destruct (asleep_put _ _ _ _ H X) as [Y|Y]; [discriminate|]. pose proof (v_wait _ _ _ I Y) as Z. cbn [pool threads] in Z. pose proof (looking_put ts i _ (TRun (Some c) (k ok (Z.of_nat tk + 1)%Z)) H) as L. cbn [looks Nat.b2n] in L. destruct (k ok (Z.of_nat tk + 1)%Z); cbn [Nat.b2n looks] in L; lia.
    + intros p0 d0 (T1 & T2). inversion T2; subst. exists d. rewrite did_snoc, did_own. split; [split; [eapply path_app; [exact T1|apply (pt_new f k ok _ []); [lia|apply pt_nil]]|cbn [some]; auto]|]. cbn. lia.
  - eapply inv_thread; [exact I|exact H| | | | |intros; apply did_other; auto].
    + cbn [has app]. reflexivity.
    + intros j. split; [|intros [(_ & h1 & p1 & X)|[_ X]]; congruence]. intros ->. right. split; auto. intros ->. pose proof (proj1 (v_mutex _ _ _ I i) eq_refl) as (h1 & p1 & X). cbn in X. congruence.
    + intros X. destruct (asleep_put _ _ _ _ H X) as [Y|Y]; [discriminate|]. pose proof (v_wait _ _ _ I Y) as Z. cbn [pool threads] in Z. pose proof (looking_put ts i _ (TRun None k) H) as L. cbn [looks Nat.b2n] in L. destruct k; cbn [Nat.b2n looks] in L; lia.
    + intros p0 d0 (T1 & T2). inversion T2; subst. exists d. rewrite did_snoc, did_own. split; [split; [eapply path_app; [exact T1|constructor; constructor]|auto]|]. cbn. lia.
  - eapply inv_thread; [exact I|exact H|reflexivity| | | |intros; reflexivity].
    + intros j. split; [|intros [(_ & h1 & p1 & X)|[_ X]]; congruence]. intros ->. right. split; auto. intros ->. pose proof (proj1 (v_mutex _ _ _ I i) eq_refl) as (h1 & p1 & X). cbn in X. congruence.
    + intros _. assert (Y : existsb asleep ts = true) by (apply existsb_exists; exists (TWait p); split; [eapply nth_error_In; eauto|auto]). pose proof (v_wait _ _ _ I Y) as Z. cbn [pool threads] in Z. pose proof (looking_put ts i _ (TRun None p) H) as L. cbn [looks Nat.b2n] in L. destruct p; cbn [Nat.b2n looks] in L; lia.
    + intros p0 d0 (T1 & T2 & k & ->). exists d0. rewrite did_snoc. cbn [did flat_map]. rewrite app_nil_r. split; [split; auto|]. cbn. lia.
Qed.
Variable ds0 : list nat.
Hypothesis HS : List.length ds0 = List.length ps /\ forall i p d, nth_error ps i = Some p -> nth_error ds0 i = Some d -> sane P d false p.
Definition budget : nat := 4 * list_sum ds0 + 2 * List.length ps.
Lemma inv_start : inv budget [] (start n ps).
Proof.
  assert (HN : forall i x, nth_error (map (TRun None) ps) i = Some x -> exists p, nth_error ps i = Some p /\ x = TRun None p).
  { intros i x. rewrite nth_error_map. destruct (nth_error ps i); [|discriminate]. cbn. intros H. injection H as <-. eauto. }
  split; cbn [start threads pool lost cmutex].
  - unfold in_use. cbn [threads]. assert (E : flat_map has (map (TRun (R := R) None) ps) = []) by (clear; induction ps; cbn; auto). cbn [start threads]. rewrite E. cbn [app]. rewrite app_nil_r. reflexivity.
  - intros i. split; [discriminate|]. intros (h & p & X). destruct (HN _ _ X) as (q & _ & Y). discriminate.
  - intros X. apply existsb_exists in X as (y & Hy & AY). apply in_map_iff in Hy as (p & <- & _). discriminate.
  - destruct HS as [S1 S2]. exists ds0. split.
    + split; auto. split; [apply map_length|]. intros i p0 x E X. destruct (HN _ _ X) as (p & Y & ->). assert (p = p0) by congruence. subst p.
      destruct (nth_error ds0 i) as [d|] eqn:ED; [|apply nth_error_None in ED; assert (i < List.length ps) by (apply nth_error_Some; congruence); lia]. exists d. split; auto. split; [constructor|]. cbn. eauto.
    + unfold budget. replace (phases (map (TRun None) ps)) with (2 * List.length ps); [cbn; lia|]. clear. unfold phases, list_sum. induction ps as [|a l IH]; [reflexivity|]. cbn [map phase fold_right List.length]. lia.
Qed.
Lemma inv_steps t s : csteps (start n ps) t s -> inv budget t s.
Proof.
  intros H. remember (start n ps) as s0 eqn:E. induction H as [s|s t s1 y s2 H IH HX]; subst; [apply inv_start|]. eapply inv_step; eauto.
Qed.
End Run.
