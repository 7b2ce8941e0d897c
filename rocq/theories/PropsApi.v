(** C39 and C40. Vocabulary: ApiSpec.v. *)
Require Import ZArith List Bool String Lia.
Require Import Verif.Base Verif.World Verif.Api Verif.ApiSpec.
Import ListNotations.
Open Scope Z_scope.

(** *** C39 *)
Definition inv (m : memory) : Prop :=
  owned m /\ (forall p n, In (p, n) (h_live (fst m)) -> p < h_next (fst m)) /\ (forall i, df_ptr (snd m i) = None -> df_count (snd m i) = 0).

Lemma find_live h p n : In (p, n) (h_live h) -> existsb (fun x => fst x =? p) (h_live h) = true.
Proof. intros H. apply existsb_exists. exists (p, n). split; auto. apply Z.eqb_refl. Qed.
Lemma nodup_filter {X} (f : X * Z -> bool) : forall l : list (X * Z), NoDup (map fst l) -> NoDup (map fst (filter f l)).
Proof.
  induction l as [|x l IH]; cbn; intros H; auto. inversion H as [|? ? A B]; subst. destruct (f x); cbn; auto. constructor; auto.
  intros C. apply A. apply in_map_iff in C as (y & <- & Hy). apply filter_In in Hy as [Hy _]. apply in_map. exact Hy.
Qed.

Lemma destroy_inv i m : inv m -> exists h, destroy_dims (fst m, snd m i) = ((h, mkdf None 0), Ok tt) /\ h_next h = h_next (fst m) /\
  inv (h, fun j => if Nat.eqb j i then mkdf None 0 else snd m j) /\ (forall p n, In (p, n) (h_live h) -> In (p, n) (h_live (fst m))).
Proof.
  destruct m as [h f]. cbn [fst snd]. intros ((ND & LV & UQ) & NX & CT). unfold destroy_dims. cbn [fst snd] in *. destruct (f i) as [[p|] c] eqn:Fi; cbn [df_ptr].
  - assert (HL : In (p, c) (h_live h)) by (apply LV; eauto). unfold heap_free. rewrite (find_live _ _ _ HL). eexists. split; [reflexivity|]. split; [reflexivity|]. split.
    + split; [split; [|split]|split]; cbn [fst snd h_live h_next].
      * apply nodup_filter. exact ND.
      * intros q n. rewrite filter_In. cbn [fst]. rewrite LV. split.
        -- intros [(j & Hj) Hq]. exists j. destruct (Nat.eqb_spec j i) as [?E|]; try subst j; auto. exfalso. rewrite Fi in Hj. injection Hj as -> ->. rewrite Z.eqb_refl in Hq. discriminate.
        -- intros (j & Hj). destruct (Nat.eqb_spec j i) as [?E|Hne]; try subst j; [discriminate|]. split; [eauto|]. destruct (Z.eqb_spec q p) as [->|]; auto. exfalso. apply Hne. exact (UQ j i p n c Hj Fi).
      * intros j k q n n'. destruct (Nat.eqb_spec j i); [discriminate|]. destruct (Nat.eqb_spec k i); [discriminate|]. apply UQ.
      * intros q n Hq. apply filter_In in Hq as [Hq _]. eapply NX; eauto.
      * intros j. destruct (Nat.eqb_spec j i); auto.
    + intros q n Hq. apply filter_In in Hq as [Hq _]. exact Hq.
  - eexists. split; [reflexivity|]. split; [reflexivity|]. split; [|auto].
    split; [split; [|split]|split]; cbn [fst snd]; auto.
    + intros q n. rewrite LV. split; intros (j & Hj); exists j; destruct (Nat.eqb_spec j i) as [?E|]; try subst j; auto; congruence.
    + intros j k q n n'. destruct (Nat.eqb_spec j i); [discriminate|]. destruct (Nat.eqb_spec k i); [discriminate|]. apply UQ.
    + intros j. destruct (Nat.eqb_spec j i); auto.
Qed.

Lemma create_inv i mem n m : inv m ->
  (n < 3 /\ create_dims mem n (fst m, snd m i) = ((fst m, snd m i), Ok st_invalid_argument)) \/
  (3 <= n /\ mem = false /\ create_dims mem n (fst m, snd m i) = ((fst m, snd m i), Ok st_out_of_memory)) \/
  (3 <= n /\ mem = true /\ exists h p, create_dims mem n (fst m, snd m i) = ((h, mkdf (Some p) n), Ok st_success) /\
     inv (h, fun j => if Nat.eqb j i then mkdf (Some p) n else snd m j)).
Proof.
  intros I. unfold create_dims. destruct m as [h f]. cbn [fst snd]. destruct (Z.ltb_spec n 3) as [H|H]; [left; auto|]. right. destruct mem; [right|left; auto].
  split; auto. split; auto.
  (* the new array, seen as owned by a struct of its own while the old one is freed *)
  destruct I as ((ND & LV & UQ) & NX & CT). cbn [fst snd] in *. set (p := h_next h).
  unfold destroy_dims, bind. destruct (f i) as [[q|] c] eqn:Fi; cbn [df_ptr].
  - assert (HL : In (q, c) (h_live h)) by (apply LV; eauto). assert (Hqp : q <> p) by (pose proof (NX q c HL); unfold p; lia).
    unfold heap_free. cbn [h_live]. cbn [existsb]. rewrite (find_live _ _ _ HL), orb_true_r. eexists. exists p. split; [reflexivity|].
    cbn [filter fst]. destruct (Z.eqb_spec p q) as [X|_]; [exfalso; auto|]. cbn [negb].
    split; [split; [|split]|split]; cbn [fst snd h_live h_next].
    + cbn [map fst]. constructor; [|apply nodup_filter; exact ND]. intros C. apply in_map_iff in C as ((a & b) & Ha & Hb). cbn in Ha. subst a. apply filter_In in Hb as [Hb _]. pose proof (NX _ _ Hb). unfold p in *. lia.
    + intros r k. cbn [In]. rewrite filter_In. cbn [fst]. split.
      * intros [E|[Hr Hq]]; [injection E as <- <-; exists i; rewrite Nat.eqb_refl; reflexivity|]. apply LV in Hr as (j & Hj). exists j. destruct (Nat.eqb_spec j i) as [?E|]; try subst j; auto. exfalso. rewrite Fi in Hj. injection Hj as -> ->. rewrite Z.eqb_refl in Hq. discriminate.
      * intros (j & Hj). destruct (Nat.eqb_spec j i) as [?E|Hne]; try subst j; [left; congruence|]. right. split; [apply LV; eauto|]. destruct (Z.eqb_spec r q) as [->|]; auto. exfalso. apply Hne. exact (UQ j i q k c Hj Fi).
    + intros j k r a b Hj Hk. destruct (Nat.eqb_spec j i) as [?E|N1]; destruct (Nat.eqb_spec k i) as [?E|N2]; try subst j; try subst k; auto.
      * injection Hj as <- <-. exfalso. pose proof (NX p b ltac:(apply LV; eauto)). unfold p in *. lia.
      * injection Hk as <- <-. exfalso. pose proof (NX p a ltac:(apply LV; eauto)). unfold p in *. lia.
      * eapply UQ; eauto.
    + intros r k [E|Hr]; [injection E as <- <-; lia|]. apply filter_In in Hr as [Hr _]. pose proof (NX _ _ Hr). unfold p. lia.
    + intros j. destruct (Nat.eqb_spec j i); [discriminate|auto].
  - eexists. exists p. split; [reflexivity|]. split; [split; [|split]|split]; cbn [fst snd h_live h_next].
    + cbn [map fst]. constructor; auto. intros C. apply in_map_iff in C as ((a & b) & Ha & Hb). cbn in Ha. subst a. pose proof (NX _ _ Hb). unfold p in *. lia.
    + intros r k. cbn [In]. rewrite LV. split.
      * intros [E|(j & Hj)]; [injection E as <- <-; exists i; rewrite Nat.eqb_refl; reflexivity|]. exists j. destruct (Nat.eqb_spec j i) as [?E|]; try subst j; auto. congruence.
      * intros (j & Hj). destruct (Nat.eqb_spec j i) as [?E|Hne]; try subst j; [left; congruence|right; eauto].
    + intros j k r a b Hj Hk. destruct (Nat.eqb_spec j i) as [?E|N1]; destruct (Nat.eqb_spec k i) as [?E|N2]; try subst j; try subst k; auto.
      * injection Hj as <- <-. exfalso. pose proof (NX p b ltac:(apply LV; eauto)). unfold p in *. lia.
      * injection Hk as <- <-. exfalso. pose proof (NX p a ltac:(apply LV; eauto)). unfold p in *. lia.
      * eapply UQ; eauto.
    + intros r k [E|Hr]; [injection E as <- <-; lia|]. pose proof (NX _ _ Hr). unfold p. lia.
    + intros j. destruct (Nat.eqb_spec j i); [discriminate|auto].
Qed.

(** what one call does *)
Definition call_effect (c : call) (m m' : memory) (r : option Z) : Prop :=
  match c with
  | CDestroy i => snd m' i = mkdf None 0 /\ (forall j, j <> i -> snd m' j = snd m j) /\ r = None
  | CCreate i mem n =>
      if (3 <=? n) && mem then (exists p, snd m' i = mkdf (Some p) n) /\ (forall j, j <> i -> snd m' j = snd m j) /\ r = Some st_success
      else fst m' = fst m /\ (forall j, snd m' j = snd m j) /\ r = Some (if 3 <=? n then st_out_of_memory else st_invalid_argument)
  end.
Lemma call_inv c m : inv m -> exists m' r, do_call c m = Ok (m', r) /\ inv m' /\ call_effect c m m' r.
Proof.
  intros I. destruct c as [i mem n|i]; unfold do_call, call_effect.
  - destruct (create_inv i mem n m I) as [(A & R)|[(A & -> & R)|(A & -> & h & p & R & J)]]; rewrite R.
    + replace (3 <=? n) with false by (symmetry; apply Z.leb_gt; lia). cbn [andb]. eexists. eexists. split; [reflexivity|].
      assert (X : forall j, (if Nat.eqb j i then snd m i else snd m j) = snd m j) by (intros j; destruct (Nat.eqb_spec j i); congruence).
      split; [|cbn [fst snd]; auto]. destruct I as ((ND & LV & UQ) & NX & CT). split; [split; [|split]|split]; cbn [fst snd]; auto.
      * intros a b. rewrite LV. split; intros (j & Hj); exists j; rewrite X in *; auto.
      * intros j k a b c. rewrite !X. apply UQ.
      * intros j. rewrite X. auto.
    + replace (3 <=? n) with true by (symmetry; apply Z.leb_le; lia). cbn [andb]. eexists. eexists. split; [reflexivity|].
      assert (X : forall j, (if Nat.eqb j i then snd m i else snd m j) = snd m j) by (intros j; destruct (Nat.eqb_spec j i); congruence).
      split; [|cbn [fst snd]; auto]. destruct I as ((ND & LV & UQ) & NX & CT). split; [split; [|split]|split]; cbn [fst snd]; auto.
      * intros a b. rewrite LV. split; intros (j & Hj); exists j; rewrite X in *; auto.
      * intros j k a b c. rewrite !X. apply UQ.
      * intros j. rewrite X. auto.
    + replace (3 <=? n) with true by (symmetry; apply Z.leb_le; lia). cbn [andb]. eexists. eexists. split; [reflexivity|]. split; [exact J|].
      cbn [fst snd]. rewrite Nat.eqb_refl. split; [eauto|]. split; auto. intros j Hj. destruct (Nat.eqb_spec j i); congruence.
  - destruct (destroy_inv i m I) as (h & R & _ & J & _). rewrite R. eexists. eexists. split; [reflexivity|]. split; [exact J|]. cbn [fst snd]. rewrite Nat.eqb_refl. split; auto. split; auto.
    intros j Hj. destruct (Nat.eqb_spec j i); congruence.
Qed.
Lemma fresh_inv : inv fresh.
Proof.
  split; [split; [|split]|split]; cbn; auto.
  - constructor.
  - intros p n. split; [intros []|intros (i & H); discriminate].
  - discriminate.
  - intros p n [].
Qed.
Lemma calls_inv l : forall m, inv m -> exists m', do_calls l m = Ok m' /\ inv m'.
Proof. induction l as [|c l IH]; intros m I; cbn; [eauto|]. destruct (call_inv c m I) as (m' & r & -> & I' & _). apply IH. exact I'. Qed.

(** No sequence of calls is undefined behaviour (nothing is freed twice), and afterwards exactly the arrays the structs point to are live. *)
Theorem C39_ownership : forall l, exists m, do_calls l fresh = Ok m /\ owned m.
Proof. intros l. destruct (calls_inv l fresh fresh_inv) as (m & R & I & _). eauto. Qed.
(** The effect and result of every call after any sequence of calls: a create that fails changes nothing, one that succeeds gives the struct an
    array of the requested length and leaves the other structs alone, destroy clears the struct. *)
Theorem C39_each_call : forall l m c, do_calls l fresh = Ok m ->
  exists m' r, do_call c m = Ok (m', r) /\ owned m' /\ call_effect c m m' r.
Proof.
  intros l m c R. destruct (calls_inv l fresh fresh_inv) as (m1 & R1 & I). rewrite R in R1. injection R1 as <-.
  destruct (call_inv c m I) as (m' & r & A & (B & _) & D). eauto.
Qed.
(** After destroying the array of every struct nothing is live. *)
Theorem C39_no_leak : forall l m, do_calls l fresh = Ok m -> (forall i, df_ptr (snd m i) = None) -> h_live (fst m) = [].
Proof.
  intros l m R H. destruct (C39_ownership l) as (m1 & R1 & _ & LV & _). rewrite R in R1. injection R1 as <-.
  destruct (h_live (fst m)) as [|[p n] t]; auto. destruct (proj1 (LV p n) ltac:(left; reflexivity)) as (i & Hi). specialize (H i). rewrite Hi in H. discriminate.
Qed.
Example C39_hypotheses : exists m, do_calls [CCreate 0 true 3; CCreate 1 true 5; CCreate 0 true 4; CCreate 1 true 2; CCreate 0 false 7; CDestroy 1; CDestroy 1] fresh = Ok m /\
  h_live (fst m) = [(3, 4)] /\ snd m 0%nat = mkdf (Some 3) 4 /\ snd m 1%nat = mkdf None 0.
Proof. eexists. repeat split. Qed.

(** *** C40 *)
(** The level is the last valid one set, or the initial one (Info) if none was. *)
Theorem C40_level : forall before x after, valid_level x -> (forall y, In y after -> ~ valid_level y) ->
  get_log_level (level_after (before ++ x :: after) initial_log_level) = x.
Proof.
  intros b x a Hx Ha. unfold get_log_level, level_after. rewrite fold_left_app. cbn [fold_left]. unfold set_log_level at 2. unfold valid_level in *.
  replace ((0 <=? x) && (x <=? 4)) with true by lia. cbn [snd]. clear Hx. induction a as [|y a IH]; cbn [fold_left]; auto.
  unfold set_log_level at 2. specialize (Ha y ltac:(left; reflexivity)) as Hy. replace ((0 <=? y) && (y <=? 4)) with false by lia. cbn [snd]. apply IH. intros z Hz. apply Ha. right. exact Hz.
Qed.
Theorem C40_initial_level : forall l, (forall y, In y l -> ~ valid_level y) -> get_log_level (level_after l initial_log_level) = 1.
Proof.
  intros l. unfold get_log_level, level_after. induction l as [|y a IH]; cbn [fold_left]; intros Ha; auto.
  unfold set_log_level at 2. specialize (Ha y ltac:(left; reflexivity)) as Hy. unfold valid_level in Hy. replace ((0 <=? y) && (y <=? 4)) with false by lia. cbn [snd]. apply IH. intros z Hz. apply Ha. right. exact Hz.
Qed.
Theorem C40_status : forall cur x,
  (valid_level x -> set_log_level cur x = (st_success, x)) /\ (~ valid_level x -> set_log_level cur x = (st_invalid_argument, cur)).
Proof.
  intros cur x. unfold set_log_level, valid_level. split; intros H.
  - replace ((0 <=? x) && (x <=? 4)) with true by lia. reflexivity.
  - replace ((0 <=? x) && (x <=? 4)) with false by lia. reflexivity.
Qed.
(** Messages (Debug 0, Info 1, Warning 2, Error 3) are emitted iff their level is at least the current one; with level None (4) none is.
    Errors go to the error stream, the others to the output stream. *)
Theorem C40_emitted : forall cur level, 0 <= level <= 3 ->
  (log_target cur level <> None <-> cur <= level) /\
  (log_target cur level = Some Cerr -> level = 3) /\ (log_target cur level = Some Cout -> level < 3).
Proof.
  intros cur level H. unfold log_target. destruct (Z.ltb_spec level cur).
  - split; [|split; discriminate]. split; [congruence|lia].
  - split; [split; [lia|discriminate]|]. assert (level = 0 \/ level = 1 \/ level = 2 \/ level = 3) as [->|[->|[->| ->]]] by lia; split; intros X; try discriminate; lia.
Qed.
(** The ten status codes (0 .. 9) have ten different messages, and no other code has one of them. *)
Theorem C40_messages : forall a b, 0 <= a <= 9 -> status_message a = status_message b -> a = b.
Proof.
  intros a b Ha. destruct (Z.leb_spec 0 b); [destruct (Z.leb_spec b 9)|].
  - assert (A : In a (map Z.of_nat (seq 0 10))) by (apply in_map_iff; exists (Z.to_nat a); rewrite in_seq; lia).
    assert (B : In b (map Z.of_nat (seq 0 10))) by (apply in_map_iff; exists (Z.to_nat b); rewrite in_seq; lia).
    cbn in A, B. decompose [or] A; try contradiction; subst a; decompose [or] B; try contradiction; subst b; vm_compute; intros X; (reflexivity || discriminate X).
  - assert (U : status_message b = "Unknown error"%string). { unfold status_message. repeat match goal with |- context [b =? ?k] => destruct (Z.eqb_spec b k); [exfalso; lia|] end. reflexivity. }
    rewrite U. assert (A : In a (map Z.of_nat (seq 0 10))) by (apply in_map_iff; exists (Z.to_nat a); rewrite in_seq; lia).
    cbn in A. decompose [or] A; try contradiction; subst a; vm_compute; intros X; discriminate X.
  - assert (U : status_message b = "Unknown error"%string). { unfold status_message. repeat match goal with |- context [b =? ?k] => destruct (Z.eqb_spec b k); [exfalso; lia|] end. reflexivity. }
    rewrite U. assert (A : In a (map Z.of_nat (seq 0 10))) by (apply in_map_iff; exists (Z.to_nat a); rewrite in_seq; lia).
    cbn in A. decompose [or] A; try contradiction; subst a; vm_compute; intros X; discriminate X.
Qed.
Example C40_hypotheses : valid_level 3 /\ (forall y, In y [7; -1] -> ~ valid_level y) /\ level_after ([2; 9] ++ 3 :: [7; -1]) initial_log_level = 3 /\ log_target 3 2 = None /\ log_target 3 3 = Some Cerr.
Proof. split; [unfold valid_level; lia|]. split; [intros y [<-|[<-|[]]]; unfold valid_level; lia|]. repeat split. Qed.

Print Assumptions C39_ownership.
Print Assumptions C39_each_call.
Print Assumptions C39_no_leak.
Print Assumptions C40_level.
Print Assumptions C40_initial_level.
Print Assumptions C40_status.
Print Assumptions C40_emitted.
Print Assumptions C40_messages.
