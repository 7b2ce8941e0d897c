(** When a call can block for ever: a stream (Zarr V2 on S3), from its creation to its end. *)
Require Import ZArith List Bool String Ascii Lia.
Require Import Verif.Base Verif.Spec Verif.Dim Verif.Limits Verif.Radix Verif.Json Verif.World Verif.Writer Verif.Stream Verif.Api Verif.SettingsSpec Verif.SessionSpec.
Require Import Verif.StreamProofs Verif.PyramidProofs Verif.ValidProofs Verif.SafeStream Verif.LiveSpec Verif.LiveProofs Verif.LiveArray.
Require Verif.SafeProofs.
Import ListNotations.
Open Scope string_scope. Open Scope list_scope. Open Scope Z_scope.

Lemma lt_and {S A} E t0 C (wd : S -> world) hg P1 P2 (m : M S A) Q1 Q2 R1 R2 : SafeProofs.tri hg P1 m Q1 R1 -> lt E t0 C wd P2 m Q2 R2 ->
  lt E t0 C wd (fun s => P1 s /\ P2 s) m (fun v s => Q1 v s /\ Q2 v s) (fun s => R1 s /\ R2 s).
Proof. intros H1 H2 s [X1 X2]. specialize (H1 s X1). specialize (H2 s X2). destruct (m s) as [s' [v|e| |]]; auto. Qed.

Section Str.
Variables (E : env) (t0 C : nat).
Notation G := (G E t0). Notation lt := (lt E t0 C). Notation qt := (qt E t0 C).
Notation lT := (lt (fun tw : TW => snd tw)).
Definition cw (a : writer) : nat := co (a_meta a).
Definition cm (ks : string * option sink) : nat := co (snd ks).
Definition T (K : nat) (tw : TW) : Prop :=
  (Forall basic (s_writers (fst tw)) /\ Forall (fun ks => vo (snd ks)) (s_msinks (fst tw))) /\ G (K + tot cw (s_writers (fst tw)) + tot cm (s_msinks (fst tw))) (snd tw).
Lemma l_getT {A} P (f : stream -> M TW A) Q R : (forall s, lT (fun tw => P tw /\ fst tw = s) (f s) Q R) -> lT P (s <- getT ;; f s) Q R.
Proof. intros H [a w] X. unfold bind, getT. cbn [fst]. apply H. auto. Qed.
Lemma l_getT' {A} P (f : stream -> M TW A) Q R : (forall s, lT P (f s) Q R) -> lT P (s <- getT ;; f s) Q R.
Proof. intros H. apply l_getT. intros a. eapply l_pre; [apply H|]. intros x X; exact (proj1 X). Qed.
Lemma l_modT (P : TW -> Prop) (f : stream -> stream) (Q : unit -> TW -> Prop) R : (forall s w, P (s, w) -> Q tt (f s, w)) -> lT P (modT f) Q R.
Proof. intros H [a w] X. unfold modT. cbn [fst snd]. auto. Qed.
Lemma l_onT {A} (P : stream -> world -> Prop) (m : M world A) (Q : stream -> A -> world -> Prop) (R : stream -> world -> Prop) :
  (forall s, lt idw (P s) m (Q s) (R s)) -> lT (fun tw => P (fst tw) (snd tw)) (onT m) (fun v tw => Q (fst tw) v (snd tw)) (fun tw => R (fst tw) (snd tw)).
Proof. intros H [s w] X. cbn in X. specialize (H s w X). unfold onT. cbn [fst snd]. destruct (m w) as [w' [v|e| |]]; cbn; auto. Qed.
Lemma T_onT {A} K (m : M world A) : qt m -> lT (T K) (onT m) (fun _ => T K) (T K).
Proof.
  intros H. set (F := fun s => Forall basic (s_writers s) /\ Forall (fun ks : string * option sink => vo (snd ks)) (s_msinks s)). set (n := fun s => (K + tot cw (s_writers s) + tot cm (s_msinks s))%nat).
  apply (l_onT (fun s w => F s /\ G (n s) w) m (fun s _ w => F s /\ G (n s) w) (fun s w => F s /\ G (n s) w)). intros s. apply l_fact. intros X.
  eapply l_weak; [apply (H (n s))|intros x Y; exact Y|intros v x Y; split; [exact X|exact Y]|intros x Y; split; [exact X|exact Y]].
Qed.
Lemma T_G K tw : T K tw -> G K (snd tw).
Proof. intros [_ g]. eapply G_le; [|exact g]. lia. Qed.

Lemma l_on_writer {A} K i (m : M AW A) : (forall K', (C <= K')%nat -> lt (fun aw : AW => snd aw) (J E t0 K') m (fun _ => J E t0 K') (J E t0 K')) -> (C <= K)%nat -> lT (T K) (on_writer i m) (fun _ => T K) (T K).
Proof.
  intros H HK [s w] [[B M] g]. cbn [fst snd] in *. unfold on_writer. destruct (nth_error (s_writers s) i) as [a|] eqn:Na; [|exact Logic.I].
  destruct (tot_nth_error cw (s_writers s) i a a Na) as [_ Le]. pose proof (proj1 (Forall_forall _ _) B a (nth_error_In _ _ Na)) as Ba.
  set (K' := (K + (tot cw (s_writers s) - cw a) + tot cm (s_msinks s))%nat).
  assert (Ja : J E t0 K' (a, w)). { split; [exact Ba|]. eapply G_le; [|exact g]. cbn [fst]. unfold K', cw in *. lia. }
  pose proof (H K' ltac:(unfold K'; lia) (a, w) Ja) as Tm. destruct (m (a, w)) as [[a' w'] [v|e| |]]; auto; destruct Tm as [T1 T2]; cbn [fst snd] in *; destruct (tot_nth_error cw (s_writers s) i a a' Na) as [Eq _];
  (split; cbn [fst snd s_writers s_msinks set_writers]; [split; [apply Forall_upd; auto|exact M]|eapply G_le; [|exact T2]; unfold K', cw in *; lia]).
Qed.
Lemma l_frame K i data : (C <= K)%nat -> lT (T K) (on_writer i (write_frame E data)) (fun _ => T K) (T K).
Proof. intros HK. apply l_on_writer; auto. intros K' HK'. apply l_write_frame. exact HK'. Qed.
Lemma nh_quarter dt n : noh (quarter dt n). Proof. unfold quarter. nh. Qed.
Lemma nh_scale dt bpp d n w h : noh (scale_image dt bpp d n w h).
Proof. unfold scale_image. cbn zeta. nh. apply nh_quarter. Qed.
Lemma l_multi_loop K bpp : (C <= K)%nat -> forall fuel i data nb w h, lT (T K) (multiscale_loop E bpp fuel i data nb w h) (fun _ => T K) (T K).
Proof.
  intros HK. induction fuel as [|f IH]; intros i data nb w h; cbn [multiscale_loop]; [apply l_ret; auto|]. apply l_getT'. intros s.
  apply l_bind with (Q := fun _ => T K); [apply l_lift; auto; apply nh_scale|]. intros [[[px nb'] w'] h']. destruct (nth i (s_scaled s) None) as [old|]; [|apply l_modT; auto].
  cbn zeta. apply l_bind with (Q := fun _ => T K); [apply l_frame; exact HK|]. intros n. apply l_bind with (Q := fun _ => T K); [apply l_expect; auto|]. intros _.
  apply l_bind with (Q := fun _ => T K); [apply l_modT; auto|]. intros _. apply IH.
Qed.
Lemma l_multi K data n : (C <= K)%nat -> lT (T K) (write_multiscale E data n) (fun _ => T K) (T K).
Proof.
  intros HK. unfold write_multiscale. apply l_getT'. intros s. destruct (s_multi s); [|apply l_ret; auto]. destruct (_ <=? _); [apply l_throw; auto|].
  apply l_bind with (Q := fun _ => T K); [apply l_lift; auto; apply nh_type|]. intros bpp. apply l_multi_loop. exact HK.
Qed.

(** *** Metadata *)
Lemma l_write_metadata K key data err : (C <= K)%nat -> lT (T K) (write_metadata E key data err) (fun _ => T K) (T K).
Proof.
  intros HK [s w] [[B M] g]. cbn [fst snd] in *. unfold write_metadata. destruct (find_key key (s_msinks s)) as [i|]; [|split; [split; auto|exact g]].
  destruct (nth i (s_msinks s) (key, None)) as [k [sk|]] eqn:Ni.
  2: { pose proof (T_onT K (set_error ("Metadata sink '" ++ key ++ "'not found")%string ;;; ret false) ltac:(apply q_bind; [apply q_err|intros; apply q_ret]) (s, w)) as X. apply X. split; auto. }
  assert (Vk : vk sk). { destruct (nth_in_or_default i (s_msinks s) (key, None)) as [X|X]; [|congruence]. rewrite Ni in X. apply (proj1 (Forall_forall _ _) M _ X). }
  pose proof (tot_nth cm (s_msinks s) i (key, None) eq_refl) as Le. rewrite Ni in Le. unfold cm at 1 in Le. cbn [snd co] in Le.
  set (K' := (K + tot cw (s_writers s) + (tot cm (s_msinks s) - ck sk))%nat).
  assert (Kp : Kk E t0 K' (sk, w)). { split; [exact Vk|]. eapply G_le; [|exact g]. cbn [fst]. unfold K'. lia. }
  pose proof (k_write E t0 C K' data ltac:(unfold K'; lia) (sk, w) Kp) as X.
  assert (U : forall sk' w', Kk E t0 K' (sk', w') -> T K (set_msinks s (upd (s_msinks s) i (k, Some sk')), w')).
  { intros sk' w' [X1 X2]. cbn [fst snd] in *. pose proof (tot_upd cm (s_msinks s) i (k, Some sk') (key, None) eq_refl) as Y. rewrite Ni in Y. unfold cm at 2 4 in Y. cbn [snd co] in Y.
    split; cbn [fst snd s_writers s_msinks set_msinks]; [split; [exact B|apply Forall_upd; auto]|]. eapply G_le; [|exact X2]. unfold K'. lia. }
  destruct (sink_write E 0 data (sk, w)) as [[sk' w'] [[|]|e| |]]; auto.
  specialize (U _ _ X). apply (T_onT K (set_error err ;;; ret false) ltac:(apply q_bind; [apply q_err|intros; apply q_ret]) _ U).
Qed.
Lemma l_base K : (C <= K)%nat -> lT (T K) (write_base_metadata E) (fun _ => T K) (T K).
Proof. intros HK. unfold write_base_metadata. apply l_getT'. intros s. destruct (base_metadata s). apply l_write_metadata. exact HK. Qed.
Lemma l_group K : (C <= K)%nat -> lT (T K) (write_group_metadata E) (fun _ => T K) (T K).
Proof. intros HK. unfold write_group_metadata. apply l_getT'. intros s. destruct (group_metadata s). apply l_write_metadata. exact HK. Qed.
Lemma l_ext K : (C <= K)%nat -> lT (T K) (write_external_metadata E) (fun _ => T K) (T K).
Proof. intros HK. unfold write_external_metadata. apply l_getT'. intros s. destruct (String.eqb _ _); [apply l_ret; auto|]. apply l_write_metadata. exact HK. Qed.

Lemma tot_fresh (l : list (string * option sink)) : Forall (fun ks => fresh_o (snd ks)) l -> tot cm l = 0%nat.
Proof. intros F. induction F as [|x l [_ X] F IH]; [reflexivity|]. rewrite tot_cons, IH. unfold cm. rewrite X. reflexivity. Qed.
Lemma l_create_meta K : (C <= K)%nat -> lT (fun tw => T K tw /\ s_bucket (fst tw) <> None) (create_metadata_sinks E) (fun _ => T K) (T K).
Proof.
  intros HK. unfold create_metadata_sinks. apply l_getT. intros s. cbn zeta.
  destruct (s_bucket s) as [b|] eqn:Hb. 2: { intros [s' w] [[_ X] Y]. cbn [fst] in *. congruence. }
  eapply l_bind with (Q := fun o tw => (forall l, o = Some l -> Forall (fun ks => fresh_o (snd ks)) l) /\ T K tw).
  - eapply l_pre with (P := T K); [|intros x X; exact (proj1 (proj1 X))].
    set (F := fun s => Forall basic (s_writers s) /\ Forall (fun ks : string * option sink => vo (snd ks)) (s_msinks s)). set (n := fun s => (K + tot cw (s_writers s) + tot cm (s_msinks s))%nat).
    set (V := fun o : option (list (string * option sink)) => forall l, o = Some l -> Forall (fun ks => fresh_o (snd ks)) l).
    eapply l_weak; [apply (l_onT (fun s w => F s /\ G (n s) w) _ (fun s v w => V v /\ (F s /\ G (n s) w)) (fun s w => F s /\ G (n s) w))|intros x X; exact X|intros v x X; exact X|intros x X; exact X].
    intros s'. apply l_fact. intros X.
    eapply l_weak with (Q := fun v w => V v /\ G (n s') w) (R := G (n s')); [|intros x Y; exact Y|intros v x [Y1 Y2]; split; [exact Y1|split; [exact X|exact Y2]]|intros x Y; split; [exact X|exact Y]].
    assert (Hn : (C <= n s')%nat) by (unfold n; lia).
    apply l_catch with (R1 := G (n s')).
    2: { intros e. apply l_bind with (Q := fun _ => G (n s')); [intros x Y; exact Y|]. intros _. apply l_ret. intros x Y. split; [discriminate|exact Y]. }
    eapply l_bind; [apply (l_metas_s3 E t0 C (n s')); exact Hn|]. intros [l|]; apply l_fact; intros Fl; [apply l_ret; intros x Y; split; [exact Fl|exact Y]|].
    apply l_bind with (Q := fun _ => G (n s')); [intros x Y; exact Y|]. intros _. apply l_ret. intros x Y. split; [discriminate|exact Y].
  - intros [l|]; apply l_fact; intros F; [|apply l_ret; auto]. specialize (F l eq_refl). apply l_bind with (Q := fun _ => T K); [|intros _; apply l_ret; auto].
    apply l_modT. intros s' w [[X1 X2] X3]. cbn [fst snd] in *. split; cbn [fst snd s_writers s_msinks set_msinks]; [split; [exact X1|]|].
    + eapply Forall_impl; [|exact F]. intros o [O _]. exact O.
    + rewrite (tot_fresh l F). eapply G_le; [|exact X3]. lia.
Qed.
Lemma l_opening K : (C <= K)%nat -> lT (fun tw => T K tw /\ s_bucket (fst tw) <> None) (opening E) (fun _ => T K) (T K).
Proof.
  intros HK. unfold opening. apply l_bind with (Q := fun _ => T K); [apply l_create_meta; exact HK|]. intros o1. apply l_bind with (Q := fun _ => T K); [apply l_expect; auto|]. intros _.
  apply l_bind with (Q := fun _ => T K); [apply l_base; exact HK|]. intros o2. apply l_bind with (Q := fun _ => T K); [apply l_expect; auto|]. intros _.
  apply l_bind with (Q := fun _ => T K); [apply l_group; exact HK|]. intros o3. apply l_bind with (Q := fun _ => T K); [apply l_expect; auto|]. intros _.
  apply l_bind with (Q := fun _ => T K); [apply l_ext; exact HK|]. intros o4. apply l_expect; auto.
Qed.

(** *** The end of the stream *)
(** the metadata sinks from number i on are still to be finalized *)
Definition TM (K i : nat) (tw : TW) : Prop :=
  (Forall basic (s_writers (fst tw)) /\ Forall (fun ks => vo (snd ks)) (skipn i (s_msinks (fst tw)))) /\ G (K + tot cw (s_writers (fst tw)) + tot cm (skipn i (s_msinks (fst tw)))) (snd tw).
Lemma TM_G K i tw : TM K i tw -> G K (snd tw).
Proof. intros [_ g]. eapply G_le; [|exact g]. lia. Qed.
Definition TA (K i : nat) (tw : TW) : Prop := Forall basic (skipn i (s_writers (fst tw))) /\ G (K + tot cw (skipn i (s_writers (fst tw)))) (snd tw).
Lemma TM_A K i tw : TM K i tw -> TA K 0 tw.
Proof. intros [[a b] c]. split; [exact a|]. eapply G_le; [|exact c]. cbn [skipn]. lia. Qed.
Lemma TA_G K i tw : TA K i tw -> G K (snd tw).
Proof. intros [_ g]. eapply G_le; [|exact g]. lia. Qed.
Lemma l_close_metas K : (C <= K)%nat -> forall n i, lT (TM K i) (all_ok (finalize_msink E) (seq i n)) (fun _ => TA K 0) (fun tw => G K (snd tw)).
Proof.
  intros HK. induction n as [|n IH]; intros i; cbn [seq all_ok]; [apply l_ret; apply TM_A|].
  apply l_bind with (Q := fun _ => TM K (S i)); [|intros [|]; [apply IH|apply l_ret; apply TM_A]].
  intros [s w] [[B M] g]. cbn [fst snd] in *. unfold finalize_msink. destruct (nth_error (s_msinks s) i) as [[k o]|] eqn:Ni; [|exact Logic.I].
  rewrite (skip_nth _ _ _ Ni), tot_cons in g. rewrite (skip_nth _ _ _ Ni) in M. inversion M as [|? ? M1 M2]; subst. cbn [snd] in M1. unfold cm at 1 in g. cbn [snd] in g.
  set (K' := (K + tot cw (s_writers s) + tot cm (skipn (S i) (s_msinks s)))%nat).
  assert (Op : Oo E t0 K' (o, w)). { split; [exact M1|]. eapply G_le; [|exact g]. cbn [fst]. unfold K'. lia. }
  pose proof (o_finalize E t0 C K' ltac:(unfold K'; lia) (o, w) Op) as X. destruct (finalize_sink E (o, w)) as [[o' w'] [v|e| |]]; auto; cbn [fst snd] in *.
  - split; cbn [fst snd s_writers s_msinks set_msinks]; rewrite skip_upd; [split; auto|exact X].
  - eapply G_le; [|exact X]. unfold K'. lia.
Qed.
Lemma l_close_arrays K : (C <= K)%nat -> forall n i, lT (TA K i) (all_ok (fun i => on_writer i (finalize_array E)) (seq i n)) (fun _ tw => G K (snd tw)) (fun tw => G K (snd tw)).
Proof.
  intros HK. induction n as [|n IH]; intros i; cbn [seq all_ok]; [apply l_ret; apply TA_G|].
  apply l_bind with (Q := fun _ => TA K (S i)); [|intros [|]; [apply IH|apply l_ret; apply TA_G]].
  intros [s w] [B g]. cbn [fst snd] in *. unfold on_writer. destruct (nth_error (s_writers s) i) as [a|] eqn:Na; [|exact Logic.I].
  rewrite (skip_nth _ _ _ Na), tot_cons in g. rewrite (skip_nth _ _ _ Na) in B. inversion B as [|? ? B1 B2]; subst.
  set (K' := (K + tot cw (skipn (S i) (s_writers s)))%nat).
  assert (Jp : J E t0 K' (a, w)). { split; [exact B1|]. eapply G_le; [|exact g]. cbn [fst]. unfold K', cw. lia. }
  pose proof (l_finalize E t0 C K' ltac:(unfold K'; lia) (a, w) Jp) as X. destruct (finalize_array E (a, w)) as [[a' w'] [v|e| |]]; auto; cbn [fst snd] in *.
  - split; cbn [fst snd s_writers set_writers]; rewrite skip_upd; auto.
  - eapply G_le; [|exact X]. unfold K'. lia.
Qed.
Lemma l_destroy K : (C <= K)%nat -> lT (T K) (api_destroy E) (fun _ tw => G K (snd tw)) (fun tw => G K (snd tw)).
Proof.
  intros HK. unfold api_destroy, finalize_stream. apply l_bind with (Q := fun _ => T K); [eapply l_weak; [apply l_group; exact HK|auto|auto|apply T_G]|]. intros [|]; [|apply l_ret; apply T_G].
  apply l_getT'. intros s. apply l_bind with (Q := fun _ => TA K 0). { eapply l_pre; [apply l_close_metas; exact HK|]. intros x X. exact X. }
  intros [|]; [|apply l_ret; apply TA_G]. apply l_bind with (Q := fun _ => TA K 0); [apply l_modT; intros s' w X; exact X|]. intros _. apply l_getT'. intros s'.
  apply l_bind with (Q := fun _ tw => G K (snd tw)); [apply l_close_arrays; exact HK|]. intros [|]; [|apply l_ret; auto]. apply l_bind with (Q := fun _ tw => G K (snd tw)); [apply l_modT; auto|]. intros _. apply l_ret. auto.
Qed.

(** *** Appending *)
Section App.
Variables (v3 fs : bool) (bpp dt : Z) (g0 : geo) (gs : list geo).
Hypothesis Hbpp : bytes_of_type dt = Ok bpp.
Hypothesis Hkind : v3 = true -> fs = true.
Hypothesis HQ : fs = true -> forall k q, e_stat E k q = true.
Hypothesis Hch : chain v3 fs bpp dt g0 gs.
Hypothesis Hdtc : dt < dt_count.
Notation Tt := (Ti v3 fs bpp dt g0 gs true).
Notation frameb := (frameb bpp).
Lemma l_append_loop K data : (C <= K)%nat -> forall k fuel pos, 0 <= pos -> zlen data = pos + Z.of_nat k * frameb g0 -> (k < fuel)%nat ->
  lT (fun tw => Tt tw /\ T K tw) (append_loop E fuel data pos pos) (fun _ tw => Tt tw /\ T K tw) (fun tw => Tt tw /\ T K tw).
Proof.
  intros HK. pose proof (frame_pos v3 fs bpp dt g0 (all_gok v3 fs bpp dt g0 gs Hch 0 g0 eq_refl)) as Fp.
  induction k as [|k IH]; intros fuel pos H0 Hz Hk; destruct fuel as [|f]; try lia; cbn [append_loop].
  - rewrite (proj2 (Z.ltb_ge pos _)) by lia. apply l_ret. auto.
  - rewrite (proj2 (Z.ltb_lt pos _)) by lia. apply l_getT. intros s.
    match goal with |- lt _ _ ?m _ _ => assert (L : sok v3 fs bpp dt g0 gs true s -> lT (fun tw => Tt tw /\ T K tw) m (fun _ tw => Tt tw /\ T K tw) (fun tw => Tt tw /\ T K tw)) end.
    2: { intros [s' w] [[X1 X2] X3]. cbn [fst] in X3. subst s'. apply (L X1). auto. }
    intros Hs. cbn zeta. rewrite (so_off _ _ _ _ _ _ _ _ Hs), (so_buf _ _ _ _ _ _ _ _ Hs). rewrite Z.ltb_irrefl.
    assert (Hk1 : Z.of_nat (S k) * frameb g0 = frameb g0 + Z.of_nat k * frameb g0) by lia.
    assert (0 <= Z.of_nat k * frameb g0) by (apply Z.mul_nonneg_nonneg; lia).
    rewrite (proj2 (Z.ltb_ge _ (frameb g0))) by lia. rewrite (proj2 (Z.ltb_ge (zlen data) _)) by lia.
    assert (Zs : zlen (slice data pos (frameb g0)) = frameb g0) by (apply slice_length; lia).
    eapply l_bind; [apply (lt_and _ _ _ _ _ _ _ _ _ _ _ _ (st_frame E v3 fs bpp dt Hbpp Hkind HQ g0 gs Hch 0 g0 _ eq_refl Zs) (l_frame K 0 _ HK))|].
    intros r. eapply l_pre with (P := fun tw => r = frameb g0 /\ (Tt tw /\ T K tw)); [|intros x [[X1 X2] X3]; rewrite X1, Zs; auto]. apply l_fact. intros ->. rewrite (proj2 (Z.eqb_neq (frameb g0) 0)) by lia.
    eapply l_bind with (Q := fun _ tw => Tt tw /\ T K tw); [apply (lt_and _ _ _ _ _ _ _ _ _ _ _ _ (st_multiscale E v3 fs bpp dt Hbpp Hkind HQ g0 gs Hch Hdtc _ Zs) (l_multi K _ _ HK))|].
    intros _. apply IH; lia.
Qed.
Lemma l_api_append K d : (C <= K)%nat -> wholes bpp g0 d -> lT (fun tw => Tt tw /\ T K tw) (api_append E (Some d) true) (fun _ tw => Tt tw /\ T K tw) (fun _ => False).
Proof.
  intros HK [k Hk]. unfold api_append. pose proof (frame_pos v3 fs bpp dt g0 (all_gok v3 fs bpp dt g0 gs Hch 0 g0 eq_refl)) as Fp.
  apply l_catch with (R1 := fun tw => Tt tw /\ T K tw); [|intros e; apply l_ret; auto].
  apply l_bind with (Q := fun _ tw => Tt tw /\ T K tw); [|intros n; apply l_ret; auto]. unfold append.
  apply l_bind with (Q := fun _ tw => Tt tw /\ T K tw); [intros [s w] X; exact X|]. intros w. apply l_bind with (Q := fun _ tw => Tt tw /\ T K tw); [apply l_expect; auto|]. intros _.
  apply (l_append_loop K d HK k); [lia|lia|]. unfold zlen in Hk. nia.
Qed.
Lemma l_appends K : (C <= K)%nat -> forall l, Forall (wholes bpp g0) l -> lT (fun tw => Tt tw /\ T K tw) (api_appends E l) (fun _ tw => Tt tw /\ T K tw) (fun _ => False).
Proof.
  intros HK. induction l as [|d l IH]; intros H; cbn [api_appends]; [apply l_ret; auto|]. inversion H; subst. eapply l_bind; [apply l_api_append; auto|]. intros r.
  eapply l_bind; [apply IH; auto|]. intros rs. apply l_ret. auto.
Qed.
End App.

(** *** Opening the store: [C] connections are tried *)
Lemma l_connections : forall n K, lt idw (G K) (open_connections E n) (fun _ => G (K + n)) (fun _ => False).
Proof.
  induction n as [|n IH]; intros K; cbn [open_connections]; [apply l_ret; intros x X; rewrite Nat.add_0_r; exact X|].
  eapply l_bind; [apply (l_request E t0 C K)|]. intros [ok i]. cbn [fst snd]. apply l_fact. intros _. apply l_bind with (Q := fun _ => G (S K)).
  - destruct ok; [|apply l_ret; intros x X; eapply G_le; [|exact X]; lia]. eapply l_pre; [apply (l_retc E t0 C (S K))|]. intros x X. eapply G_le; [|exact X]. lia.
  - intros _. eapply l_post; [apply IH|]. intros v x X. eapply G_le; [|exact X]. lia.
Qed.
End Str.
Lemma l_store E s t0 : s_bucket s <> None -> lt E t0 (e_conns E) idw (fun w => w_tick w = t0) (create_store E s) (fun _ => G E t0 (e_conns E)) (fun _ => False).
Proof.
  intros Hb. unfold create_store. destruct (s_bucket s) as [b|]; [|contradiction]. set (C := e_conns E).
  apply l_bind with (Q := fun _ => G E t0 0). { intros w X. cbn. split; cbn [w_tick w_conns]; [lia|lia]. }
  intros _. apply l_bind with (Q := fun _ => G E t0 C). { eapply l_post; [apply l_connections|]. intros v x X. exact X. }
  intros _. intros w g. unfold bind at 1, getM. destruct (Nat.eqb (w_conns w) 0); [exact g|].
  revert w g. apply l_bind with (Q := fun _ => G E t0 (C - 1)). { eapply l_weak; [apply (l_getc E t0 C C (le_n _))|auto|auto|intros ? []]. }
  intros _. eapply l_bind; [apply (l_request E t0 C (C - 1))|]. intros [ok i]. cbn [fst snd]. apply l_fact. intros _. destruct ok.
  - apply l_bind with (Q := fun _ => G E t0 C); [apply l_retc|]. intros _. apply l_ret. auto.
  - apply l_bind with (Q := fun _ => G E t0 C); [|intros _; apply l_ret; auto]. intros w X. cbn. eapply G_le; [|exact X]. lia.
Qed.

(** ** The session *)
Lemma made_fresh v3 c a : make_writer v3 c = Ok a -> a_v3 a = v3 /\ a_meta a = None.
Proof. unfold make_writer. destruct v3; [destruct (number_of_shards _); try discriminate; cbn; intros H; injection H as <-; auto|intros H; injection H as <-; auto]. Qed.
Lemma pyramid_fresh v3 : forall fuel c ws, pyramid fuel v3 c = Ok ws -> Forall (fun a => a_v3 a = v3 /\ a_meta a = None) ws.
Proof.
  induction fuel as [|f IH]; intros c ws; cbn [pyramid]; [discriminate|]. destruct (downsample c) as [[c' again]|e| |]; try discriminate. cbn [obind]. destruct (make_writer v3 c') as [a|e| |] eqn:M; try discriminate. cbn [obind].
  apply made_fresh in M. destruct again; [|intros H; injection H as <-; auto]. destruct (pyramid f v3 c') as [l|e| |] eqn:P; try discriminate. cbn [obind]. intros H. injection H as <-. constructor; eauto.
Qed.
Lemma writers_fresh s ws : create_writers s = Ok ws -> Forall (fun a => a_v3 a = s_v3 s /\ a_meta a = None) ws.
Proof.
  unfold create_writers. destruct (make_writer _ _) as [a|e| |] eqn:M; try discriminate. cbn [obind]. apply made_fresh in M. destruct (s_multi s); [|intros H; injection H as <-; auto].
  destruct (pyramid _ _ _) as [l|e| |] eqn:P; try discriminate. cbn [obind]. intros H. injection H as <-. constructor; auto. eapply pyramid_fresh; eauto.
Qed.

Section Sess.
Variables (E : env) (st : settings) (d0 : dim) (mids : list dim) (dy dx : dim) (bpp : Z) (l : list udim).
Let v3 := st_version st =? 3.
Let fs := match st_s3 st with None => true | Some _ => false end.
Hypothesis Hty : typed st.
Hypothesis Hstr : strings_present st.
Hypothesis Hl : st_dims st = Some l.
Hypothesis Hdim : map dim_of l = d0 :: mids ++ [dy; dx].
Hypothesis Hbpp : bytes_of_type (st_dtype st) = Ok bpp.
Hypothesis Hf : fits bpp d0 mids dy dx.
Hypothesis Hs : st_version st = 3 -> fits_shards d0 mids dy dx.
Hypothesis Hkind : st_version st = 3 -> st_s3 st = None.
Hypothesis HQ : st_s3 st = None -> forall k q, e_stat E k q = true.
Hypothesis Hmulti : st_multi st = true -> small0 d0 /\ scale_fits bpp (d_array dx) (d_array dy) /\ st_dtype st <> dt_int8 /\ exists d, In d (d0 :: mids ++ [dy; dx]) /\ shrinks d.
Hypothesis Hs3 : st_s3 st <> None.
Hypothesis Hv2 : st_version st = 2.
Notation C := (e_conns E).

Lemma new_live w : match new_stream E (Some st) w with (w', Ok s) => T E (w_tick w) C (s, w') | (_, Hang) => False | _ => True end \/ match new_stream E (Some st) w with (w', Hang) => blocked E (w_tick w) C w' | _ => False end.
Proof.
  assert (X : match new_stream E (Some st) w with (w', Ok s) => T E (w_tick w) C (s, w') | (w', Hang) => blocked E (w_tick w) C w' | _ => True end).
  2: { destruct (new_stream E (Some st) w) as [w' [s|e| |]]; auto. }
  unfold new_stream. destruct (validate_settings_spec E w st Hty Hstr) as (b & B1 & _). rewrite B1. destruct b; [|exact Logic.I].
  destruct (two_space E st d0 mids dy dx bpp l Hty Hstr Hl Hdim Hf Hs Hmulti w true B1 eq_refl) as (Ty & Tx & Td).
  set (s0 := mkstream v3 (opt_trim (st_path st)) (option_map (fun x => opt_trim (x_bucket x)) (st_s3 st)) (option_map blosc_of (st_comp st)) (match st_meta st with Some m => trim m | None => "{}" end) (st_dtype st) (d0 :: mids ++ [dy; dx]) (st_multi st) [] 0 [] [] [] 0).
  assert (Cm : commit st = Ok s0). { unfold commit. rewrite Hl, Hdim. unfold make_dimensions. cbn [List.length]. rewrite app_length. cbn [List.length]. replace (Nat.ltb 2 (S (List.length mids + 2))) with true by (symmetry; apply Nat.ltb_lt; lia). reflexivity. }
  rewrite Cm. cbn zeta.
  match goal with |- match ?m w with _ => _ end => assert (L : lt E (w_tick w) C idw (fun x => w_tick x = w_tick w) m (fun s x => T E (w_tick w) C (s, x)) (fun _ => True)) end.
  2: { specialize (L w eq_refl). match goal with |- match ?m w with _ => _ end => destruct (m w) as [w' [s|e| |]] end; auto. }
  apply l_bind with (Q := fun s x => s = s0 /\ w_tick x = w_tick w); [apply l_lift; [discriminate|intros v s X Y; injection X as <-; auto|auto]|]. intros s. apply l_fact. intros ->.
  apply l_bind with (Q := fun _ x => w_tick x = w_tick w); [apply l_lift; [apply nh_frame|auto|auto]|]. intros n.
  set (s1 := set_fbuf s0 (zrep 0 n) 0). assert (Bk : s_bucket s1 <> None) by (cbn; destruct (st_s3 st); [discriminate|contradiction]).
  apply l_bind with (Q := fun _ => G E (w_tick w) C). { eapply l_weak; [apply (l_store E s1 (w_tick w) Bk)|auto|auto|intros ? []]. }
  intros ok. apply l_bind with (Q := fun _ => G E (w_tick w) C); [apply l_expect; auto|]. intros _.
  destruct (writers_safe E st d0 mids dy dx bpp Hf Hs Hkind HQ Hmulti s1) as (ws & W1 & W2 & W3); auto. pose proof (writers_fresh s1 ws W1) as Wf. rewrite W1.
  apply l_bind with (Q := fun v x => v = ws /\ G E (w_tick w) C x); [apply l_lift; [discriminate|intros v s X Y; injection X as <-; auto|auto]|]. intros v. apply l_fact. intros ->.
  intros w1 g1. match goal with |- context [let (_, _) := ?body (?s1, w1) in _] => set (s2 := s1); change body with (opening E) end.
  assert (V3 : v3 = false) by (unfold v3; rewrite Hv2; reflexivity).
  assert (Ts : T E (w_tick w) C (s2, w1) /\ s_bucket (fst (s2, w1)) <> None).
  { assert (A : s_writers s2 = ws /\ s_msinks s2 = [] /\ s_bucket s2 = s_bucket s1) by (unfold s2; destruct (s_multi _); cbn; auto). destruct A as (A1 & A2 & A3).
    split; [|cbn [fst]; rewrite A3; exact Bk]. split; cbn [fst snd]; rewrite A1, A2; [split; [|constructor]|].
    - eapply Forall_impl; [|exact Wf]. intros a [F1 F2]. split; [rewrite F1; exact V3|rewrite F2; exact Logic.I].
    - replace (tot cw ws) with 0%nat; [eapply G_le; [|exact g1]; cbn; lia|]. clear -Wf. induction Wf as [|a ws [_ F2] Wf IH]; [reflexivity|]. rewrite tot_cons, <- IH. unfold cw. rewrite F2. reflexivity. }
  pose proof (l_opening E (w_tick w) C C (le_n _) (s2, w1) Ts) as O. destruct (opening E (s2, w1)) as [[s' w'] [u|e| |]]; cbn [obind]; auto.
Qed.

Lemma session_live calls w : Forall (fun d => exists k, zlen d = Z.of_nat k * (d_array dy * d_array dx * bpp)) calls ->
  match session E st calls w with (w', Hang) => blocked E (w_tick w) C w' | _ => True end.
Proof.
  intros Hc. unfold session, bind at 1, api_create, catchM, bind at 1, ret. pose proof (new_safe E st d0 mids dy dx bpp l Hty Hstr Hl Hdim Hbpp Hf Hs Hkind HQ Hmulti w) as N. pose proof (new_live w) as L.
  destruct (new_stream E (Some st) w) as [w1 [s|e| |]]; auto; [|destruct L as [L|L]; [contradiction|exact L]].
  destruct L as [L|[]]. destruct N as (N1 & N2 & N3). set (t0 := w_tick w) in *.
  assert (X : lt E t0 C (fun tw : TW => snd tw) (fun tw => Ti v3 fs bpp (st_dtype st) (gbase st d0 mids dy dx) (glevels st d0 mids dy dx) true tw /\ T E t0 C tw) (rs <- api_appends E calls ;; d <- api_destroy E ;; (fun s0 => (s0, Ok (Some (rs, d))))) (fun _ _ => True) (fun _ => True)).
  { apply l_bind with (Q := fun _ => T E t0 C).
    - eapply l_weak; [apply (l_appends E t0 C v3 fs bpp (st_dtype st) (gbase st d0 mids dy dx) (glevels st d0 mids dy dx) Hbpp (kind' st Hkind) (stat' E st Hkind HQ) N2 N3 C (le_n _)); exact Hc|auto|intros v x [_ Y]; exact Y|intros ? []].
    - intros rs. eapply l_bind; [eapply l_weak; [apply (l_destroy E t0 C C (le_n _))|auto|intros v x Y; exact Y|auto]|]. intros d x Y. exact Logic.I. }
  specialize (X (s, w1) (conj N1 L)). match goal with |- context [?m (s, w1)] => destruct (m (s, w1)) as [[s' w'] [r|e| |]] end; auto.
Qed.
End Sess.
