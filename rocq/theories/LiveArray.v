(** When a call can block for ever: one array writer (Zarr V2). *)
Require Import ZArith List Bool String Ascii Lia.
Require Import Verif.Base Verif.Spec Verif.Dim Verif.Radix Verif.Json Verif.World Verif.Writer Verif.LiveSpec Verif.LiveProofs.
Import ListNotations.
Open Scope string_scope. Open Scope list_scope. Open Scope Z_scope.

(** ** Pure computations end *)
Definition noh {A} (o : outcome A) : Prop := o <> Hang.
Lemma noh_ok {A} (a : A) : noh (Ok a). Proof. discriminate. Qed.
Lemma noh_throw {A} e : noh (@Throw A e). Proof. discriminate. Qed.
Lemma noh_ub {A} : noh (@UB A). Proof. discriminate. Qed.
Lemma noh_bind {A B} (o : outcome A) (f : A -> outcome B) : noh o -> (forall a, noh (f a)) -> noh (obind o f).
Proof. intros H1 H2. destruct o; cbn; auto; try apply noh_throw; try apply noh_ub. exfalso. apply H1. reflexivity. Qed.
Lemma noh_ofold {A B} (f : B -> A -> outcome B) l : (forall b a, noh (f b a)) -> forall b, noh (ofold f l b).
Proof. intros H. induction l; intros b; cbn; [apply noh_ok|]. apply noh_bind; auto. Qed.
Lemma noh_omap {A B} (f : A -> outcome B) l : (forall a, noh (f a)) -> noh (omap f l).
Proof. intros H. induction l; cbn; [apply noh_ok|]. apply noh_bind; auto. intros. apply noh_bind; auto. intros. apply noh_ok. Qed.
Lemma noh_floop {A S} (f : S -> A -> outcome (S * bool)) l : (forall s a, noh (f s a)) -> forall s, noh (floop f l s).
Proof. intros H. induction l; intros s; cbn; [apply noh_ok|]. apply noh_bind; auto. intros [s' [|]]; auto. apply noh_ok. Qed.
Ltac nh := repeat first [ apply noh_ok | apply noh_throw | apply noh_ub | apply noh_bind; [|intros] | apply noh_ofold; intros | apply noh_omap; intros | apply noh_floop; intros
  | match goal with |- noh (let '(_, _) := ?p in _) => destruct p end
  | match goal with |- noh (if ?b then _ else _) => destruct b end
  | match goal with |- noh (match ?b with _ => _ end) => destruct b end ].
Lemma nh_type t : noh (bytes_of_type t). Proof. unfold bytes_of_type. nh. Qed.
Lemma nh_frame ds t : noh (bytes_of_frame ds t). Proof. unfold bytes_of_frame. apply noh_bind; [apply nh_type|]. intros. nh. Qed.
Lemma nh_along d : noh (chunks_along_dimension d). Proof. unfold chunks_along_dimension. nh. Qed.
Lemma nh_salong d : noh (shards_along_dimension d). Proof. unfold shards_along_dimension. nh. apply nh_along. Qed.
Lemma nh_nchunks ds : noh (number_of_chunks_in_memory ds). Proof. unfold number_of_chunks_in_memory. nh. apply nh_along. Qed.
Lemma nh_bytes ds t : noh (bytes_per_chunk ds t). Proof. unfold bytes_per_chunk. nh. apply nh_type. Qed.
Lemma nh_group ds f : noh (tile_group_offset ds f). Proof. unfold tile_group_offset. cbn zeta. nh. unfold chunk_lattice_index, odiv, omod. nh. Qed.
Lemma nh_internal ds t f : noh (chunk_internal_offset ds t f).
Proof. unfold chunk_internal_offset. cbn zeta. apply noh_bind; [apply nh_type|]. intros. apply noh_bind; [apply noh_ofold; intros; unfold cio_step, odiv, omod; nh|]. intros [[? ?] ?]. unfold odiv, omod. nh. Qed.
Lemma nh_make a : noh (make_buffers a). Proof. unfold make_buffers. nh. Qed.
Lemma nh_wfc a d : noh (write_frame_to_chunks a d).
Proof.
  unfold write_frame_to_chunks. cbn zeta. apply noh_bind; [apply nh_type|]. intros bpp. destruct (_ || _); [apply noh_ok|].
  apply noh_bind; [apply nh_group|]. intros. apply noh_bind; [apply nh_internal|]. intros. do 3 (apply noh_bind; [unfold int_range; nh|intros]).
  apply noh_bind; [|intros; apply noh_ok]. apply noh_floop. intros. apply noh_floop. intros [? ?] ?. destruct (nth_error _ _); [|apply noh_ub]. apply noh_bind; [|intros [[? ?] ?]; apply noh_ok].
  apply noh_floop. intros [? ?] ?. unfold copy_row. cbn zeta. nh.
Qed.
Lemma nh_sf a : noh (should_flush a). Proof. unfold should_flush. cbn zeta. nh. Qed.
Lemma nh_size a : noh (append_size a). Proof. unfold append_size. nh. Qed.

(** sums over lists *)
Definition tot {A} (f : A -> nat) (l : list A) : nat := list_sum (map f l).
Lemma tot_cons {A} (f : A -> nat) x l : tot f (x :: l) = (f x + tot f l)%nat.
Proof. reflexivity. Qed.
Lemma tot_upd {A} (f : A -> nat) (l : list A) i y d : f d = 0%nat -> (tot f (upd l i y) + f (nth i l d) <= tot f l + f y)%nat.
Proof.
  intros D. revert i. induction l as [|x l IH]; intros i.
  - unfold upd. rewrite firstn_nil, skipn_nil. replace (nth i [] d) with d by (destruct i; reflexivity). rewrite D. cbn. apply Nat.le_0_l.
  - destruct i as [|i]; [change (upd (x :: l) 0 y) with (y :: l); cbn [nth]; rewrite !tot_cons; lia|]. change (upd (x :: l) (S i) y) with (x :: upd l i y). cbn [nth]. rewrite !tot_cons. specialize (IH i). lia.
Qed.
Lemma tot_nth {A} (f : A -> nat) (l : list A) i d : f d = 0%nat -> (f (nth i l d) <= tot f l)%nat.
Proof. intros D. revert i. induction l as [|x l IH]; intros i; [destruct i; cbn [nth]; rewrite D; apply Nat.le_0_l|]. change (tot f (x :: l)) with (f x + tot f l)%nat. destruct i as [|i]; cbn [nth]; [lia|]. specialize (IH i). lia. Qed.
Lemma tot_nth_error {A} (f : A -> nat) (l : list A) i x y : nth_error l i = Some x -> (tot f (upd l i y) + f x = tot f l + f y)%nat /\ (f x <= tot f l)%nat.
Proof.
  revert i. induction l as [|z l IH]; intros [|i] H; try discriminate; cbn in H.
  - injection H as ->. change (upd (x :: l) 0 y) with (y :: l). rewrite !tot_cons. lia.
  - change (upd (z :: l) (S i) y) with (z :: upd l i y). specialize (IH i H). rewrite !tot_cons. lia.
Qed.
Lemma Forall_upd {A} (P : A -> Prop) (l : list A) i y : Forall P l -> P y -> Forall P (upd l i y).
Proof.
  intros F Y. revert i. induction F as [|x l X F IH]; intros i; [unfold upd; rewrite firstn_nil, skipn_nil; constructor|]. destruct i as [|i]; [constructor; auto|].
  change (upd (x :: l) (S i) y) with (x :: upd l i y). constructor; auto.
Qed.
Lemma skip_nth {A} (l : list A) i a : nth_error l i = Some a -> skipn i l = a :: skipn (S i) l.
Proof. revert i. induction l as [|x l IH]; intros [|i] H; try discriminate; [injection H as ->; reflexivity|]. cbn [skipn]. apply IH. exact H. Qed.
Lemma skip_upd {A} (l : list A) i a : skipn (S i) (upd l i a) = skipn (S i) l.
Proof. revert i. induction l as [|x l IH]; intros [|i]; try reflexivity. change (upd (x :: l) (S i) a) with (x :: upd l i a). cbn [skipn]. apply IH. Qed.

Section Arr.
Variables (E : env) (t0 C : nat).
Notation G := (G E t0). Notation lt := (lt E t0 C). Notation qt := (qt E t0 C).
Notation la := (lt (fun aw : AW => snd aw)).

Definition basic (a : writer) : Prop := a_v3 a = false /\ vo (a_meta a).
(** a writer between two calls *)
Definition J (K : nat) (aw : AW) : Prop := basic (fst aw) /\ G (K + co (a_meta (fst aw))) (snd aw).
(** in the middle of a flush, with its data sinks *)
Definition JJ (K : nat) (aw : AW) : Prop := (basic (fst aw) /\ Forall vo (a_sinks (fst aw))) /\ G (K + co (a_meta (fst aw)) + tot co (a_sinks (fst aw))) (snd aw).
Lemma JJ_J K aw : JJ K aw -> J K aw.
Proof. intros [[a b] c]. split; [exact a|]. eapply G_le; [|exact c]. lia. Qed.
Lemma J_G K aw : J K aw -> G K (snd aw).
Proof. intros [a b]. eapply G_le; [|exact b]. lia. Qed.

Lemma l_getA {A} P (f : writer -> M AW A) Q R : (forall a, la (fun aw => P aw /\ fst aw = a) (f a) Q R) -> la P (a <- getA ;; f a) Q R.
Proof. intros H [a w] X. unfold bind, getA. cbn [fst]. apply H. auto. Qed.
Lemma l_getA' {A} P (f : writer -> M AW A) Q R : (forall a, la P (f a) Q R) -> la P (a <- getA ;; f a) Q R.
Proof. intros H. apply l_getA. intros a. eapply l_pre; [apply H|]. intros x X; exact (proj1 X). Qed.
Lemma l_modA (P : AW -> Prop) (f : writer -> writer) (Q : unit -> AW -> Prop) R : (forall a w, P (a, w) -> Q tt (f a, w)) -> la P (modA f) Q R.
Proof. intros H [a w] X. unfold modA. cbn [fst snd]. auto. Qed.
Lemma l_onWd {A} (P : writer -> world -> Prop) (m : M world A) (Q : writer -> A -> world -> Prop) (R : writer -> world -> Prop) :
  (forall a, lt idw (P a) m (Q a) (R a)) -> la (fun aw => P (fst aw) (snd aw)) (onWd m) (fun v aw => Q (fst aw) v (snd aw)) (fun aw => R (fst aw) (snd aw)).
Proof. intros H [s w] X. cbn in X. specialize (H s w X). unfold onWd. cbn [fst snd]. destruct (m w) as [w' [v|e| |]]; cbn; auto. Qed.
Lemma q_onWd {A} (X : writer -> Prop) (k : writer -> nat) (m : M world A) : qt m -> la (fun aw => X (fst aw) /\ G (k (fst aw)) (snd aw)) (onWd m) (fun _ aw => X (fst aw) /\ G (k (fst aw)) (snd aw)) (fun aw => X (fst aw) /\ G (k (fst aw)) (snd aw)).
Proof. intros H. apply (l_onWd (fun a w => X a /\ G (k a) w) m (fun a _ w => X a /\ G (k a) w) (fun a w => X a /\ G (k a) w)). intros a. apply l_fact. intros F. eapply l_weak; [apply (H (k a))|intros x Y; exact Y|intros v x Y; split; [exact F|exact Y]|intros x Y; split; [exact F|exact Y]]. Qed.
Lemma J_onWd {A} K (m : M world A) : qt m -> la (J K) (onWd m) (fun _ => J K) (J K).
Proof. apply (q_onWd basic (fun a => K + co (a_meta a))%nat). Qed.
Lemma JJ_onWd {A} K (m : M world A) : qt m -> la (JJ K) (onWd m) (fun _ => JJ K) (JJ K).
Proof. apply (q_onWd (fun a => basic a /\ Forall vo (a_sinks a)) (fun a => K + co (a_meta a) + tot co (a_sinks a))%nat). Qed.
Lemma lift_ok {A} P (Q : A -> AW -> Prop) R o : noh o -> (forall v, la P (ret v) Q R) -> (forall aw, P aw -> R aw) -> la P (liftM o) Q R.
Proof. intros H1 H2 H3. apply l_lift; auto. intros v s _ X. exact (H2 v s X). Qed.

Lemma l_compress K : la (J K) (compress_buffers E) (fun _ => J K) (J K).
Proof.
  unfold compress_buffers. apply l_getA'. intros a. destruct (c_comp (a_cfg a)); [|apply l_ret; auto]. apply l_bind with (Q := fun _ => J K); [apply l_lift; auto; apply nh_type|]. intros bpp.
  apply l_miter. intros i _. apply l_getA'. intros a'. destruct (e_compress _ _ _ _); [|apply J_onWd, q_done]. apply l_bind with (Q := fun _ => J K); [apply l_modA; auto|]. intros _. apply J_onWd, q_done.
Qed.
Lemma l_make_meta K : (C <= K)%nat -> la (J K) (make_metadata_sink E) (fun ok aw => J K aw /\ (ok = true -> a_meta (fst aw) <> None)) (J K).
Proof.
  intros HK. unfold make_metadata_sink. apply l_getA. intros a. destruct (a_meta a) as [k|] eqn:Ma; [apply l_ret; intros x [X Y]; split; auto; intros _; subst a; congruence|].
  eapply l_bind with (Q := fun o aw => (forall x, o = Some x -> fresh_o o) /\ (fst aw = a /\ J K aw)).
  - eapply l_weak with (P := fun aw => (fst aw = a /\ basic (fst aw)) /\ G K (snd aw)) (Q := fun o aw => ((fst aw = a /\ basic (fst aw)) /\ (forall x, o = Some x -> fresh_o o) /\ G K (snd aw))) (R := fun aw => (fst aw = a /\ basic (fst aw)) /\ G K (snd aw)).
    + apply (l_onWd (fun b w => (b = a /\ basic b) /\ G K w) _ (fun b o w => (b = a /\ basic b) /\ (forall x, o = Some x -> fresh_o o) /\ G K w) (fun b w => (b = a /\ basic b) /\ G K w)). intros b. apply l_fact. intros F.
      destruct (c_bucket (a_cfg a)); (eapply l_weak; [first [apply l_make_s3; exact HK|apply l_make_fs]|intros x Y; exact Y|intros v x Y; split; [exact F|exact Y]|intros x Y; split; [exact F|exact Y]]).
    + intros [b w] [[X Y] Z]. cbn [fst snd] in *. subst b. rewrite Ma in Y. split; auto. eapply G_le; [|exact Y]. lia.
    + intros o [b w] [[X Y] [Z T]]. cbn [fst snd] in *. subst b. split; auto. split; auto. split; auto. cbn [fst snd]. rewrite Ma. cbn [co]. rewrite Nat.add_0_r. exact T.
    + intros [b w] [[X Y] Z]. cbn [fst snd] in *. subst b. split; auto. cbn [fst snd]. rewrite Ma. cbn [co]. rewrite Nat.add_0_r. exact Z.
  - intros [k|]; apply l_fact; intros F; [|apply l_ret; intros x [_ X]; split; [exact X|discriminate]].
    apply l_bind with (Q := fun _ aw => J K aw /\ a_meta (fst aw) <> None); [|intros _; apply l_ret; intros x [X Y]; auto]. apply l_modA. intros b w [X [[Y1 Y2] Z]]. cbn [fst snd] in *. subst b. destruct (F k eq_refl) as [F1 F2].
    split; [split; [split; [exact Y1|exact F1]|]|discriminate]. cbn [fst snd a_meta set_meta]. rewrite F2. rewrite Ma in Z. exact Z.
Qed.
Lemma l_on_meta {A} K (m : M KW A) : (forall K', (C <= K')%nat -> lt (fun kw : KW => snd kw) (Kk E t0 K') m (fun _ => Kk E t0 K') (Kk E t0 K')) -> (C <= K)%nat -> la (J K) (on_meta m) (fun _ => J K) (J K).
Proof.
  intros H HK [a w] [[V1 V2] g]. cbn [fst snd] in *. unfold on_meta. destruct (a_meta a) as [k|] eqn:Ma; [|exact Logic.I]. pose proof (H K HK (k, w) (conj V2 g)) as T.
  destruct (m (k, w)) as [[k' w'] [v|e| |]]; auto; destruct T as [T1 T2]; split; try (split; [exact V1|exact T1]); exact T2.
Qed.
Lemma l_write_meta K : (C <= K)%nat -> la (J K) (write_array_metadata E) (fun _ => J K) (J K).
Proof.
  intros HK. unfold write_array_metadata. eapply l_bind with (Q := fun _ => J K); [eapply l_post; [apply l_make_meta; exact HK|intros v x X; exact (proj1 X)]|]. intros [|]; [|apply l_ret; auto].
  apply l_getA. intros a. destruct (a_v3 a) eqn:V. { intros [b w] [[[X _] _] Y]. cbn [fst] in *. congruence. }
  destruct (dtype_v2 _); [|apply l_ret; intros x X; exact (proj1 X)]. apply l_bind with (Q := fun _ => J K); [apply l_lift; [apply nh_size|intros v x _ X; exact (proj1 X)|intros x X; exact (proj1 X)]|]. intros n.
  apply l_on_meta; auto. intros K' HK'. apply k_write. exact HK'.
Qed.
Lemma l_make_data K : la (fun aw => J K aw /\ a_sinks (fst aw) = []) (make_data_sinks E) (fun _ => JJ K) (J K).
Proof.
  unfold make_data_sinks. apply l_getA. intros a.
  eapply l_bind with (Q := fun o aw => (forall l, o = Some l -> Forall fresh_o l) /\ JJ K aw).
  - eapply l_weak with (P := fun aw => (a_sinks (fst aw) = [] /\ basic (fst aw)) /\ G (K + co (a_meta (fst aw))) (snd aw)) (Q := fun o aw => ((a_sinks (fst aw) = [] /\ basic (fst aw)) /\ (forall l, o = Some l -> Forall fresh_o l) /\ G (K + co (a_meta (fst aw))) (snd aw)))
      (R := fun aw => (a_sinks (fst aw) = [] /\ basic (fst aw)) /\ G (K + co (a_meta (fst aw))) (snd aw)).
    + apply (l_onWd (fun b w => (a_sinks b = [] /\ basic b) /\ G (K + co (a_meta b)) w) _ (fun b o w => (a_sinks b = [] /\ basic b) /\ (forall l, o = Some l -> Forall fresh_o l) /\ G (K + co (a_meta b)) w) (fun b w => (a_sinks b = [] /\ basic b) /\ G (K + co (a_meta b)) w)).
      intros b. apply l_fact. intros F. assert (PA : forall d, parts_along a d <> Hang) by (intros d; unfold parts_along; destruct (a_v3 a); [apply nh_salong|apply nh_along]).
      destruct (c_bucket (a_cfg a)); (eapply l_weak; [first [apply l_data_s3; exact PA|apply l_data_fs; exact PA]|intros x Y; exact Y|intros v x Y; split; [exact F|exact Y]|intros x Y; split; [exact F|exact Y]]).
    + intros [b w] [[[X1 X2] X3] X4]. auto.
    + intros o [b w] [[X Y] [Z T]]. split; auto. cbn [fst snd] in *. split; cbn [fst snd]; rewrite X; [split; [exact Y|constructor]|]. cbn. rewrite Nat.add_0_r. exact T.
    + intros [b w] [[X Y] Z]. split; auto.
  - intros [l|]; apply l_fact; intros F; [|apply l_ret; auto].
    apply l_bind with (Q := fun _ => JJ K); [|intros _; apply l_ret; auto]. apply l_modA. intros b w [[Y1 Y2] Z]. cbn [fst snd] in *. specialize (F l eq_refl).
    split; cbn [fst snd a_meta a_sinks set_sinks]; [split; [exact Y1|]|]. { eapply Forall_impl; [|exact F]. intros o [O _]. exact O. }
    replace (tot co l) with 0%nat; [eapply G_le; [|exact Z]; lia|]. clear -F. induction F as [|o l [_ O] F IH]; [reflexivity|]. rewrite tot_cons, O, <- IH. reflexivity.
Qed.
Lemma l_job K i : (C <= K)%nat -> la (JJ K) (v2_job E i) (fun _ => JJ K) (JJ K).
Proof.
  intros HK. unfold v2_job. apply l_getA'. intros a0. eapply l_bind with (Q := fun _ => JJ K); [|intros r; apply JJ_onWd, q_done].
  apply l_catch with (R1 := JJ K); [|intros e; apply l_ret; auto].
  apply l_bind with (Q := fun _ => JJ K); [|intros ok; apply l_bind with (Q := fun _ => JJ K); [apply l_expect; auto|intros _; apply l_ret; auto]].
  intros [a w] [[B F] g]. cbn [fst snd] in *. unfold on_sink. destruct (nth i (a_sinks a) None) as [k|] eqn:Nk; [|exact Logic.I].
  pose proof (tot_nth co (a_sinks a) i None eq_refl) as T1. rewrite Nk in T1. cbn [co] in T1.
  assert (Vk : vk k). { assert (X : vo (nth i (a_sinks a) None)); [|rewrite Nk in X; exact X]. destruct (nth_in_or_default i (a_sinks a) None) as [X|X]; [apply (proj1 (Forall_forall _ _) F _ X)|rewrite X; exact Logic.I]. }
  pose proof (k_write E t0 C (K + co (a_meta a) + (tot co (a_sinks a) - ck k)) (nth i (a_bufs a0) []) ltac:(lia) (k, w)) as T. cbn [Kk fst snd] in T.
  assert (T0 : Kk E t0 (K + co (a_meta a) + (tot co (a_sinks a) - ck k)) (k, w)). { split; [exact Vk|]. eapply G_le; [|exact g]. cbn [fst]. lia. } specialize (T T0).
  destruct (sink_write E 0 (nth i (a_bufs a0) []) (k, w)) as [[k' w'] [v|e| |]]; auto; destruct T as [T2 T3]; cbn [fst snd] in *;
  pose proof (tot_upd co (a_sinks a) i (Some k') None eq_refl) as T4; rewrite Nk in T4; cbn [co] in T4;
  (split; cbn [fst snd a_meta a_sinks set_sinks]; [split; [exact B|apply Forall_upd; auto]|eapply G_le; [|exact T3]; lia]).
Qed.
Lemma l_flush_v2 K : (C <= K)%nat -> la (J K) (flush_impl_v2 E) (fun ok aw => J K aw /\ (ok = true -> JJ K aw)) (J K).
Proof.
  intros HK. unfold flush_impl_v2. apply l_getA. intros a. apply l_bind with (Q := fun _ aw => J K aw /\ a_sinks (fst aw) = []).
  { apply l_expect; [|intros x X _; exact (proj1 X)]. intros x [X Y] Z. split; [exact X|]. rewrite Y. destruct (a_sinks a); [reflexivity|discriminate]. }
  intros _. eapply l_bind; [apply l_make_data|]. intros [|]; [|apply l_ret; intros x X; split; [apply JJ_J; exact X|discriminate]].
  apply l_getA'. intros a'. apply l_bind with (Q := fun _ => JJ K); [apply l_expect; auto; intros x X _; apply JJ_J; exact X|]. intros _.
  apply l_bind with (Q := fun _ => JJ K); [|intros _; apply l_ret; intros x X; split; auto; apply JJ_J; exact X].
  eapply l_weak; [apply (l_miter E t0 C (fun aw : AW => snd aw) (JJ K) (JJ K)); intros i _; apply l_job; exact HK|auto|auto|apply JJ_J].
Qed.
(** closing: the sinks from number i on are still to be finalized *)
Definition JC (K i : nat) (aw : AW) : Prop := (basic (fst aw) /\ Forall vo (skipn i (a_sinks (fst aw)))) /\ G (K + co (a_meta (fst aw)) + tot co (skipn i (a_sinks (fst aw)))) (snd aw).
Lemma JC_J K i aw : JC K i aw -> J K aw.
Proof. intros [[a b] c]. split; [exact a|]. eapply G_le; [|exact c]. lia. Qed.
Lemma l_close_loop K : (C <= K)%nat -> forall n i, la (JC K i) (miter (fun i => ok <- on_slot i (finalize_sink E) ;; expectM ok "Failed to finalize sink") (seq i n)) (fun _ => J K) (J K).
Proof.
  intros HK. induction n as [|n IH]; intros i; cbn [seq miter]; [apply l_ret; apply JC_J|]. apply l_bind with (Q := fun _ => JC K (S i)); [|intros _; apply IH].
  apply l_bind with (Q := fun _ => JC K (S i)); [|intros ok; apply l_expect; auto; intros x X _; eapply JC_J; exact X].
  assert (L : la (JC K i) (on_slot i (finalize_sink E)) (fun _ => JC K (S i)) (JC K (S i))); [|eapply l_weak; [exact L|auto|auto|intros x X; eapply JC_J; exact X]].
  intros [a w] [[B F] g]. cbn [fst snd] in *. unfold on_slot.
  assert (X : Forall vo (skipn (S i) (a_sinks a)) /\ vo (nth i (a_sinks a) None) /\ tot co (skipn i (a_sinks a)) = (co (nth i (a_sinks a) None) + tot co (skipn (S i) (a_sinks a)))%nat).
  { destruct (nth_error (a_sinks a) i) as [o|] eqn:Ni.
    - rewrite (skip_nth _ _ _ Ni) in F |- *. rewrite (nth_error_nth _ _ None Ni). inversion F; subst. auto.
    - apply nth_error_None in Ni. rewrite (nth_overflow _ _ Ni). rewrite !skipn_all2 by lia. repeat split; constructor. }
  destruct X as (X1 & X2 & X3). pose proof (o_finalize E t0 C (K + co (a_meta a) + tot co (skipn (S i) (a_sinks a))) ltac:(lia) (nth i (a_sinks a) None, w)) as T. cbn [Oo fst snd] in T.
  assert (T0 : Oo E t0 (K + co (a_meta a) + tot co (skipn (S i) (a_sinks a))) (nth i (a_sinks a) None, w)). { split; [exact X2|]. eapply G_le; [|exact g]. cbn [fst]. lia. } specialize (T T0).
  destruct (finalize_sink E (nth i (a_sinks a) None, w)) as [[o' w'] [v|e| |]]; auto; cbn [fst snd] in *; (split; cbn [fst snd a_meta a_sinks set_sinks]; [split; [exact B|]|]; rewrite skip_upd; auto).
Qed.
Lemma l_rollover K : (C <= K)%nat -> la (JJ K) (rollover E) (fun _ => J K) (J K).
Proof.
  intros HK. unfold rollover. apply l_bind with (Q := fun _ => J K); [|intros _; apply l_modA; auto].
  unfold close_sinks. apply l_getA'. intros a. apply l_bind with (Q := fun _ => J K); [|intros _; apply l_modA; auto].
  eapply l_pre; [apply l_close_loop; exact HK|]. intros x X. exact X.
Qed.
Lemma l_flush_arr K : (C <= K)%nat -> la (J K) (flush E) (fun _ => J K) (J K).
Proof.
  intros HK. unfold flush. apply l_getA'. intros a. destruct (a_toflush a =? 0); [apply l_ret; auto|]. apply l_bind with (Q := fun _ => J K); [apply l_compress|]. intros _.
  apply l_bind with (Q := fun ok aw => J K aw /\ (ok = true -> JJ K aw)).
  { unfold flush_impl. apply l_getA. intros b. destruct (a_v3 b) eqn:V. { intros [b' w] [[[X _] _] Y]. cbn [fst] in *. congruence. } eapply l_pre; [apply l_flush_v2; exact HK|]. intros x X; exact (proj1 X). }
  intros ok. apply l_bind with (Q := fun _ => JJ K); [apply l_expect; intros x [X Y] Z; auto|]. intros _.
  apply l_getA. intros b. apply l_bind with (Q := fun r aw => r = true /\ JJ K aw).
  { intros [b' w] [X Y]. cbn [fst] in Y. subst b'. unfold liftM, should_rollover. destruct X as [[[X1 X2] X3] X4]. cbn [fst] in X1. rewrite X1. split; auto. split; auto. split; auto. split; auto. }
  intros roll. apply l_fact. intros ->. apply l_bind with (Q := fun _ => J K); [apply l_rollover; exact HK|]. intros _. apply l_getA'. intros c. cbn [orb].
  apply l_bind with (Q := fun _ => J K). { apply l_bind with (Q := fun _ => J K); [apply l_write_meta; exact HK|intros k; apply l_expect; auto]. }
  intros _. apply l_getA. intros d. apply l_bind with (Q := fun d' aw => (a_v3 d' = a_v3 d /\ a_meta d' = a_meta d) /\ J K aw /\ fst aw = d).
  { apply l_lift; [apply nh_make| |intros x X; exact (proj1 X)]. intros d' x Md X. split; [|exact X]. revert Md. unfold make_buffers. destruct (number_of_chunks_in_memory _); try discriminate. destruct (bytes_per_chunk _ _); try discriminate. intros Y. injection Y as <-. auto. }
  intros d'. apply l_fact. intros [D1 D2]. apply l_modA. intros y w [X Y]. cbn [fst] in Y. subst y. destruct X as [[X1 X2] X3]. cbn [fst snd] in *. split; [split|]; cbn [fst snd a_v3 a_meta set_toflush]; rewrite ?D1, ?D2; auto.
Qed.
Lemma l_write_frame K data : (C <= K)%nat -> la (J K) (write_frame E data) (fun _ => J K) (J K).
Proof.
  intros HK. unfold write_frame. apply l_getA. intros a. apply l_bind with (Q := fun _ aw => J K aw /\ fst aw = a); [apply l_lift; [apply nh_frame|auto|intros x X; exact (proj1 X)]|]. intros nf.
  destruct (negb _); [apply l_ret; intros x X; exact (proj1 X)|].
  apply l_bind with (Q := fun _ => J K).
  { destruct (a_bufs a); [|apply l_ret; intros x X; exact (proj1 X)]. apply l_bind with (Q := fun d' aw => (a_v3 d' = a_v3 a /\ a_meta d' = a_meta a) /\ J K aw /\ fst aw = a).
    - apply l_lift; [apply nh_make| |intros x X; exact (proj1 X)]. intros d' x Md X. split; [|exact X]. revert Md. unfold make_buffers. destruct (number_of_chunks_in_memory _); try discriminate. destruct (bytes_per_chunk _ _); try discriminate. intros Y. injection Y as <-. auto.
    - intros d'. apply l_fact. intros [D1 D2]. apply l_modA. intros y w [X Y]. cbn [fst] in Y. subst y. destruct X as [[X1 X2] X3]. cbn [fst snd] in *. split; [split|]; cbn [fst snd]; rewrite ?D1, ?D2; auto. }
  intros _. apply l_getA'. intros b. apply l_bind with (Q := fun _ => J K); [apply l_lift; auto; apply nh_wfc|]. intros [bufs written].
  apply l_bind with (Q := fun _ => J K); [apply l_modA; auto|]. intros _. apply l_bind with (Q := fun _ => J K); [apply l_expect; auto|]. intros _.
  apply l_bind with (Q := fun _ => J K); [apply l_modA; auto|]. intros _. apply l_getA'. intros c. apply l_bind with (Q := fun _ => J K); [apply l_lift; auto; apply nh_sf|]. intros sf.
  apply l_bind with (Q := fun _ => J K); [destruct sf; [apply l_flush_arr; exact HK|apply l_ret; auto]|]. intros _. apply l_ret. auto.
Qed.
Lemma l_finalize K : (C <= K)%nat -> la (J K) (finalize_array E) (fun _ aw => G K (snd aw)) (fun aw => G K (snd aw)).
Proof.
  intros HK. unfold finalize_array. apply l_bind with (Q := fun _ => J K); [apply l_modA; auto|]. intros _.
  apply l_bind with (Q := fun _ => J K). { apply l_catch with (R1 := J K); [|intros e; apply l_ret; auto]. apply l_bind with (Q := fun _ => J K); [apply l_flush_arr; exact HK|intros _; apply l_ret; auto]. }
  intros [|]; [|apply l_ret; intros x X; apply J_G; exact X].
  apply l_bind with (Q := fun _ aw => G K (snd aw)).
  { intros [a w] [[V1 V2] g]. cbn [fst snd] in *. unfold on_meta_slot. pose proof (o_finalize E t0 C K HK (a_meta a, w) (conj V2 g)) as T. destruct (finalize_sink E (a_meta a, w)) as [[o' w'] [v|e| |]]; auto. }
  intros [|]; [|apply l_ret; auto]. apply l_getA'. intros a. apply l_bind with (Q := fun _ aw => G K (snd aw)).
  { apply (l_miter E t0 C (fun aw : AW => snd aw) (fun aw => G K (snd aw)) (fun aw => G K (snd aw))). intros o _. destruct o; [|apply l_ret; auto].
    apply (l_onWd (fun _ => G K) _ (fun _ _ => G K) (fun _ => G K)). intros b. apply q_destroy. }
  intros _. apply l_bind with (Q := fun _ aw => G K (snd aw)); [apply l_modA; auto|]. intros _. apply l_ret. auto.
Qed.
End Arr.
