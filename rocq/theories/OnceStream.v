(** How often one object is uploaded in the life of a stream, whatever the environment does. *)
Require Import ZArith List Bool String Ascii Lia.
Require Import Verif.Base Verif.Spec Verif.Dim Verif.Limits Verif.Radix Verif.PathProofs Verif.Json Verif.World Verif.Writer Verif.LayoutProofs Verif.FrameProofs Verif.GridProofs Verif.LayoutSpec Verif.ItemProofs Verif.GridSpec Verif.OnceSpec Verif.OnceProofs
  Verif.Stream Verif.Api Verif.FrameStream Verif.SafeStream Verif.IndepStream.
Import ListNotations.
Open Scope string_scope. Open Scope list_scope. Open Scope Z_scope.

Lemma map_upd_snd {A B} (l : list (A * B)) i x : map snd (upd l i x) = upd (map snd l) i (snd x).
Proof. revert i. induction l as [|y l IH]; intros [|i]; try reflexivity. change (upd (y :: l) (S i) x) with (y :: upd l i x). cbn [map]. rewrite IH. reflexivity. Qed.
Lemma may_nn b k qo mt a : 0 <= may b k qo mt a.
Proof.
  unfold may. pose proof (hsum_nonneg b k (a_sinks a)). pose proof (h_slot_nonneg b k (a_meta a)). assert (0 <= futq qo (nextq a)) by (unfold futq; destruct qo as [r|]; [destruct (_ <=? r)|]; lia). assert (0 <= futm mt a) by (unfold futm; destruct (a_meta a), mt; lia). lia.
Qed.
Section St.
Variables (E : env) (b k : string) (v3 : bool) (root : string) (bk : option string) (nd : nat) (cs : list config) (fb : Z) (it : option item).
Hypothesis Hnd : (3 <= nd)%nat.
Hypothesis Hcs : forall i c, nth_error cs i = Some c -> c_level c = Z.of_nat i /\ c_root c = root /\ c_bucket c = bk /\ List.length (c_dims c) = nd.
(** [it] is what the object is *)
Hypothesis role : bk = Some b -> forall it', sensible v3 (nd - 1) it' -> where_is v3 root it' = k -> it = Some it'.
Definition qof (i : nat) : option Z := match it with Some (Piece l q _) => if l =? Z.of_nat i then Some q else None | _ => None end.
Definition mtf (i : nat) : bool := match it with Some (ArrayDoc l) => l =? Z.of_nat i | _ => false end.
Lemma sound_d i c : nth_error cs i = Some c -> forall q cc, 0 <= q -> Forall (fun x => 0 <= x) cc -> List.length cc = (List.length (firstn (List.length (c_dims c) - 2) (tl (c_dims c))) + 1)%nat -> c_bucket c = Some b ->
  k = join_path (c_root c) (data_comps v3 (c_level c) q ++ map dec cc) -> qof i = Some q.
Proof.
  intros Hi q cc Hq Hcc Hl Hb Hk. destruct (Hcs i c Hi) as (C1 & C2 & C3 & C4). rewrite C3 in Hb.
  assert (Len : List.length cc = (nd - 1)%nat). { rewrite Hl, firstn_length. destruct (c_dims c); cbn [List.length tl] in *; lia. }
  assert (Sn : sensible v3 (nd - 1) (Piece (Z.of_nat i) q cc)) by (cbn; repeat split; auto; lia).
  assert (R : it = Some (Piece (Z.of_nat i) q cc)). { apply role; auto. rewrite (where_join v3 root _ _ Sn). cbn [comps]. rewrite Hk, C1, C2. reflexivity. }
  unfold qof. rewrite R, Z.eqb_refl. reflexivity.
Qed.
Lemma sound_m i c : nth_error cs i = Some c -> c_bucket c = Some b -> k = join_path (c_root c) (meta_comps v3 (c_level c)) -> mtf i = true.
Proof.
  intros Hi Hb Hk. destruct (Hcs i c Hi) as (C1 & C2 & C3 & C4). rewrite C3 in Hb.
  assert (Sn : sensible v3 (nd - 1) (ArrayDoc (Z.of_nat i))) by (cbn; lia).
  assert (R : it = Some (ArrayDoc (Z.of_nat i))). { apply role; auto. rewrite (where_join v3 root _ _ Sn). cbn [comps]. rewrite Hk, C1, C2. reflexivity. }
  unfold mtf. rewrite R. apply Z.eqb_refl.
Qed.
Definition mayi (i : nat) (a : writer) : Z := may b k (qof i) (mtf i) a.
Fixpoint wsum (i : nat) (l : list writer) : Z := match l with [] => 0 | a :: l => mayi i a + wsum (S i) l end.
Definition hm (l : list (string * option sink)) : Z := hsum b k (map snd l).
Lemma wsum_nonneg l : forall i, 0 <= wsum i l.
Proof. induction l as [|a l IH]; intros i; cbn; [lia|]. specialize (IH (S i)). pose proof (may_nn b k (qof i) (mtf i) a). unfold mayi. lia. Qed.
Lemma wsum_upd l : forall i j a a', nth_error l j = Some a -> wsum i (upd l j a') + mayi (i + j) a = wsum i l + mayi (i + j) a'.
Proof.
  induction l as [|x l IH]; intros i [|j] a a' H; try discriminate.
  - injection H as ->. unfold upd. cbn. rewrite Nat.add_0_r. lia.
  - change (upd (x :: l) (S j) a') with (x :: upd l j a'). cbn [wsum]. specialize (IH (S i) j a a' H). replace (S i + j)%nat with (i + S j)%nat in IH by lia. lia.
Qed.
Variable NN : Z.
(** what else holds of every writer *)
Variable KK : nat -> writer -> Prop.
Definition tot (s : stream) : Z := hm (s_msinks s) + wsum 0 (s_writers s).
Record ts (m : Z) (j : nat) (f : Z) (s : stream) : Prop := {
  t_w : Forall2 (bw v3) cs (s_writers s); t_f : s_foff s = f; t_b : zlen (s_fbuf s) = fb; t_v : s_v3 s = v3;
  t_a : forall i a, nth_error (s_writers s) i = Some a -> a_append a <= m + (if Nat.ltb i j then 1 else 0) /\ 0 <= a_frames a <= m + (if Nat.ltb i j then 1 else 0);
  t_k : forall i a, nth_error (s_writers s) i = Some a -> KK i a }.
Definition T (m : Z) (j : nat) (f : Z) (tw : TW) : Prop := cnt b k (snd tw) + tot (fst tw) <= NN /\ ts m j f (fst tw).
Lemma T_up m j f tw m' : T m j f tw -> m + (if Nat.ltb 0 j then 1 else 0) <= m' -> T m' 0 f tw.
Proof.
  intros [X [Y1 Y2 Y3 Y4 Y5 Y6]] H. split; [exact X|]. split; auto. intros i a Hi. specialize (Y5 i a Hi). change (Nat.ltb i 0) with false. cbv iota. destruct j; [change (Nat.ltb i 0) with false in Y5; change (Nat.ltb 0 0) with false in H; cbv iota in H, Y5; lia|]. change (Nat.ltb 0 (S j)) with true in H. cbv iota in H. destruct (Nat.ltb i (S j)); lia.
Qed.
Ltac st := first [apply pres_ret; first [exact I|assumption|auto] | apply pres_throw | apply pres_expect; exact I | apply pres_lift; intros; exact I].
Ltac bd := eapply pres_bind with (P := any); [|intros ? _].
Tactic Notation "bn" ident(x) := eapply pres_bind with (P := any); [|intros x _].

(** *** the documents *)
Section Docs.
Variable W : stream -> Prop.
Hypothesis W_ms : forall s l, W s -> W (set_msinks s l).
Variable M0 : Z.
Definition D (tw : TW) : Prop := cnt b k (snd tw) + hm (s_msinks (fst tw)) + wsum 0 (s_writers (fst tw)) <= M0 /\ W (fst tw).
Notation pd := (pres D).
Lemma d_onT {A} (Q : A -> Prop) m : (forall c, pres (Qw b k c) Q m) -> pd Q (onT m).
Proof. intros H [s w] [X Y]. unfold onT. cbn [fst snd] in *. specialize (H (cnt b k w) w eq_refl). destruct (m w) as [w' r]. cbn in *. destruct H as [H K]. unfold Qw in H. split; [split; cbn [fst snd]; [lia|auto]|auto]. Qed.
Lemma d_getT : pd any getT.
Proof. intros tw X. split; [exact X|intros; exact I]. Qed.
Lemma hm_upd l i x : hm (upd l i x) + h_slot b k (snd (nth i l (fst x, None))) <= hm l + h_slot b k (snd x).
Proof.
  unfold hm. rewrite map_upd_snd. pose proof (hsum_upd b k (map snd l) i (snd x)) as H. change (@None sink) with (snd (fst x, @None sink)) in H. rewrite map_nth in H. exact H.
Qed.
Lemma d_write_metadata key d err : pd any (write_metadata E key d err).
Proof.
  intros [s w] [X Y]. cbn [fst snd] in *. unfold write_metadata. destruct (find_key key (s_msinks s)) as [i|]; [|split; [split; auto|discriminate]].
  destruct (nth i (s_msinks s) (key, None)) as [k' [sk|]] eqn:N0.
  - destruct (k_write E b k (cnt b k w + h_sink b k sk) 0 d (sk, w) (Z.le_refl _)) as [A _]. destruct (sink_write E 0 d (sk, w)) as [[sk' w'] r]. unfold Kw in A. cbn [fst snd] in A.
    assert (OS : D (set_msinks s (upd (s_msinks s) i (k', Some sk')), w')).
    { split; cbn [fst snd s_msinks s_writers set_msinks]; [|apply W_ms; exact Y]. pose proof (hm_upd (s_msinks s) i (k', Some sk')) as U. cbn [fst snd h_slot] in U.
      assert (Z0 : h_slot b k (snd (nth i (s_msinks s) (k', None))) = h_sink b k sk).
      { destruct (nth_in_or_default i (s_msinks s) (key, None)) as [V|V]; [|rewrite N0 in V; discriminate]. destruct (Nat.lt_ge_cases i (List.length (s_msinks s))) as [L|L]; [|rewrite nth_overflow in N0 by exact L; discriminate].
        rewrite (nth_indep _ (k', None) (key, None) L), N0. reflexivity. }
      rewrite Z0 in U. lia. }
    destruct r as [[]|m| |]; try (split; [exact OS|intros; exact I]).
  - refine (d_onT any (set_error _ ;;; ret false) _ (s, w) (conj X Y)). intros c. bd; [apply q_err|st].
Qed.
Lemma d_base : pd any (write_base_metadata E).
Proof. unfold write_base_metadata. eapply pres_bind; [apply d_getT|intros s _]. destruct (base_metadata s). apply d_write_metadata. Qed.
Lemma d_group : pd any (write_group_metadata E).
Proof. unfold write_group_metadata. eapply pres_bind; [apply d_getT|intros s _]. destruct (group_metadata s). apply d_write_metadata. Qed.
Lemma d_external : pd any (write_external_metadata E).
Proof. unfold write_external_metadata. eapply pres_bind; [apply d_getT|intros s _]. destruct (String.eqb _ _); [st|]. apply d_write_metadata. Qed.
Lemma d_msink i : pd any (finalize_msink E i).
Proof.
  intros [s w] [X Y]. cbn [fst snd] in *. unfold finalize_msink. destruct (nth_error (s_msinks s) i) as [[key o]|] eqn:N0; [|split; [split; auto|discriminate]].
  destruct (o_finalize E b k (cnt b k w + h_slot b k o) (o, w) (Z.le_refl _)) as [A _]. destruct (finalize_sink E (o, w)) as [[o' w'] r]. unfold Ow in A. cbn [fst snd] in *. split; [|intros; exact I].
  split; cbn [fst snd s_msinks s_writers set_msinks]; [|apply W_ms; exact Y]. pose proof (hm_upd (s_msinks s) i (key, o')) as U. cbn [fst snd] in U. rewrite (nth_error_nth _ _ _ N0) in U. cbn [snd] in U. lia.
Qed.
Lemma d_all_ok {A} (f : A -> M TW bool) l : (forall a, pd any (f a)) -> pd any (all_ok f l).
Proof. intros H. induction l as [|a l IH]; cbn [all_ok]; [st|]. bn ok; [apply H|]. destruct ok; [exact IH|st]. Qed.
End Docs.
Lemma pd_hx {A} m f (p : M TW A) : (forall M0, pres (D (ts m 0 f) M0) any p) -> hx (T m 0 f) p (fun _ => T m 0 f) (T m 0 f).
Proof.
  intros H tw [X Y]. destruct (H NN tw) as [[X' Y'] _]; [split; [unfold tot in X; lia|exact Y]|]. destruct (p tw) as [tw' [v|e| |]]; cbn [fst] in *; (split; [unfold tot; lia|exact Y']).
Qed.

(** *** frames *)
Lemma F2_nth {A B} (R : A -> B -> Prop) l m : Forall2 R l m -> forall i y, nth_error m i = Some y -> exists x, nth_error l i = Some x /\ R x y.
Proof. induction 1; intros [|i] z X; cbn in *; try discriminate; [injection X as <-; eauto|eauto]. Qed.
Lemma F2_upd {A B} (R : A -> B -> Prop) l m : Forall2 R l m -> forall i x y, nth_error l i = Some x -> R x y -> Forall2 R l (upd m i y).
Proof. induction 1; intros [|i] a c X Y; try discriminate; [injection X as ->|]; cbn in *; (constructor; [auto|]); auto. apply (IHForall2 i a c X Y). Qed.
Lemma ne_upd {A} (l : list A) i j x y : nth_error (upd l i x) j = Some y -> (j = i /\ y = x) \/ (j <> i /\ nth_error l j = Some y).
Proof.
  revert i j. induction l as [|z l IH]; intros i j H; [unfold upd in H; rewrite firstn_nil, skipn_nil in H; destruct j; discriminate|]. destruct i as [|i], j as [|j]; cbn in H |- *.
  - injection H as <-. auto.
  - right. auto.
  - right. auto.
  - destruct (IH i j H) as [[-> ->]|[A1 A2]]; [left|right]; auto.
Qed.
Hypothesis HK : forall j c m data a w, nth_error cs j = Some c -> bw v3 c a -> a_append a <= m -> 0 <= a_frames a <= m -> m + 1 < 2 ^ 32 -> KK j a -> KK j (fst (fst (write_frame E data (a, w)))).
Lemma st_frame j data m f : m + 1 < 2 ^ 32 ->
  hx (T m j f) (on_writer j (write_frame E data)) (fun v tw => (v = 0 /\ T m j f tw) \/ (v = zlen data /\ T m (S j) f tw)) (T (m + 1) 0 f).
Proof.
  intros Hm [s w] H. pose proof (T_up _ _ _ _ (m + 1) H ltac:(destruct (Nat.ltb 0 j); lia)) as Up. unfold on_writer. destruct (nth_error (s_writers s) j) as [a|] eqn:Na; [|exact Up].
  destruct H as [X Y]. cbn [fst snd] in *. pose proof Y as [Y1 Y2 Y3 Y4 Y5 Y6]. destruct (F2_nth _ _ _ Y1 j a Na) as (c & Nc & Ba).
  pose proof (Y5 j a Na) as Aj. rewrite Nat.ltb_irrefl in Aj.
  pose proof (write_frame_spec E b k v3 c (qof j) (mtf j) (sound_d j c Nc) (sound_m j c Nc) (NN - tot s + mayi j a) m data Hm (a, w)) as WF.
  assert (Ja : Jm b k v3 c (qof j) (mtf j) (NN - tot s + mayi j a) m (a, w)) by (exists (a_append a); split; [split; cbn [fst snd]; [unfold mayi in *; lia|split; auto]|lia]).
  specialize (WF Ja).
  pose proof (HK j c m data a w Nc Ba ltac:(lia) ltac:(lia) Hm (Y6 j a Na)) as Ka. pose proof (write_frame_frames E (a_frames a) data ltac:(lia) ltac:(lia) (a, w) eq_refl) as WN. 
  assert (G : forall a' w' m' j', KK j a' -> (0 <= a_frames a' <= m + (if Nat.ltb j j' then 1 else 0)) -> Jm b k v3 c (qof j) (mtf j) (NN - tot s + mayi j a) m' (a', w') -> m' <= m + (if Nat.ltb j j' then 1 else 0) -> (j <= j')%nat -> T m j' f (set_writers s (upd (s_writers s) j a'), w')).
  { intros a' w' m' j' Ka' Fa' (q & [G1 [G2 G3]] & G4) Hm' Hj. cbn [fst snd] in *. split; cbn [fst snd].
    - unfold tot in *. cbn [s_msinks s_writers set_writers]. pose proof (wsum_upd (s_writers s) 0 j a a' Na) as U. cbn [Nat.add] in U. unfold mayi in *. lia.
    - split; cbn [s_writers set_writers s_foff s_fbuf s_v3]; auto; [eapply F2_upd; eauto| |].
      + intros i x Hi. destruct (ne_upd _ _ _ _ _ Hi) as [[-> ->]|[I1 I2]]; [lia|]. specialize (Y5 i x I2). destruct (Nat.ltb_spec i j), (Nat.ltb_spec i j'); lia.
      + intros i x Hi. destruct (ne_upd _ _ _ _ _ Hi) as [[-> ->]|[I1 I2]]; auto. }
  destruct (write_frame E data (a, w)) as [[a' w'] [v|e| |]]; cbn [fst] in Ka; unfold Fn in WN; cbn [fst] in WN.
  2-4: (eapply T_up with (m := m) (j := S j); [eapply (G a' w' (m + 1) (S j) Ka); [rewrite (proj2 (Nat.ltb_lt j (S j))) by lia; lia|exact WF|rewrite (proj2 (Nat.ltb_lt j (S j))) by lia; lia|lia]|cbn; lia]).
  assert (Rt : v = zlen data -> Jm b k v3 c (qof j) (mtf j) (NN - tot s + mayi j a) (m + 1) (a', w') -> T m (S j) f (set_writers s (upd (s_writers s) j a'), w')).
  { intros _ W. eapply (G a' w' (m + 1) (S j) Ka); [rewrite (proj2 (Nat.ltb_lt j (S j))) by lia; destruct WN as [[_ ->]|[_ ->]]; lia|exact W|rewrite (proj2 (Nat.ltb_lt j (S j))) by lia; lia|lia]. }
  destruct WF as [[Hv WF]|[Hv WF]]; [destruct WN as [[_ WN]|[Hv' WN]]|].
  - left. split; [exact Hv|]. eapply (G a' w' m j Ka); [rewrite Nat.ltb_irrefl; lia|exact WF|rewrite Nat.ltb_irrefl; lia|lia].
  - right. split; [exact Hv'|]. apply Rt; [exact Hv'|]. eapply Jm_up; [exact WF|lia].
  - right. split; [exact Hv|]. apply Rt; auto.
Qed.
Lemma hx_getT {B} (P : TW -> Prop) (f : stream -> M TW B) Q R : (forall s, hx (fun tw => P tw /\ fst tw = s) (f s) Q R) -> hx P (s <- getT ;; f s) Q R.
Proof. intros H [a w] X. unfold bind, getT. cbn. apply (H a (a, w)). auto. Qed.
Lemma hx_modT (P : TW -> Prop) (Q : unit -> TW -> Prop) R f : (forall a w, P (a, w) -> Q tt (f a, w)) -> hx P (modT f) Q R.
Proof. intros H [a w] X. cbn. auto. Qed.
Lemma T_scaled m j f s w x y : T m j f (s, w) -> T m j f (set_scaled s x y, w).
Proof. intros [X [Y1 Y2 Y3 Y4 Y5 Y6]]. split; [exact X|]. split; auto. Qed.
Lemma st_multi m f bp : m + 1 < 2 ^ 32 -> forall fuel j data nb wd ht, hx (T m j f) (multiscale_loop E bp fuel j data nb wd ht) (fun _ => T (m + 1) 0 f) (T (m + 1) 0 f).
Proof.
  intros Hm. assert (Up : forall j tw, T m j f tw -> T (m + 1) 0 f tw) by (intros j tw H; eapply T_up; [exact H|destruct (Nat.ltb 0 j); lia]).
  induction fuel as [|fu IH]; intros j data nb wd ht; cbn [multiscale_loop]; [apply hx_ret; apply Up|].
  apply hx_getT. intros s. eapply hx_bind with (Q := fun _ => T m j f); [apply hx_lift; [tauto|intros tw [H _]; eapply Up; exact H]|].
  intros [[[px nb'] w'] h']. destruct (nth j (s_scaled s) None) as [old|].
  - cbv zeta. eapply hx_bind with (Q := fun v tw => (v = 0 /\ T m j f tw) \/ T m (S j) f tw).
    { eapply hx_weak; [apply st_frame; exact Hm|intros tw H; exact H| |intros tw H; exact H]. intros v tw [H|[_ H]]; auto. }
    intros v. eapply hx_bind with (Q := fun _ => T m (S j) f).
    { apply hx_expect; [intros tw [[-> H]|H] Hv; [discriminate|exact H]|intros tw [[_ H]|H]; eapply Up; exact H]. }
    intros _. eapply hx_bind with (Q := fun _ => T m (S j) f); [apply hx_modT; intros s1 w; apply T_scaled|]. intros _. apply IH.
  - apply hx_modT. intros s1 w H. apply T_scaled. eapply Up. exact H.
Qed.
Lemma st_write_multi m f data n : m + 1 < 2 ^ 32 -> hx (T m 1 f) (write_multiscale E data n) (fun _ => T (m + 1) 0 f) (T (m + 1) 0 f).
Proof.
  intros Hm. assert (Up : forall tw, T m 1 f tw -> T (m + 1) 0 f tw) by (intros tw H; eapply T_up; [exact H|cbn; lia]).
  unfold write_multiscale. apply hx_getT. intros s. destruct (Stream.s_multi s).
  2: { apply hx_ret. intros tw [H _]. auto. }
  destruct (dt_count <=? s_dtype s); [intros tw [H _]; cbn; auto|].
  eapply hx_bind with (Q := fun _ => T m 1 f); [apply hx_lift; [tauto|intros tw [H _]; auto]|]. intros bpp. apply st_multi. exact Hm.
Qed.

(** *** append *)
Definition L (t : Z) (tw : TW) : Prop := exists m, T m 0 (s_foff (fst tw)) tw /\ 0 <= s_foff (fst tw) <= fb /\ 0 <= m /\ m * fb + s_foff (fst tw) <= t.
Hypothesis Hfb : 0 < fb.
Lemma L_intro t m f tw : T m 0 f tw -> 0 <= f <= fb -> 0 <= m -> m * fb + f <= t -> L t tw.
Proof. intros H A1 A2 A3. exists m. destruct H as [X Y]. rewrite (t_f _ _ _ _ Y). split; [split; auto|auto]. Qed.
Lemma T_fbuf m j f s w x g : T m j f (s, w) -> zlen x = fb -> T m j g (set_fbuf s x g, w).
Proof. intros [X [Y1 Y2 Y3 Y4 Y5 Y6]] H. split; [exact X|]. split; auto. Qed.
Lemma st_loop Tt data : Tt < 2 ^ 32 * fb -> forall fuel pos written m f, 0 <= pos -> 0 <= written -> 0 <= f <= fb -> 0 <= m -> m * fb + f + Z.max 0 (zlen data - written) <= Tt ->
  hx (T m 0 f) (append_loop E fuel data pos written) (fun _ => L (Tt + fb)) (L (Tt + fb)).
Proof.
  intros HT. induction fuel as [|fu IH]; intros pos written m f Hp Hw Hf Hm HB; cbn [append_loop].
  { intros tw H. cbn. eapply L_intro; eauto; lia. }
  destruct (Z.ltb_spec written (zlen data)) as [Lt|Ge].
  2: { apply hx_ret. intros tw H. eapply L_intro; eauto; lia. }
  rewrite Z.max_r in HB by lia. apply hx_getT. intros s. cbv zeta.
  assert (Any : forall tw, T m 0 f tw /\ fst tw = s -> L (Tt + fb) tw) by (intros tw [H _]; eapply L_intro; eauto; lia).
  destruct (Z.eq_dec (zlen (s_fbuf s)) fb) as [Eb|Nb]; [destruct (Z.eq_dec (s_foff s) f) as [Ef|Nf]|].
  2: { intros tw [[_ Y] E0]. subst s. destruct Nf. apply Y. }
  2: { intros tw [[_ Y] E0]. subst s. destruct Nb. apply Y. }
  rewrite Eb, Ef. destruct (Z.ltb_spec 0 f) as [Fp|Fz].
  - set (n := Z.min (fb - f) (zlen data - written)) in *. assert (Hn : 0 <= n <= fb - f /\ n <= zlen data - written) by (unfold n; lia).
    destruct (Z.ltb_spec (zlen data) (pos + written + n)) as [B1|B1]; [intros tw H; cbn; auto|].
    eapply hx_bind with (Q := fun _ => T m 0 (f + n)).
    { apply hx_modT. intros s1 w [H E1]. cbn in E1. subst s1. rewrite Ef. eapply T_fbuf; [exact H|]. rewrite splice_length; [exact Eb|lia|]. rewrite slice_length; lia. }
    intros _. destruct (Z.eqb_spec (f + n) fb) as [Full|Part].
    2: { eapply hx_pre; [apply (IH pos (written + n) m (f + n)); lia|auto]. }
    assert (Hm1 : m + 1 < 2 ^ 32) by nia.
    destruct (Z.ltb_spec (zlen data) (pos + fb)) as [B2|B2]; [intros tw H; cbn; eapply L_intro; eauto; lia|].
    eapply hx_bind with (Q := fun v tw => (v = 0 /\ T m 0 (f + n) tw) \/ T m 1 (f + n) tw).
    { eapply hx_weak; [apply st_frame; exact Hm1|intros tw H; exact H|intros v tw [H|[_ H]]; auto|]. intros tw H. eapply L_intro; [exact H|lia|lia|lia]. }
    intros r. destruct (Z.eqb_spec r 0) as [R0|R0].
    { apply hx_ret. intros tw [[_ H]|H]; [eapply L_intro; [exact H|lia|lia|lia]|]. apply (T_up _ _ _ _ (m + 1)) in H; [|cbn; lia]. eapply L_intro; [exact H|lia|lia|lia]. }
    eapply hx_bind with (Q := fun _ => T (m + 1) 0 0).
    { apply hx_modT. intros s1 w [[H _]|H]; [congruence|]. apply (T_up _ _ _ _ (m + 1)) in H; [|cbn; lia]. eapply T_fbuf; [exact H|]. apply (proj2 H). }
    intros _. apply IH; lia.
  - destruct (Z.ltb_spec (zlen data - written) fb) as [B0|B0].
    + destruct (Z.ltb_spec (zlen data) (pos + (zlen data - written))) as [B1|B1]; [intros tw H; cbn; auto|].
      eapply hx_bind with (Q := fun _ => T m 0 (zlen data - written)).
      { apply hx_modT. intros s1 w [H E1]. cbn in E1. subst s1. eapply T_fbuf; [exact H|]. rewrite splice_length; [exact Eb|lia|]. rewrite slice_length; lia. }
      intros _. apply IH; lia.
    + assert (Hm1 : m + 1 < 2 ^ 32) by nia.
      destruct (Z.ltb_spec (zlen data) (pos + fb)) as [B1|B1]; [intros tw H; cbn; auto|].
      eapply hx_bind with (Q := fun v tw => (v = 0 /\ T m 0 f tw) \/ (v = fb /\ T m 1 f tw)).
      { eapply hx_weak; [apply st_frame; exact Hm1|intros tw [H _]; exact H| |intros tw H; eapply L_intro; [exact H|lia|lia|lia]]. intros v tw [H|[-> H]]; [auto|]. right. split; [apply slice_length; lia|exact H]. }
      intros r. destruct (Z.eqb_spec r 0) as [R0|R0].
      { apply hx_ret. intros tw [[_ H]|[H _]]; [eapply L_intro; [exact H|lia|lia|lia]|lia]. }
      eapply hx_pre with (P := fun tw => r = fb /\ T m 1 f tw); [|intros tw [[H _]|H]; [congruence|exact H]].
      intros tw [-> H]. revert tw H. change (hx (T m 1 f) (write_multiscale E (slice data pos fb) fb ;;; append_loop E fu data (pos + fb) (written + fb)) (fun _ => L (Tt + fb)) (L (Tt + fb))).
      eapply hx_bind with (Q := fun _ => T (m + 1) 0 f).
      { eapply hx_weak; [apply (st_write_multi m f); exact Hm1|intros tw H; exact H|intros v tw H; exact H|]. intros tw H. eapply (L_intro _ (m + 1) f); [exact H|lia|lia|lia]. }
      intros _. apply IH; lia.
Qed.
Lemma st_append t data : t + zlen data < 2 ^ 32 * fb -> hx (L t) (append E data) (fun _ => L (t + zlen data + fb)) (L (t + zlen data + fb)).
Proof.
  intros HT tw (m & H & Hf & Hm & HB). pose proof (zlen_nonneg data) as Z0. set (f := s_foff (fst tw)) in *. assert (LL : forall tw, T m 0 f tw -> L (t + zlen data + fb) tw) by (intros tw' H'; eapply L_intro; eauto; lia).
  revert tw f Hf HB LL H. intros tw f. generalize f. clear f. intros f Hf HB LL. revert tw.
  change (hx (T m 0 f) (append E data) (fun _ => L (t + zlen data + fb)) (L (t + zlen data + fb))).
  unfold append. eapply hx_bind with (Q := fun _ => T m 0 f); [intros [s w] H; exact H|]. intros w0. eapply hx_bind with (Q := fun _ => T m 0 f); [apply hx_expect; [auto|exact LL]|]. intros _.
  apply st_loop; lia.
Qed.
Lemma L_mono t t' tw : L t tw -> t <= t' -> L t' tw.
Proof. intros (m & H & A1 & A2 & A3) Ht. exists m. split; [exact H|]. split; [exact A1|]. split; [exact A2|lia]. Qed.
Lemma st_appends calls : forall t, t + GridSpec.bytes_given calls + fb * zlen calls < 2 ^ 32 * fb ->
  hx (L t) (api_appends E calls) (fun _ => L (t + GridSpec.bytes_given calls + fb * zlen calls)) (L (t + GridSpec.bytes_given calls + fb * zlen calls)).
Proof.
  induction calls as [|d calls IH]; intros t HT; cbn [api_appends].
  - apply hx_ret. intros tw H. eapply L_mono; [exact H|]. change (bytes_given []) with 0. change (zlen (@nil (list Z))) with 0. lia.
  - assert (Eq : GridSpec.bytes_given (d :: calls) = zlen d + GridSpec.bytes_given calls) by reflexivity. assert (Ez : zlen (d :: calls) = 1 + zlen calls) by (unfold zlen; cbn [List.length]; lia). rewrite Eq, Ez in *.
    assert (0 <= GridSpec.bytes_given calls) by (clear; induction calls as [|x l IH]; [cbn; lia|]; change (GridSpec.bytes_given (x :: l)) with (zlen x + GridSpec.bytes_given l); pose proof (zlen_nonneg x); lia).
    pose proof (zlen_nonneg calls). pose proof (zlen_nonneg d). assert (0 <= fb * zlen calls) by nia.
    assert (HA : hx (L t) (append E d) (fun _ => L (t + zlen d + fb)) (L (t + zlen d + fb))) by (apply st_append; lia).
    assert (Ed : t + (zlen d + GridSpec.bytes_given calls) + fb * (1 + zlen calls) = t + zlen d + fb + GridSpec.bytes_given calls + fb * zlen calls) by lia. rewrite Ed.
    assert (Mn : forall tw, L (t + zlen d + fb) tw -> L (t + zlen d + fb + GridSpec.bytes_given calls + fb * zlen calls) tw) by (intros tw H'; eapply L_mono; [exact H'|lia]).
    eapply hx_bind with (Q := fun _ => L (t + zlen d + fb)).
    + unfold api_append. eapply hx_catch; [eapply hx_bind; [exact HA|intros n; apply hx_ret; auto]|exact Mn|intros e; apply hx_ret; auto].
    + intros r. eapply hx_bind; [apply IH; lia|]. intros rs. apply hx_ret. auto.
Qed.

(** *** closing the stream *)
Definition Vf (m : Z) (i : nat) (tw : TW) : Prop := cnt b k (snd tw) + wsum i (skipn i (s_writers (fst tw))) <= NN /\
  forall j a, (i <= j)%nat -> nth_error (s_writers (fst tw)) j = Some a -> exists c, nth_error cs j = Some c /\ bw v3 c a /\ a_append a <= m.
Lemma skipn_nth {A} (l : list A) i a : nth_error l i = Some a -> skipn i l = a :: skipn (S i) l.
Proof. revert i. induction l as [|x l IH]; intros [|i] H; try discriminate; [injection H as ->; reflexivity|]. cbn [skipn]. apply IH. exact H. Qed.
Lemma skipn_upd {A} (l : list A) i a : skipn (S i) (upd l i a) = skipn (S i) l.
Proof. revert i. induction l as [|x l IH]; intros [|i]; try reflexivity. change (upd (x :: l) (S i) a) with (x :: upd l i a). cbn [skipn]. apply IH. Qed.
Lemma st_close m : m + 1 < 2 ^ 32 -> forall n i, hx (Vf m i) (all_ok (fun i => on_writer i (finalize_array E)) (seq i n)) (fun _ tw => cnt b k (snd tw) <= NN) (fun tw => cnt b k (snd tw) <= NN).
Proof.
  intros Hm. assert (VN : forall i tw, Vf m i tw -> cnt b k (snd tw) <= NN) by (intros i tw [X _]; pose proof (wsum_nonneg (skipn i (s_writers (fst tw))) i); lia).
  induction n as [|n IH]; intros i; cbn [seq all_ok]; [apply hx_ret; apply VN|].
  eapply hx_bind with (Q := fun _ => Vf m (S i)).
  - intros [s w] V. pose proof (VN _ _ V) as V0. unfold on_writer. destruct (nth_error (s_writers s) i) as [a|] eqn:Na; [|exact V0]. destruct V as [V1 V2]. cbn [fst snd] in *.
    destruct (V2 i a (Nat.le_refl _) Na) as (c & Nc & Ba & Aa). rewrite (skipn_nth _ _ _ Na) in V1. cbn [wsum] in V1.
    pose proof (finalize_spec E b k v3 c (qof i) (mtf i) (sound_d i c Nc) (sound_m i c Nc) (NN - wsum (S i) (skipn (S i) (s_writers s))) m Hm (a, w)) as F.
    assert (Ja : Jm b k v3 c (qof i) (mtf i) (NN - wsum (S i) (skipn (S i) (s_writers s))) m (a, w)) by (exists (a_append a); split; [split; cbn [fst snd]; [unfold mayi in *; lia|split; auto]|lia]).
    specialize (F Ja). pose proof (wsum_nonneg (skipn (S i) (s_writers s)) (S i)) as WN. destruct (finalize_array E (a, w)) as [[a' w'] [v|e| |]]; cbn [fst snd] in F |- *; try lia.
    split; cbn [fst snd s_writers set_writers]; [rewrite skipn_upd; lia|]. intros j x Hj Hx. destruct (ne_upd _ _ _ _ _ Hx) as [[-> _]|[_ Hx']]; [lia|]. apply V2; [lia|exact Hx'].
  - intros ok. destruct ok; [apply IH|apply hx_ret; apply VN].
Qed.
Lemma st_finalize m f : m + 1 < 2 ^ 32 -> hx (T m 0 f) (finalize_stream E) (fun _ tw => cnt b k (snd tw) <= NN) (fun tw => cnt b k (snd tw) <= NN).
Proof.
  intros Hm. assert (TN : forall tw, T m 0 f tw -> cnt b k (snd tw) <= NN).
  { intros tw [X _]. unfold tot in X. pose proof (wsum_nonneg (s_writers (fst tw)) 0). pose proof (hsum_nonneg b k (map snd (s_msinks (fst tw)))). unfold hm in X. lia. }
  assert (Wms : forall s l, ts m 0 f s -> ts m 0 f (set_msinks s l)) by (intros s l [Y1 Y2 Y3 Y4 Y5 Y6]; split; auto).
  unfold finalize_stream. eapply hx_bind with (Q := fun _ => T m 0 f); [eapply hx_weak; [apply pd_hx; intros M0; apply d_group; exact Wms|auto|auto|exact TN]|].
  intros ok. destruct ok; [|apply hx_ret; exact TN]. apply hx_getT. intros s0. eapply hx_bind with (Q := fun _ => T m 0 f).
  { eapply hx_weak; [apply pd_hx; intros M0; apply d_all_ok; intros i; apply d_msink; exact Wms|intros tw [H _]; exact H|auto|exact TN]. }
  intros ok. destruct ok; [|apply hx_ret; exact TN]. eapply hx_bind with (Q := fun _ => Vf m 0).
  { apply hx_modT. intros s w [X Y]. cbn [fst snd] in *. split; cbn [fst snd s_writers set_msinks skipn].
    - unfold tot in X. pose proof (hsum_nonneg b k (map snd (s_msinks s))). unfold hm in X. lia.
    - intros j a _ Hj. destruct Y as [Y1 Y2 Y3 Y4 Y5 Y6]. destruct (F2_nth _ _ _ Y1 j a Hj) as (c & Nc & Ba). exists c. split; [exact Nc|]. split; [exact Ba|]. specialize (Y5 j a Hj). change (Nat.ltb j 0) with false in Y5. cbv iota in Y5. lia. }
  intros _. apply hx_getT. intros s1. eapply hx_bind with (Q := fun _ tw => cnt b k (snd tw) <= NN).
  { eapply hx_pre; [apply st_close; exact Hm|intros tw [H _]; exact H]. }
  intros ok. destruct ok; [|apply hx_ret; auto]. eapply hx_bind with (Q := fun _ tw => cnt b k (snd tw) <= NN); [apply hx_modT; intros s w H; exact H|]. intros _. apply hx_ret. auto.
Qed.

(** *** creating the stream *)
Definition dtf : Z := match it with Some (StoreDoc _) => 1 | _ => 0 end.
Variable CC : Z.
Hypothesis HT : forall tw, T 0 0 0 tw -> cnt b k (snd tw) <= CC.
Section Quiet.
Variable c : Z.
Notation pw := (pres (Qw b k c)).
Lemma q_connections n : pw any (open_connections E n).
Proof. induction n as [|n IH]; cbn [open_connections]; [st|]. bd; [apply q_request|]. destruct a as [ok i]. bd; [destruct ok; [apply q_return|st]|exact IH]. Qed.
Lemma q_create_store s : pw any (create_store E s).
Proof.
  unfold create_store. destruct (Stream.s_bucket s).
  - bd; [intros w H; split; [exact H|intros; exact I]|]. bd; [apply q_connections|]. eapply pres_bind; [apply pres_get|intros w _]. destruct (Nat.eqb _ 0); [bd; [apply q_err|st]|].
    bd; [apply q_conn|]. bd; [apply q_request|]. destruct a2 as [ok i]. destruct ok; (bd; [first [apply q_return|apply q_err]|st]).
  - bn ex; [apply q_exists|]. bn ok; [destruct ex; [apply q_rm|st]|]. destruct ok; [|bd; [apply q_err|st]]. bn cr; [apply q_mkdirs|]. destruct cr; [st|bd; [apply q_err|st]].
Qed.
Lemma ver_names l : metadata_paths (if v3 then 3 else 2) = Ok l -> l = store_docs v3.
Proof. unfold metadata_paths, store_docs. destruct v3; cbn; congruence. Qed.
Lemma docs_nodup : NoDup (store_docs v3).
Proof. unfold store_docs. destruct v3; repeat constructor; cbn; intuition discriminate. Qed.
Lemma q_metas_fs base : pw (fun l => hm l = 0) (make_metadata_sinks_fs E (if v3 then 3 else 2) base).
Proof.
  unfold make_metadata_sinks_fs. cbv zeta. bd; [st|]. bd; [st|]. bd; [apply q_make_dirs|]. bd; [st|]. bd; [apply q_make_dirs|]. bd; [st|].
  apply pres_mfold; [|reflexivity]. intros acc n _ Hacc. bd; [apply q_file_sink|]. bd; [apply q_done|]. apply pres_ret. unfold hm in *. rewrite map_app, hsum_app, Hacc. reflexivity.
Qed.
Lemma q_docs b' base l acc : pw (fun s => hm s = hm acc + occ b k b' (map (fun n => base ++ "/" ++ n)%string l)) (mfold (fun acc n => s <- s3_sink b' (base ++ "/" ++ n) ;; ret (acc ++ [(n, Some (SS3 s))])%list) l acc).
Proof.
  revert acc. induction l as [|n l IH]; intros acc; cbn [mfold map].
  - apply pres_ret. unfold occ. cbn. destruct (_ =? _)%string; lia.
  - eapply pres_bind with (P := fun acc' => hm acc' = hm acc + own b k b' (base ++ "/" ++ n)).
    + eapply pres_bind; [apply q_s3_sink|]. intros s [X1 X2]. apply pres_ret. unfold hm. rewrite map_app, hsum_app. cbn [map snd hsum fold_right h_slot h_sink]. rewrite X1, X2. lia.
    + intros acc' H. eapply pres_weak; [apply IH|]. intros s X. cbn beta in *. rewrite X, H. unfold occ, own. destruct (b =? b')%string; cbn [andb count_occ]; [|lia].
      destruct (string_dec (base ++ "/" ++ n)%string k) as [->|Ne]; [rewrite String.eqb_refl; lia|]. destruct (String.eqb_spec k (base ++ "/" ++ n)%string) as [->|_]; [congruence|]. lia.
Qed.
Lemma sapp_inj (x y z : string) : (x ++ y = x ++ z)%string -> y = z.
Proof. induction x as [|a x IH]; cbn; [auto|]. intros H. injection H. exact IH. Qed.
Lemma q_metas_s3 b' : bk = Some b' -> pw (fun o => match o with Some l => hm l <= dtf | None => True end) (make_metadata_sinks_s3 E (if v3 then 3 else 2) b' root).
Proof.
  intros Hb. unfold make_metadata_sinks_s3. bd; [st|]. bd; [st|]. bn ok; [apply q_bucket|]. destruct ok; [|apply pres_ret; exact I].
  eapply pres_bind with (P := fun l => l = store_docs v3); [apply pres_lift; apply ver_names|]. intros l ->.
  eapply pres_bind; [apply q_docs|]. intros l Hl. apply pres_ret. cbn beta in Hl. rewrite Hl. change (hm []) with 0. unfold occ. destruct (String.eqb_spec b b') as [<-|Nb]; [|unfold dtf; destruct it as [[| |]|]; lia].
  assert (ND : NoDup (map (fun n => root ++ "/" ++ n)%string (store_docs v3))).
  { apply FinFun.Injective_map_NoDup; [|apply docs_nodup]. intros x y X. apply sapp_inj in X. apply sapp_inj in X. exact X. }
  pose proof (proj1 (NoDup_count_occ string_dec _) ND k) as C1.
  destruct (in_dec string_dec k (map (fun n => root ++ "/" ++ n)%string (store_docs v3))) as [In|NI].
  - apply in_map_iff in In as (n & N1 & N2). assert (R : it = Some (StoreDoc n)) by (apply role; [exact Hb|exact N2|exact N1]). unfold dtf. rewrite R. lia.
  - apply (count_occ_not_In string_dec) in NI. rewrite NI. unfold dtf. destruct it as [[| |]|]; lia.
Qed.
Lemma q_drop s : pw any (drop_msinks s).
Proof. unfold drop_msinks. apply pres_miter. intros [n o] _. cbn [snd]. destruct o as [x|]; [apply q_destroy|st]. Qed.
End Quiet.
Definition start (s : stream) : Prop := ts 0 0 0 s /\ Stream.s_bucket s = bk /\ s_root s = root.
Lemma t_made c : c <= CC -> hx (fun tw => Qw b k c (snd tw) /\ start (fst tw) /\ s_msinks (fst tw) = [] /\ c + wsum 0 (s_writers (fst tw)) + dtf <= NN) (create_metadata_sinks E)
  (fun ok tw => T 0 0 0 tw) (fun tw => cnt b k (snd tw) <= CC).
Proof.
  intros Hc0 [s w] (X & (Y & B & R) & Z0 & W). cbn [fst snd] in *. unfold create_metadata_sinks. unfold bind at 1, getT. cbn [fst]. cbv zeta. rewrite B, R, (t_v _ _ _ _ Y).
  assert (P : pres (Qw b k c) (fun o => match o with Some l => hm l <= dtf | None => True end)
    (catchM (r0 <- match bk with Some b0 => make_metadata_sinks_s3 E (if v3 then 3 else 2) b0 root | None => l <- make_metadata_sinks_fs E (if v3 then 3 else 2) root ;; ret (Some l) end ;;
      match r0 with Some l => ret (Some l) | None => set_error "Error creating metadata sinks" ;;; ret None end) (fun m => set_error ("Error creating metadata sinks: " ++ m)%string ;;; ret None))).
  { apply pres_catch.
    - eapply pres_bind with (P := fun o => match o with Some l => hm l <= dtf | None => True end).
      + case_eq bk; [intros b' Hb; apply q_metas_s3; exact Hb|intros _]. eapply pres_bind; [apply q_metas_fs|]. intros l Hl. apply pres_ret. cbn beta in Hl. rewrite Hl. unfold dtf. destruct it as [[| |]|]; lia.
      + intros [l|] Hl; [apply pres_ret; auto|]. bd; [apply q_err|apply pres_ret; exact I].
    - intros m. bd; [apply q_err|]. apply pres_ret. exact I. }
  destruct (P w X) as [P1 P2]. unfold bind at 1, onT. cbn [snd fst]. match goal with |- context [catchM ?m ?h w] => destruct (catchM m h w) as [w1 [r|e| |]] end; cbn [fst snd] in *; unfold Qw in *.
  - specialize (P2 r eq_refl). destruct r as [l|]; cbn [bind modT ret fst snd].
    + split; [unfold tot; cbn [fst snd s_msinks s_writers set_msinks]; lia|]. destruct Y as [Y1 Y2 Y3 Y4 Y5 Y6]. split; auto.
    + split; [unfold tot; cbn [fst snd]; rewrite Z0; change (hm []) with 0|exact Y]. assert (0 <= dtf) by (unfold dtf; destruct it as [[| |]|]; lia). cbn [fst snd]. lia.
  - cbn [fst snd]. lia.
  - cbn [fst snd]. lia.
  - cbn [fst snd]. lia.
Qed.
Lemma T_cnt m j f tw : T m j f tw -> cnt b k (snd tw) <= NN.
Proof. intros [X _]. unfold tot in X. pose proof (wsum_nonneg (s_writers (fst tw)) 0). pose proof (hsum_nonneg b k (map snd (s_msinks (fst tw)))). unfold hm in X. lia. Qed.
Lemma t_opening c : c <= CC -> hx (fun tw => Qw b k c (snd tw) /\ start (fst tw) /\ s_msinks (fst tw) = [] /\ c + wsum 0 (s_writers (fst tw)) + dtf <= NN) (opening E)
  (fun _ => T 0 0 0) (fun tw => cnt b k (snd tw) <= CC).
Proof.
  intros Hc0. assert (Wms : forall s l, ts 0 0 0 s -> ts 0 0 0 (set_msinks s l)) by (intros s l [Y1 Y2 Y3 Y4 Y5 Y6]; split; auto).
  assert (EX : forall ok e, hx (T 0 0 0) (expectM ok e) (fun _ => T 0 0 0) (fun tw => cnt b k (snd tw) <= CC)) by (intros ok e; apply hx_expect; [auto|apply HT]).
  unfold opening. eapply hx_bind with (Q := fun _ => T 0 0 0); [apply (t_made c Hc0)|]. intros ok0. eapply hx_bind with (Q := fun _ => T 0 0 0); [apply EX|]. intros _.
  eapply hx_bind with (Q := fun _ => T 0 0 0); [eapply hx_weak; [apply pd_hx; intros M0; apply d_base; exact Wms|auto|auto|apply HT]|]. intros ok1. eapply hx_bind with (Q := fun _ => T 0 0 0); [apply EX|]. intros _.
  eapply hx_bind with (Q := fun _ => T 0 0 0); [eapply hx_weak; [apply pd_hx; intros M0; apply d_group; exact Wms|auto|auto|apply HT]|]. intros ok2. eapply hx_bind with (Q := fun _ => T 0 0 0); [apply EX|]. intros _.
  eapply hx_bind with (Q := fun _ => T 0 0 0); [eapply hx_weak; [apply pd_hx; intros M0; apply d_external; exact Wms|auto|auto|apply HT]|]. intros ok3. apply EX.
Qed.
(** the writers are new *)
Definition lvl : option Z := match it with Some (Piece l _ _) => Some l | Some (ArrayDoc l) => Some l | _ => None end.
Definition new_w (a : writer) : Prop := a_sinks a = [] /\ a_meta a = None /\ a_append a = 0 /\ a_frames a = 0.
Lemma fresh_sum ws : Forall new_w ws -> forall i, wsum i ws <= match lvl with Some l => if Z.of_nat i <=? l then 1 else 0 | None => 0 end.
Proof.
  induction 1 as [|a ws (A1 & A2 & A3 & _) _ IH]; intros i; cbn [wsum]; [destruct lvl; [destruct (_ <=? _)|]; lia|].
  specialize (IH (S i)). unfold mayi, may, futq, futm, nextq. rewrite A1, A2, A3. cbn [hsum fold_right h_slot]. unfold qof, mtf, lvl in *.
  destruct it as [[l q cc|l|n]|]; try lia.
  - destruct (Z.eqb_spec l (Z.of_nat i)); [|destruct (Z.leb_spec (Z.of_nat (S i)) l), (Z.leb_spec (Z.of_nat i) l); lia]. destruct (Z.leb_spec (Z.of_nat (S i)) l), (Z.leb_spec (Z.of_nat i) l), (0 <=? q); lia.
  - destruct (Z.eqb_spec l (Z.of_nat i)); destruct (Z.leb_spec (Z.of_nat (S i)) l), (Z.leb_spec (Z.of_nat i) l); lia.
Qed.
Lemma fresh_total ws : Forall new_w ws -> wsum 0 ws + dtf <= 1.
Proof. intros W2. pose proof (fresh_sum ws W2 0) as F. change (Z.of_nat 0) with 0 in F. unfold dtf. unfold lvl in F. destruct it as [[| |]|]; try (destruct (_ <=? _)); lia. Qed.
Lemma t_new st c : c <= CC ->
  place st = (bk, root) -> v3 = (st_version st =? 3) ->
  (forall s n, commit st = Ok s -> bytes_of_frame (s_dims s) (s_dtype s) = Ok n -> n = fb) ->
  (forall s ws, commit st = Ok s -> create_writers s = Ok ws -> (Forall2 (bw v3) cs ws /\ Forall new_w ws) /\ forall i a, nth_error ws i = Some a -> KK i a) ->
  (forall s ws, commit st = Ok s -> create_writers s = Ok ws -> c + wsum 0 ws + dtf <= NN) ->
  hx (Qw b k c) (new_stream E (Some st)) (fun s w => T 0 0 0 (s, w)) (fun w => cnt b k w <= CC).
Proof.
  intros Hc0 HP HV Hn Hw Hsum w0 Hw0. unfold new_stream. destruct (validate_settings E w0 (Some st)) as [[]|e| |]; try (unfold Qw in Hw0; lia).
  assert (Any : forall w, Qw b k c w -> cnt b k w <= CC) by (unfold Qw; intros; lia).
  assert (N : hx (Qw b k c) (s <- liftM (commit st) ;; n <- liftM (bytes_of_frame (s_dims s) (s_dtype s)) ;; let s := set_fbuf s (zrep 0 n) 0 in ok <- create_store E s ;; expectM ok "create_store_" ;;; ws <- liftM (create_writers s) ;;
    let s := set_writers s ws in let s := if Stream.s_multi s then set_scaled s (map (fun _ => None) ws) 0 else s in fun w => let '((s', w'), r) := opening E (s, w) in match r with Throw m => (fst (drop_msinks s' w'), Throw m) | _ => (w', let? _ := r in Ok s') end)
    (fun s w => T 0 0 0 (s, w)) (fun w => cnt b k w <= CC)).
  2:{ exact (N w0 Hw0). }
  eapply hx_bind with (Q := fun s w => Qw b k c w /\ commit st = Ok s); [apply hx_lift; auto|]. intros s. eapply hx_bind with (Q := fun n w => (Qw b k c w /\ commit st = Ok s) /\ n = fb); [apply hx_lift; [intros w n Hn' [H1 H2]; split; [auto|]; eapply Hn; eauto|intros w [H _]; auto]|].
  intros n. cbv zeta. intros w [[Qc Hs] ->]. revert w Qc. destruct (FrameStream.commit_place _ _ Hs) as (S1 & S2 & S3 & S4). rewrite HP in S1.
  change (hx (Qw b k c) (ok <- create_store E (set_fbuf s (zrep 0 fb) 0) ;; expectM ok "create_store_" ;;; ws <- liftM (create_writers (set_fbuf s (zrep 0 fb) 0)) ;;
    (fun w => let '((s', w'), r) := opening E (if Stream.s_multi (set_writers (set_fbuf s (zrep 0 fb) 0) ws) then set_scaled (set_writers (set_fbuf s (zrep 0 fb) 0) ws) (map (fun _ => None) ws) 0 else set_writers (set_fbuf s (zrep 0 fb) 0) ws, w) in match r with Throw m => (fst (drop_msinks s' w'), Throw m) | _ => (w', let? _ := r in Ok s') end))
    (fun s w => T 0 0 0 (s, w)) (fun w => cnt b k w <= CC)).
  eapply hx_bind with (Q := fun _ => Qw b k c).
  { eapply hx_weak; [apply hx_pres, (q_create_store c)|intros w H; exact H|intros v w [H _]; exact H|exact Any]. }
  intros ok. eapply hx_bind with (Q := fun _ => Qw b k c); [apply hx_expect; auto|]. intros _. eapply hx_bind with (Q := fun ws w => Qw b k c w /\ create_writers s = Ok ws); [apply hx_lift; [intros w ws Hws H; split; [exact H|exact Hws]|exact Any]|].
  intros ws w [Qc Hws]. destruct (Hw s ws Hs Hws) as [[W1 W2] W3]. match goal with |- context [opening E (?s', w)] => set (s1 := s') end.
  assert (HS : start s1 /\ s_msinks s1 = [] /\ s_writers s1 = ws).
  { assert (SB : Stream.s_bucket s = bk) by congruence. assert (SR : s_root s = root) by congruence.
    assert (Z0 : zlen (zrep 0 fb) = fb) by (unfold zrep, zlen; rewrite repeat_length, Z2Nat.id by lia; reflexivity).
    assert (A0 : forall i a, nth_error ws i = Some a -> a_append a <= 0 + (if Nat.ltb i 0 then 1 else 0) /\ 0 <= a_frames a <= 0 + (if Nat.ltb i 0 then 1 else 0)) by (intros i a Hi; rewrite Forall_forall in W2; destruct (W2 a (nth_error_In _ _ Hi)) as (_ & _ & -> & ->); change (Nat.ltb i 0) with false; cbv iota; lia).
    assert (V3' : s_v3 s = v3) by congruence.
    unfold s1. cbn [Stream.s_multi set_writers set_fbuf]. destruct (Stream.s_multi s); (split; [split; [split; cbn; auto|split; auto]|split; [exact S4|reflexivity]]). }
  destruct HS as (HS & HM & HW). clearbody s1. clear Hw.
  pose proof (Hsum s ws Hs Hws) as X2. pose proof (t_opening c Hc0 (s1, w)) as O. cbn [fst snd] in O. rewrite HW in O. specialize (O (conj Qc (conj HS (conj HM X2)))).
  destruct (opening E (s1, w)) as [[s' w'] [u|e| |]]; cbn [fst snd] in *; auto.
  destruct (q_drop (cnt b k w') s' w' eq_refl) as [D _]. unfold Qw in D. rewrite D. exact O.
Qed.
Lemma t_session st calls c : c <= CC -> CC <= NN ->
  place st = (bk, root) -> v3 = (st_version st =? 3) ->
  (forall s n, commit st = Ok s -> bytes_of_frame (s_dims s) (s_dtype s) = Ok n -> n = fb) ->
  (forall s ws, commit st = Ok s -> create_writers s = Ok ws -> (Forall2 (bw v3) cs ws /\ Forall new_w ws) /\ forall i a, nth_error ws i = Some a -> KK i a) ->
  (forall s ws, commit st = Ok s -> create_writers s = Ok ws -> c + wsum 0 ws + dtf <= NN) ->
  bytes_given calls + fb * (zlen calls + 1) < 2 ^ 32 * fb ->
  forall w, cnt b k w = c -> cnt b k (fst (session E st calls w)) <= NN.
Proof.
  intros Hc0 Hcn HP HV Hn Hw Hsum HB w Hc. unfold session. pose proof (t_new st c Hc0 HP HV Hn Hw Hsum w Hc) as N. rewrite IndepStream.bind_gen. unfold api_create, catchM. rewrite IndepStream.bind_gen.
  destruct (new_stream E (Some st) w) as [w1 [s|e| |]]; cbn [fst snd ret] in *; try lia.
  assert (L0 : L 0 (s, w1)) by (eapply (L_intro 0 0 0); [exact N|lia|lia|lia]).
  pose proof (st_appends calls 0 ltac:(lia) (s, w1) L0) as A. rewrite IndepStream.bind_gen. destruct (api_appends E calls (s, w1)) as [tw2 r].
  assert (A' : L (0 + bytes_given calls + fb * zlen calls) tw2) by (destruct r; exact A). clear A. destruct A' as (m & A1 & A2 & A3 & A4).
  assert (C2 : cnt b k (snd tw2) <= NN) by (eapply T_cnt; exact A1).
  destruct r as [rs|e| |]; try (destruct tw2; exact C2).
  assert (Hm1 : m + 1 < 2 ^ 32) by nia.
  pose proof (st_finalize m _ Hm1 tw2 A1) as F. rewrite IndepStream.bind_gen. unfold api_destroy. destruct (finalize_stream E tw2) as [[s3 w3] [d|e| |]]; exact F.
Qed.
End St.

(** *** the writers of a stream *)
Lemma omap_len {A B} (f : A -> outcome B) l : forall r, omap f l = Ok r -> List.length r = List.length l.
Proof. induction l as [|a l IH]; intros r; cbn; [intros H; injection H as <-; reflexivity|]. destruct (f a); cbn; try discriminate. destruct (omap f l) as [y|e| |]; cbn; try discriminate. intros H. injection H as <-. cbn. rewrite (IH y eq_refl). reflexivity. Qed.
Lemma made v3 c a : make_writer v3 c = Ok a -> bw v3 c a /\ new_w a.
Proof.
  unfold make_writer. destruct v3.
  - destruct (number_of_shards (c_dims c)); cbn [obind]; try discriminate. repeat match goal with |- context [obind ?x _] => destruct x; cbn [obind]; try discriminate end. intros H. injection H as <-. repeat split; cbn; auto; lia.
  - repeat match goal with |- context [obind ?x _] => destruct x; cbn [obind]; try discriminate end. intros H. injection H as <-. repeat split; cbn; auto; lia.
Qed.
Definition cfg_at (root : string) (bk : option string) (nd : nat) (i : Z) (c : config) : Prop := c_level c = i /\ c_root c = root /\ c_bucket c = bk /\ List.length (c_dims c) = nd.
Lemma pyr_cfgs v3 root bk nd : forall fuel c i ws, cfg_at root bk nd i c -> pyramid fuel v3 c = Ok ws ->
  exists cs, Forall2 (bw v3) cs ws /\ Forall new_w ws /\ forall j c', nth_error cs j = Some c' -> cfg_at root bk nd (i + 1 + Z.of_nat j) c'.
Proof.
  induction fuel as [|f IH]; intros c i ws Hc; cbn [pyramid]; [discriminate|]. destruct (downsample c) as [[c' again]|e| |] eqn:Ds; cbn [obind]; try discriminate.
  assert (Hc' : cfg_at root bk nd (i + 1) c').
  { unfold downsample in Ds. destruct (omap downsample_dim (c_dims c)) as [ds|e| |] eqn:Od; cbn [obind] in Ds; try discriminate. unfold make_dimensions in Ds. destruct (Nat.ltb 2 (List.length ds)); cbn [obind] in Ds; try discriminate. injection Ds as <- _.
    destruct Hc as (H1 & H2 & H3 & H4). split; [cbn; lia|]. split; [exact H2|]. split; [exact H3|]. cbn. rewrite (omap_len _ _ _ Od). exact H4. }
  destruct (make_writer v3 c') as [a|e| |] eqn:Mk; cbn [obind]; try discriminate. destruct (made _ _ _ Mk) as [M1 M2]. destruct again.
  - destruct (pyramid f v3 c') as [l|e| |] eqn:Py; cbn [obind]; try discriminate. intros H. injection H as <-. destruct (IH c' (i + 1) l Hc' Py) as (cs & C1 & C2 & C3). exists (c' :: cs). split; [constructor; auto|]. split; [constructor; auto|].
    intros [|j] x Hx; [injection Hx as <-; rewrite Z.add_0_r; exact Hc'|]. specialize (C3 j x Hx). replace (i + 1 + Z.of_nat (S j)) with (i + 1 + 1 + Z.of_nat j) by lia. exact C3.
  - intros H. injection H as <-. exists [c']. split; [constructor; auto|]. split; [constructor; auto|]. intros [|j] x Hx; [injection Hx as <-; rewrite Z.add_0_r; exact Hc'|]. destruct j; discriminate.
Qed.
Lemma writers_cfgs s ws : create_writers s = Ok ws ->
  exists cs, Forall2 (bw (s_v3 s)) cs ws /\ Forall new_w ws /\ forall j c', nth_error cs j = Some c' -> cfg_at (s_root s) (Stream.s_bucket s) (List.length (s_dims s)) (Z.of_nat j) c'.
Proof.
  unfold create_writers. destruct (make_writer (s_v3 s) (base_config s)) as [a|e| |] eqn:Mk; cbn [obind]; try discriminate. destruct (made _ _ _ Mk) as [M1 M2].
  assert (B : cfg_at (s_root s) (Stream.s_bucket s) (List.length (s_dims s)) 0 (base_config s)) by (repeat split).
  destruct (Stream.s_multi s).
  - destruct (pyramid pyramid_fuel (s_v3 s) (base_config s)) as [l|e| |] eqn:Py; cbn [obind]; try discriminate. intros H. injection H as <-. destruct (pyr_cfgs _ _ _ _ _ _ _ _ B Py) as (cs & C1 & C2 & C3). exists (base_config s :: cs). split; [constructor; auto|]. split; [constructor; auto|].
    intros [|j] x Hx; [injection Hx as <-; exact B|]. specialize (C3 j x Hx). replace (Z.of_nat (S j)) with (0 + 1 + Z.of_nat j) by lia. exact C3.
  - intros H. injection H as <-. exists [base_config s]. split; [constructor; auto|]. split; [constructor; auto|]. intros [|j] x Hx; [injection Hx as <-; exact B|]. destruct j; discriminate.
Qed.
