(** In the life of a stream on S3 with Zarr V3, a shard of a row that is not full is never uploaded. *)
Require Import ZArith List Bool String Ascii Lia.
Require Import Verif.Base Verif.Spec Verif.Dim Verif.Limits Verif.Radix Verif.PathProofs Verif.Json Verif.World Verif.Writer Verif.LayoutProofs Verif.FrameProofs Verif.GridProofs Verif.LayoutSpec Verif.ItemProofs Verif.GridSpec Verif.OnceSpec Verif.OnceProofs
  Verif.Stream Verif.Api Verif.FrameStream Verif.SafeStream Verif.IndepStream Verif.OnceStream Verif.OrderStream Verif.LostProofs.
Require Verif.GridStream.
Import ListNotations.
Open Scope string_scope. Open Scope list_scope. Open Scope Z_scope.

Lemma fresh3 c a : make_writer true c = Ok a -> new_w a /\ bw true c a.
Proof. unfold make_writer, new_w, bw. intros H. destruct (number_of_shards (c_dims c)); try discriminate. injection H as <-. cbn [a_sinks a_meta a_append a_cfg a_v3 a_frames]. repeat split. lia. Qed.
Section St.
Variables (E : env) (b kd : string) (root : string) (nd : nat) (L : list geo) (bpp fb total : Z) (i : nat) (gi : geo) (q : Z) (cc : list Z).
Notation it := (Some (Piece (Z.of_nat i) q cc)).
Notation cs := (map g_c L).
Notation bk := (Some b).
Notation ok1 := (fun _ : string => True).
Notation NNf := (fun j : nat => total / 2 ^ Z.of_nat j).
Hypothesis Hnd : (3 <= nd)%nat.
Hypothesis Hcs : forall j c, nth_error cs j = Some c -> c_level c = Z.of_nat j /\ c_root c = root /\ c_bucket c = bk /\ List.length (c_dims c) = nd.
Hypothesis roled : bk = Some b -> forall it', sensible true (nd - 1) it' -> where_is true root it' = kd -> it = Some it'.
Hypothesis HL : forall j g, nth_error L j = Some g -> GridStream.lev true bpp ok1 NNf j g.
Hypothesis Hi : nth_error L i = Some gi.
Hypothesis Hq : 0 <= q.
Hypothesis Hcc : in_bounds (map (np true) (g_m gi ++ [g_y gi; g_x gi])) cc.
Hypothesis Hkd : kd = where_is true root (Piece (Z.of_nat i) q cc).
Hypothesis Hsens : sensible true (nd - 1) (Piece (Z.of_nat i) q cc).
Hypothesis Hfb : 0 < fb.
Notation ci := (g_c gi).
Notation per := (per true (g_0 gi) (g_m gi)).
Hypothesis Hlost : total / 2 ^ Z.of_nat i < (q + 1) * per.
Hypothesis H32 : total < 2 ^ 32.
Lemma ci_n : nth_error cs i = Some ci.
Proof. apply map_nth_error. exact Hi. Qed.
Lemma ci_b : c_bucket ci = Some b.
Proof. apply (Hcs i ci ci_n). Qed.
Lemma ci_k : kd = join_path (c_root ci) (data_comps true (c_level ci) q ++ map dec cc).
Proof. destruct (Hcs i ci ci_n) as (C1 & C2 & _). rewrite C1, C2, Hkd. exact (where_join true root (nd - 1) _ Hsens). Qed.
Lemma fi : fits bpp (g_0 gi) (g_m gi) (g_y gi) (g_x gi). Proof. apply (GridStream.l_f _ _ _ _ _ _ (HL i gi Hi)). Qed.
Lemma si : fits_shards (g_0 gi) (g_m gi) (g_y gi) (g_x gi). Proof. apply (GridStream.l_s _ _ _ _ _ _ (HL i gi Hi)). reflexivity. Qed.
Lemma di : c_dims ci = g_0 gi :: g_m gi ++ [g_y gi; g_x gi]. Proof. apply (GridStream.l_d _ _ _ _ _ _ (HL i gi Hi)). Qed.
Notation keeps := (keeps b kd (g_0 gi) (g_m gi) ci q).
Notation Lv := (Lv b kd (g_0 gi) (g_m gi) ci q).
Definition KK (j : nat) (a : writer) : Prop := j = i -> keeps a.
(** ... and when the last frame has been given *)
Definition ready (a : writer) : Prop := keeps a /\ a_frames a < (q + 1) * per /\ (a_toflush a = 0 \/ a_append a * per < a_frames a).
Definition KR (j : nat) (a : writer) : Prop := j = i -> ready a.
Lemma HK : forall j c m data a w, nth_error cs j = Some c -> bw true c a -> a_append a <= m -> 0 <= a_frames a <= m -> m + 1 < 2 ^ 32 -> KK j a -> KK j (fst (fst (write_frame E data (a, w)))).
Proof.
  intros j c m data a w Hj Ba Ha Hfr Hm X ->. specialize (X eq_refl).
  pose proof (frame_keeps E b kd bpp (g_0 gi) (g_m gi) (g_y gi) (g_x gi) ci q cc fi si di ci_b ci_k Hcc (a_frames a) data ltac:(lia) ltac:(lia) (a, w) X) as W.
  destruct (write_frame E data (a, w)) as [aw' [v|e| |]]; exact W.
Qed.
Notation wsum := (wsum b kd it).
Notation mayi := (mayi b kd it).
Lemma wsum_ge l : forall p j a, nth_error l j = Some a -> mayi (p + j) a <= wsum p l.
Proof.
  induction l as [|x l IH]; intros p [|j] a H; try discriminate; cbn [OnceStream.wsum].
  - injection H as ->. rewrite Nat.add_0_r. pose proof (wsum_nonneg b kd nd it Hnd l (S p)). lia.
  - specialize (IH (S p) j a H). replace (p + S j)%nat with (S p + j)%nat by lia. pose proof (may_nn b kd (qof it p) (mtf it p) x). unfold OnceStream.mayi at 2. lia.
Qed.
Lemma mayi_i a : mayi i a = may b kd (Some q) false a.
Proof. unfold OnceStream.mayi, qof, mtf. rewrite Z.eqb_refl. reflexivity. Qed.
Lemma ready_one a : ready a -> 1 <= mayi i a.
Proof. intros ((_ & _ & _ & R1) & R2 & _). rewrite mayi_i. pose proof (live_may b kd q false a (R1 R2)). pose proof (h_slot_nonneg b kd (a_meta a)). lia. Qed.
Definition rest (m : Z) (j : nat) (s : stream) : Prop := forall j' a, (j <= j')%nat -> nth_error (s_writers s) j' = Some a -> exists c, nth_error cs j' = Some c /\ bw true c a /\ a_append a <= m /\ a_frames a <= m /\ KR j' a.
Definition G (m : Z) (j : nat) (tw : TW) : Prop := cnt b kd (snd tw) + wsum j (skipn j (s_writers (fst tw))) <= (if Nat.leb j i then 1 else 0) /\ rest m j (fst tw) /\ exists a, nth_error (s_writers (fst tw)) i = Some a.
Lemma G_none m j tw : G m j tw -> cnt b kd (snd tw) <= 0.
Proof.
  intros (X & Y & a & Ha). pose proof (wsum_nonneg b kd nd it Hnd (skipn j (s_writers (fst tw))) j). destruct (Nat.leb_spec j i) as [Hj|Hj]; [|lia]. destruct (Y i a Hj Ha) as (c & _ & _ & _ & _ & Ka). pose proof (ready_one a (Ka eq_refl)) as R.
  assert (N : nth_error (skipn j (s_writers (fst tw))) (i - j) = Some a) by (rewrite nth_skipn; replace (j + (i - j))%nat with i by lia; exact Ha).
  pose proof (wsum_ge _ j _ a N) as W. replace (j + (i - j))%nat with i in W by lia. lia.
Qed.
Lemma rest_upd m j s a' : rest m j s -> rest m (S j) (set_writers s (upd (s_writers s) j a')).
Proof. intros H j' a Hj Ha. cbn [s_writers set_writers] in Ha. destruct (ne_upd _ _ _ _ _ Ha) as [[X _]|[_ X]]; [lia|]. apply H; [lia|exact X]. Qed.
Lemma upd_some {A} (l : list A) : forall j k x y, nth_error l k = Some y -> exists z, nth_error (upd l j x) k = Some z.
Proof. induction l as [|u l IH]; intros [|j] [|k] x y H; try discriminate; [eexists; reflexivity|exists y; exact H|eexists; reflexivity|]. change (upd (u :: l) (S j) x) with (u :: upd l j x). cbn [nth_error] in *. eapply IH; exact H. Qed.
Lemma sound_di : forall q' cc', 0 <= q' -> Forall (fun i => 0 <= i) cc' -> List.length cc' = (List.length (firstn (List.length (c_dims ci) - 2) (tl (c_dims ci))) + 1)%nat -> c_bucket ci = Some b -> kd = join_path (c_root ci) (data_comps true (c_level ci) q' ++ map dec cc') -> Some q = Some q'.
Proof. intros q' cc' H1 H2 H3 H4 H5. pose proof (sound_d b kd true root bk nd cs it Hnd Hcs roled i ci ci_n q' cc' H1 H2 H3 H4 H5) as X. unfold qof in X. rewrite Z.eqb_refl in X. exact X. Qed.
Lemma sound_mi : c_bucket ci = Some b -> kd = join_path (c_root ci) (meta_comps true (c_level ci)) -> false = true.
Proof. intros H1 H2. exact (sound_m b kd true root bk nd cs it Hnd Hcs roled i ci ci_n H1 H2). Qed.
Lemma l_close m : m + 1 < 2 ^ 32 -> forall n j, hx (G m j) (all_ok (fun i => on_writer i (finalize_array E)) (seq j n)) (fun _ tw => cnt b kd (snd tw) <= 0) (fun tw => cnt b kd (snd tw) <= 0).
Proof.
  intros Hm n. induction n as [|n IH]; intros j; cbn [seq all_ok]; [apply hx_ret; apply G_none|].
  eapply hx_bind with (Q := fun _ => G m (S j)).
  - intros [s w] X. unfold on_writer. pose proof (G_none m j (s, w) X) as XF. destruct (nth_error (s_writers s) j) as [a|] eqn:Ha; [|exact XF].
    assert (Res : G m (S j) (set_writers s (upd (s_writers s) j (fst (fst (finalize_array E (a, w))))), snd (fst (finalize_array E (a, w))))).
    { destruct X as (X1 & X2 & ai & Hai). cbn [fst snd] in *. destruct (X2 j a (Nat.le_refl _) Ha) as (c & Hc & Ba & Aa & Fa & Ka). rewrite (skipn_nth _ _ _ Ha) in X1. cbn [OnceStream.wsum] in X1.
      pose proof (wsum_nonneg b kd nd it Hnd (skipn (S j) (s_writers s)) (S j)) as Wn.
      split; [|split; [apply rest_upd; exact X2|cbn [fst s_writers set_writers]; eapply upd_some; exact Hai]]. cbn [fst snd s_writers set_writers]. rewrite skipn_upd.
      destruct (Nat.eq_dec j i) as [->|Ne].
      - rewrite (proj2 (Nat.leb_le i i) (Nat.le_refl i)) in X1. rewrite (proj2 (Nat.leb_gt (S i) i)) by lia. rewrite ci_n in Hc. injection Hc as <-. specialize (Ka eq_refl). pose proof (ready_one a Ka) as R1. destruct Ka as (K1 & K2 & K3). rewrite mayi_i in *.
        assert (J : Jm b kd true ci (Some q) false 1 m (a, w)). { exists (a_append a). split; [|exact Aa]. split; [cbn [fst snd]; lia|split; [exact Ba|reflexivity]]. }
        pose proof (fin_lost E b kd bpp (g_0 gi) (g_m gi) (g_y gi) (g_x gi) ci q cc fi si di ci_b ci_k Hcc false sound_di sound_mi (a_frames a) m K2 ltac:(lia) Hm (a, w) (conj J (conj K1 K3))) as S1.
        assert (cnt b kd (snd (fst (finalize_array E (a, w)))) <= 0) by (destruct (finalize_array E (a, w)) as [aw' [v|e| |]]; exact S1). assert (0 <= cnt b kd w) by (unfold cnt, uploads; apply zlen_nonneg). lia.
      - assert (EB : (if Nat.leb (S j) i then 1 else 0) = (if Nat.leb j i then 1 else 0)) by (destruct (Nat.leb_spec (S j) i), (Nat.leb_spec j i); lia). rewrite EB.
        assert (J : Jm b kd true c (qof it j) (mtf it j) ((if Nat.leb j i then 1 else 0) - wsum (S j) (skipn (S j) (s_writers s))) m (a, w)).
        { exists (a_append a). split; [|exact Aa]. split; [cbn [fst snd]; unfold OnceStream.mayi in X1; lia|split; [exact Ba|reflexivity]]. }
        pose proof (finalize_spec E b kd true c _ _ (sound_d b kd true root bk nd cs it Hnd Hcs roled j c Hc) (sound_m b kd true root bk nd cs it Hnd Hcs roled j c Hc) _ m Hm (a, w) J) as S1.
        destruct (finalize_array E (a, w)) as [aw' [v|e| |]]; cbn [fst snd] in *; lia. }
    destruct (finalize_array E (a, w)) as [[a' w'] [v|e| |]]; cbn [fst snd] in *; [exact Res|exact (G_none _ _ _ Res)..].
  - intros ok. destruct ok; [apply IH|apply hx_ret; apply G_none].
Qed.
Notation TT := (T b kd true cs fb it 1 KK).
Notation TR := (T b kd true cs fb it 1 KR).
Lemma the_i (s : stream) : Forall2 (bw true) cs (s_writers s) -> exists a, nth_error (s_writers s) i = Some a.
Proof. intros H. assert (F2 : forall A B (R : A -> B -> Prop) l m, Forall2 R l m -> forall i x, nth_error l i = Some x -> exists y, nth_error m i = Some y). { clear. intros A B R l m H. induction H as [|x y l m H _ IH]; intros [|i] z Hz; try discriminate; [exists y; reflexivity|apply IH in Hz; exact Hz]. } exact (F2 _ _ _ _ _ H i ci ci_n). Qed.
Lemma TR_G m f s w : TR m 0 f (s, w) -> forall l, G m 0 (set_msinks s l, w).
Proof.
  intros [X Y] l. cbn [fst snd] in *. split; [|split]; cbn [fst snd s_writers set_msinks skipn].
  - unfold tot in X. pose proof (hsum_nonneg b kd (map snd (s_msinks s))). unfold hm in X. cbn [Nat.leb]. lia.
  - intros j a _ Hj. cbn [s_writers set_msinks] in Hj. destruct Y as [Y1 Y2 Y3 Y4 Y5 Y6]. destruct (F2_nth _ _ _ Y1 j a Hj) as (c & Nc & Ba). exists c. split; [exact Nc|]. split; [exact Ba|]. specialize (Y5 j a Hj). change (Nat.ltb j 0) with false in Y5. cbv iota in Y5. split; [lia|]. split; [lia|exact (Y6 j a Hj)].
  - exact (the_i s (t_w _ _ _ _ _ _ _ _ Y)).
Qed.
Lemma l_finalize m f : m + 1 < 2 ^ 32 -> hx (TR m 0 f) (finalize_stream E) (fun _ tw => cnt b kd (snd tw) <= 0) (fun tw => cnt b kd (snd tw) <= 0).
Proof.
  intros Hm. assert (TN : forall tw, TR m 0 f tw -> cnt b kd (snd tw) <= 0) by (intros [s w] X; exact (G_none m 0 (set_msinks s [], w) (TR_G m f s w X []))).
  assert (Wms : forall s l, ts true cs fb KR m 0 f s -> ts true cs fb KR m 0 f (set_msinks s l)) by (intros s l [Y1 Y2 Y3 Y4 Y5 Y6]; split; auto).
  unfold finalize_stream. eapply hx_bind with (Q := fun _ => TR m 0 f); [eapply hx_weak; [apply (pd_hx b kd true nd cs fb it Hnd); intros M0; apply (d_group E b kd nd it Hnd); exact Wms|intros tw H; exact H|intros v tw H; exact H|exact TN]|].
  intros ok. destruct ok; [|apply hx_ret; exact TN]. apply hx_getT. intros s0. eapply hx_bind with (Q := fun _ => TR m 0 f).
  { eapply hx_weak; [apply (pd_hx b kd true nd cs fb it Hnd); intros M0; apply d_all_ok; intros i0; apply (d_msink E b kd nd it Hnd); exact Wms|intros tw [H _]; exact H|intros v tw H; exact H|exact TN]. }
  intros ok. destruct ok; [|apply hx_ret; exact TN]. eapply hx_bind with (Q := fun _ => G m 0); [apply hx_modT; intros s w X; exact (TR_G m f s w X _)|].
  intros _. apply hx_getT. intros s1. eapply hx_bind with (Q := fun _ tw => cnt b kd (snd tw) <= 0); [eapply hx_pre; [apply l_close; exact Hm|intros tw [H _]; exact H]|].
  intros ok. destruct ok; [|apply hx_ret; auto]. eapply hx_bind with (Q := fun _ tw => cnt b kd (snd tw) <= 0); [apply hx_modT; intros s w H; exact H|]. intros _. apply hx_ret. auto.
Qed.

(** at the start nothing has been uploaded *)
Lemma HT0 : forall tw, TT 0 0 0 tw -> cnt b kd (snd tw) <= 0.
Proof.
  intros [s w] [X Y]. cbn [fst snd] in *. destruct (the_i s (t_w _ _ _ _ _ _ _ _ Y)) as (a & Ha). pose proof (t_k _ _ _ _ _ _ _ _ Y i a Ha eq_refl) as (_ & _ & _ & Ka). pose proof (t_a _ _ _ _ _ _ _ _ Y i a Ha) as F. change (Nat.ltb i 0) with false in F. cbv iota in F.
  pose proof (per_p bpp (g_0 gi) (g_m gi) (g_y gi) (g_x gi) fi si) as P. assert (Fb : a_frames a < (q + 1) * per) by nia. pose proof (live_may b kd q false a (Ka Fb)) as M. pose proof (h_slot_nonneg b kd (a_meta a)). rewrite <- mayi_i in M.
  pose proof (wsum_ge (s_writers s) 0 i a Ha) as W. cbn [Nat.add] in W. unfold tot in X. pose proof (hsum_nonneg b kd (map snd (s_msinks s))). unfold hm in X. lia.
Qed.
(** after the last call *)
Lemma T_ready m f tw : TT m 0 f tw -> GridStream.T true L ok1 true fb total 0 GridStream.e0 tw -> TR m 0 f tw.
Proof.
  intros [X Y] (_ & Z1 & _). split; [exact X|]. destruct Y as [Y1 Y2 Y3 Y4 Y5 Y6]. split; auto. intros j a Ha ->. split; [exact (Y6 i a Ha eq_refl)|].
  assert (Hf : GridStream.fr (fst tw) i = a_frames a) by (unfold GridStream.fr; rewrite Ha; reflexivity).
  assert (Hil : (i < List.length L)%nat) by (apply nth_error_Some; congruence).
  pose proof (GridStream.descend true L ok1 true fb (fst tw) GridStream.e0 total 0 eq_refl Z1 ltac:(intros; unfold GridStream.e0; lia) i Hil) as D. pose proof (GridStream.x_n _ _ _ _ _ _ _ _ _ Z1 0%nat) as N0. change (Nat.ltb 0 0) with false in N0. cbv iota in N0. rewrite Hf in D.
  split.
  - assert (a_frames a <= total / 2 ^ Z.of_nat i); [|lia]. apply Z.div_le_lower_bound; [apply Z.pow_pos_nonneg; lia|]. lia.
  - assert (Gt : GridStream.gt true gi a) by (eapply GridStream.F2_nth; [exact (GridStream.x_t _ _ _ _ _ _ _ _ _ Z1 eq_refl)|eauto|eauto]). destruct (Z.eq_dec (a_toflush a) 0) as [|Hz]; [left; auto|right; exact (Gt Hz)].
Qed.
Lemma l_session st calls Ks :
  place st = (bk, root) -> true = (st_version st =? 3) ->
  (forall s n, commit st = Ok s -> bytes_of_frame (s_dims s) (s_dtype s) = Ok n -> n = fb) ->
  (forall s ws, commit st = Ok s -> create_writers s = Ok ws -> Forall2 (fun g a => make_writer true (g_c g) = Ok a) L ws) ->
  Forall2 (fun d K => zlen d = Z.of_nat K * fb) calls Ks -> fold_right (fun K z => Z.of_nat K + z) 0 Ks = total ->
  bytes_given calls + fb * (zlen calls + 1) < 2 ^ 32 * fb ->
  forall w, cnt b kd w = 0 -> match snd (session E st calls w) with Ok (Some (rs, _)) => Forall (fun r => fst r = st_success) rs | Ok None => True | _ => False end ->
  cnt b kd (fst (session E st calls w)) <= 0.
Proof.
  intros HP HV Hn Hw HKs Ht HB w Hc.
  assert (Hw' : forall s ws, commit st = Ok s -> create_writers s = Ok ws -> (Forall2 (bw true) cs ws /\ Forall new_w ws) /\ forall j a, nth_error ws j = Some a -> KK j a).
  { intros s ws X Y. specialize (Hw s ws X Y). assert (F0 : Forall (fun a => a_frames a = 0) ws) by apply (GridStream.fresh_writers true bpp L ok1 NNf HL ws Hw).
    assert (B0 : Forall2 (bw true) cs ws /\ Forall new_w ws).
    { clear - Hw F0. revert F0. induction Hw as [|g a l ws H _ IH]; intros F; [split; constructor|]. inversion F as [|? ? F1 F2]; subst. destruct (IH F2) as [I1 I2]. destruct (fresh3 (g_c g) a H) as (S1 & S2). split; constructor; auto. }
    split; [exact B0|]. intros j a Ha ->. destruct B0 as [B1 B2]. rewrite Forall_forall in B2. destruct (B2 a (nth_error_In _ _ Ha)) as (N1 & N2 & N3 & N4). destruct (F2_nth _ _ _ B1 i a Ha) as (c & Nc & Ba). rewrite ci_n in Nc. injection Nc as <-.
    split; [exact Ba|]. split; [reflexivity|]. rewrite N3, N4. split; [lia|]. intros _. split; [rewrite N3; lia|]. intros _ Hn0. contradiction. }
  assert (Hsum : forall s ws, commit st = Ok s -> create_writers s = Ok ws -> 0 + wsum 0 ws + dtf it <= 1).
  { intros s ws X Y. destruct (Hw' s ws X Y) as [[_ W2] _]. pose proof (fresh_total b kd true root bk nd it Hnd roled ws W2). lia. }
  assert (Hw2 : forall (w : world) s ws, validate_settings E w (Some st) = Ok true -> commit st = Ok s -> create_writers s = Ok ws -> Forall2 (fun g a => make_writer true (g_c g) = Ok a) L ws) by (intros w0 s ws _; apply Hw).
  assert (P1 : place st = (fst (place st), root)) by (rewrite HP; reflexivity). assert (P2 : fst (place st) = None -> strip_file root = root) by (rewrite HP; discriminate).
  unfold session. pose proof (t_new E b kd true root bk nd cs fb it Hnd roled 1 KK HK Hfb 0 HT0 st 0 (Z.le_refl 0) HP HV Hn Hw' Hsum w Hc) as N.
  assert (Iw0 : forall w', GridStream.Iwf ok1 w') by (intros w'; split; [apply Forall_forall; intros e _; destruct e; exact I|exact I]).
  destruct (GridStream.st_new E true bpp L ok1 NNf true fb root HL ltac:(intros; exact I) Hfb st P1 P2 HV Hn Hw2 w (Iw0 w)) as [_ M].
  rewrite IndepStream.bind_gen. unfold api_create, catchM. rewrite IndepStream.bind_gen.
  destruct (new_stream E (Some st) w) as [w1 [s|e| |]]; cbn [fst snd ret] in *; try (intros _; exact N). destruct (M s eq_refl) as [M1 M2].
  assert (L0 : OnceStream.L b kd true cs fb it 1 KK 0 (s, w1)) by (eapply (L_intro b kd true cs fb it 1 KK 0 0 0); [exact N|lia|lia|lia]).
  assert (HB' : 0 + bytes_given calls + fb * zlen calls < 2 ^ 32 * fb) by lia.
  pose proof (st_appends E b kd true root bk nd cs fb it Hnd Hcs roled 1 KK HK Hfb calls 0 HB' (s, w1) L0) as A.
  pose proof (GridStream.st_appends E true bpp L ok1 NNf true total fb HL Hfb H32 ltac:(discriminate) ltac:(intros; lia) calls Ks 0 HKs ltac:(lia) (s, w1) (conj (Iw0 w1) (conj M1 M2))) as B.
  rewrite IndepStream.bind_gen. destruct (api_appends E calls (s, w1)) as [tw2 r].
  assert (A' : OnceStream.L b kd true cs fb it 1 KK (0 + bytes_given calls + fb * zlen calls) tw2) by (destruct r; exact A). clear A. destruct A' as (m & A1 & A2 & A3 & A4).
  assert (Hm1 : m + 1 < 2 ^ 32) by nia.
  destruct r as [rs|e| |]; try (destruct tw2; intros []).
  assert (Fz : GridStream.all_fine rs -> cnt b kd (snd (fst (finalize_stream E tw2))) <= 0).
  { intros AF. specialize (B (or_intror AF)). rewrite Ht, Z.add_0_l in B. pose proof (l_finalize m _ Hm1 tw2 (T_ready m _ tw2 A1 B)) as Fz. destruct (finalize_stream E tw2) as [tw3 [d|e| |]]; exact Fz. }
  rewrite IndepStream.bind_gen. unfold api_destroy. destruct (finalize_stream E tw2) as [[s3 w3] [d|e| |]]; cbn [fst snd ret] in *; try (intros H; exact (Fz H)); try (intros []).
Qed.
End St.
