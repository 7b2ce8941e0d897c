(** In the life of a stream, the array document of a level is uploaded after everything else of that level. *)
Require Import ZArith List Bool String Ascii Lia.
Require Import Verif.Base Verif.Spec Verif.Dim Verif.Limits Verif.Radix Verif.PathProofs Verif.Json Verif.World Verif.Writer Verif.LayoutProofs Verif.FrameProofs Verif.GridProofs Verif.LayoutSpec Verif.ItemProofs Verif.GridSpec Verif.OnceSpec Verif.OnceProofs
  Verif.Stream Verif.Api Verif.FrameStream Verif.SafeStream Verif.IndepStream Verif.OnceStream Verif.OrderProofs.
Import ListNotations.
Open Scope string_scope. Open Scope list_scope. Open Scope Z_scope.

Section St.
Variables (E : env) (b km kd : string) (v3 : bool) (root : string) (bk : option string) (nd : nat) (cs : list config) (fb : Z) (i : nat) (ci : config) (q : Z) (cc : list Z).
Notation itm := (Some (ArrayDoc (Z.of_nat i))).
Notation itd := (Some (Piece (Z.of_nat i) q cc)).
Hypothesis Hnd : (3 <= nd)%nat.
Hypothesis Hcs : forall i c, nth_error cs i = Some c -> c_level c = Z.of_nat i /\ c_root c = root /\ c_bucket c = bk /\ List.length (c_dims c) = nd.
Hypothesis rolem : bk = Some b -> forall it', sensible v3 (nd - 1) it' -> where_is v3 root it' = km -> itm = Some it'.
Hypothesis roled : bk = Some b -> forall it', sensible v3 (nd - 1) it' -> where_is v3 root it' = kd -> itd = Some it'.
Hypothesis Hbk : bk = Some b.
Hypothesis Hci : nth_error cs i = Some ci.
Hypothesis Hkm : km = where_is v3 root (ArrayDoc (Z.of_nat i)).
Hypothesis Hne : km <> kd.
Definition KK (j : nat) (a : writer) : Prop := if Nat.eqb j i then md b km v3 ci a else silent b kd a.
Lemma ci_b : c_bucket ci = Some b.
Proof. destruct (Hcs i ci Hci) as (_ & _ & -> & _). exact Hbk. Qed.
Lemma ci_k : km = join_path (c_root ci) (meta_comps v3 (c_level ci)).
Proof. destruct (Hcs i ci Hci) as (C1 & C2 & _). rewrite C1, C2, Hkm. apply (where_join v3 root (nd - 1)). cbn. lia. Qed.
Lemma other_d j c : nth_error cs j = Some c -> j <> i -> forall q cc, 0 <= q -> Forall (fun x => 0 <= x) cc -> List.length cc = (List.length (firstn (List.length (c_dims c) - 2) (tl (c_dims c))) + 1)%nat -> c_bucket c = Some b ->
  kd = join_path (c_root c) (data_comps v3 (c_level c) q ++ map dec cc) -> @None Z = Some q.
Proof.
  intros Hj Ne q' cc' H1 H2 H3 H4 H5. pose proof (sound_d b kd v3 root bk nd cs itd Hnd Hcs roled j c Hj q' cc' H1 H2 H3 H4 H5) as X. unfold qof in X. destruct (Z.eqb_spec (Z.of_nat i) (Z.of_nat j)); [lia|exact X].
Qed.
Lemma other_m j c : nth_error cs j = Some c -> c_bucket c = Some b -> kd = join_path (c_root c) (meta_comps v3 (c_level c)) -> false = true.
Proof. intros Hj H1 H2. exact (sound_m b kd v3 root bk nd cs itd Hnd Hcs roled j c Hj H1 H2). Qed.
Lemma HK : forall j c m data a w, nth_error cs j = Some c -> bw v3 c a -> a_append a <= m -> 0 <= a_frames a <= m -> m + 1 < 2 ^ 32 -> KK j a -> KK j (fst (fst (write_frame E data (a, w)))).
Proof.
  intros j c m data a w Hj Ba Ha Hfr Hm. unfold KK. destruct (Nat.eqb_spec j i) as [->|Ne]; intros X.
  - apply (m_write_frame E b km v3 ci ci_b ci_k data (a, w) X).
  - exact (other_frame E b kd v3 c (other_d j c Hj Ne) (other_m j c Hj) m data a w Hm Ba Ha X).
Qed.
Notation wsum := (wsum b km itm).
Notation mayi := (mayi b km itm).
Lemma wsum_ge l : forall p j a, nth_error l j = Some a -> mayi (p + j) a <= wsum p l.
Proof.
  induction l as [|x l IH]; intros p [|j] a H; try discriminate; cbn [OnceStream.wsum].
  - injection H as ->. rewrite Nat.add_0_r. pose proof (wsum_nonneg b km nd itm Hnd l (S p)). lia.
  - specialize (IH (S p) j a H). replace (p + S j)%nat with (S p + j)%nat by lia. pose proof (may_nn b km (qof itm p) (mtf itm p) x). unfold OnceStream.mayi at 2. lia.
Qed.
Lemma mayi_i a : mayi i a = may b km None true a.
Proof. unfold OnceStream.mayi, qof, mtf. rewrite Z.eqb_refl. reflexivity. Qed.
Lemma one_i l p : (p <= i)%nat -> (exists a, nth_error l (i - p) = Some a /\ md b km v3 ci a) -> 1 <= wsum p l.
Proof. intros Hp (a & H1 & H2). pose proof (wsum_ge l p (i - p) a H1) as W. replace (p + (i - p))%nat with i in W by lia. rewrite mayi_i in W. pose proof (own_one b km v3 ci a H2). lia. Qed.
Notation TT := (T b km v3 cs fb itm 1 KK).
Lemma the_i (s : stream) : Forall2 (bw v3) cs (s_writers s) -> exists a, nth_error (s_writers s) i = Some a.
Proof. intros H. assert (G : forall A B (R : A -> B -> Prop) l m, Forall2 R l m -> forall i x, nth_error l i = Some x -> exists y, nth_error m i = Some y). { clear. intros A B R l m H. induction H as [|x y l m H _ IH]; intros [|i] z Hz; try discriminate; [exists y; reflexivity|apply IH in Hz; exact Hz]. } exact (G _ _ _ _ _ H i ci Hci). Qed.
Lemma HT : forall m j f tw, TT m j f tw -> cnt b km (snd tw) <= 0.
Proof.
  intros m j f [s w] [X Y]. cbn [fst snd] in *. destruct (the_i s (t_w _ _ _ _ _ _ _ _ Y)) as (a & Ha). pose proof (t_k _ _ _ _ _ _ _ _ Y i a Ha) as Ka. unfold KK in Ka. rewrite Nat.eqb_refl in Ka.
  assert (W : 1 <= wsum 0 (s_writers s)) by (apply one_i; [lia|exists a; rewrite Nat.sub_0_r; auto]). unfold tot in X. pose proof (hsum_nonneg b km (map snd (s_msinks s))). unfold hm in X. lia.
Qed.

(** *** closing the arrays: first those before, then the array itself, then those after *)
Definition rest (m : Z) (j : nat) (s : stream) : Prop := forall j' a, (j <= j')%nat -> nth_error (s_writers s) j' = Some a -> exists c, nth_error cs j' = Some c /\ bw v3 c a /\ a_append a <= m /\ KK j' a.
Definition before (m : Z) (j : nat) (tw : TW) : Prop := cnt b km (snd tw) + wsum j (skipn j (s_writers (fst tw))) <= 1 /\ rest m j (fst tw) /\ exists a, nth_error (s_writers (fst tw)) i = Some a.
Definition beyond (m : Z) (j : nat) (tw : TW) : Prop := F b km kd (snd tw) /\ rest m j (fst tw).
Definition G (m : Z) (j : nat) (tw : TW) : Prop := if Nat.leb j i then before m j tw else beyond m j tw.
Lemma nth_skipn {A} (l : list A) : forall n k, nth_error (skipn n l) k = nth_error l (n + k).
Proof. induction l as [|x l IH]; intros [|n] k; try reflexivity; [destruct k; reflexivity|apply IH]. Qed.
Lemma before_none m j tw : (j <= i)%nat -> before m j tw -> cnt b km (snd tw) <= 0.
Proof.
  intros Hj (X & Y & a & Ha). destruct (Y i a Hj Ha) as (c & _ & _ & _ & Ka). unfold KK in Ka. rewrite Nat.eqb_refl in Ka.
  assert (W : 1 <= wsum j (skipn j (s_writers (fst tw)))) by (apply one_i; [exact Hj|exists a; rewrite nth_skipn; replace (j + (i - j))%nat with i by lia; auto]). lia.
Qed.
Lemma G_F m j tw : G m j tw -> F b km kd (snd tw).
Proof. unfold G. destruct (Nat.leb_spec j i); [|intros [H1 _]; exact H1]. intros X. apply F_none. eapply before_none; eauto. Qed.
Lemma upd_other {A} (l : list A) : forall j k x, j <> k -> nth_error (upd l j x) k = nth_error l k.
Proof. induction l as [|y l IH]; intros [|j] [|k] x H; try reflexivity; try lia. change (upd (y :: l) (S j) x) with (y :: upd l j x). cbn [nth_error]. apply IH. lia. Qed.
Lemma rest_upd m j s a' : rest m j s -> rest m (S j) (set_writers s (upd (s_writers s) j a')).
Proof. intros H j' a Hj Ha. cbn [s_writers set_writers] in Ha. destruct (ne_upd _ _ _ _ _ Ha) as [[X _]|[_ X]]; [lia|]. apply H; [lia|exact X]. Qed.
Lemma o_close m : m + 1 < 2 ^ 32 -> forall n j, hx (G m j) (all_ok (fun i => on_writer i (finalize_array E)) (seq j n)) (fun _ tw => F b km kd (snd tw)) (fun tw => F b km kd (snd tw)).
Proof.
  intros Hm n. induction n as [|n IH]; intros j; cbn [seq all_ok]; [apply hx_ret; apply G_F|].
  eapply hx_bind with (Q := fun _ => G m (S j)).
  - intros [s w] X. unfold on_writer. pose proof (G_F m j (s, w) X) as XF. destruct (nth_error (s_writers s) j) as [a|] eqn:Ha; [|exact XF].
    assert (Res : G m (S j) (set_writers s (upd (s_writers s) j (fst (fst (finalize_array E (a, w))))), snd (fst (finalize_array E (a, w))))).
    { unfold G in *. destruct (Nat.leb_spec j i) as [Hj|Hj].
      - assert (X' := X). destruct X as (X1 & X2 & ai & Hai). cbn [fst snd] in *. destruct (X2 j a (Nat.le_refl _) Ha) as (c & Hc & Ba & Aa & Ka). rewrite (skipn_nth _ _ _ Ha) in X1. cbn [OnceStream.wsum] in X1.
        destruct (Nat.leb_spec (S j) i) as [Hj'|Hj'].
        + split; [|split; [apply rest_upd; exact X2|]]; cbn [fst snd s_writers set_writers].
          * rewrite skipn_upd. assert (J : Jm b km v3 c (qof itm j) (mtf itm j) (1 - wsum (S j) (skipn (S j) (s_writers s))) m (a, w)).
            { exists (a_append a). split; [|exact Aa]. split; [cbn [fst snd]; unfold OnceStream.mayi in X1; lia|split; [exact Ba|reflexivity]]. }
            pose proof (finalize_spec E b km v3 c _ _ (sound_d b km v3 root bk nd cs itm Hnd Hcs rolem j c Hc) (sound_m b km v3 root bk nd cs itm Hnd Hcs rolem j c Hc) _ m Hm (a, w) J) as S1.
            destruct (finalize_array E (a, w)) as [aw' [v|e| |]]; cbn [fst snd] in *; lia.
          * exists ai. destruct (Nat.eq_dec j i); [lia|]. rewrite upd_other; auto.
        + assert (j = i) by lia. subst j. rewrite Hci in Hc. injection Hc as <-. unfold KK in Ka. rewrite Nat.eqb_refl in Ka. split; [|apply rest_upd; exact X2]. cbn [snd].
          apply (own_finalize E b km kd v3 ci ci_b ci_k Hne) with (m := m); [|exact Hm| |exact Ka].
          * intros q' cc' H1 H2 H3 H4 H5. exact (sound_d b km v3 root bk nd cs itm Hnd Hcs rolem i ci Hci q' cc' H1 H2 H3 H4 H5).
          * exists (a_append a). split; [|exact Aa]. split; [|split; [exact Ba|reflexivity]]. cbn [fst snd]. rewrite mayi_i in X1. pose proof (wsum_nonneg b km nd itm Hnd (skipn (S i) (s_writers s)) (S i)). lia.
      - destruct X as [X1 X2]. cbn [fst snd] in *. destruct (X2 j a (Nat.le_refl _) Ha) as (c & Hc & Ba & Aa & Ka). destruct (Nat.leb_spec (S j) i); [lia|]. unfold KK in Ka. destruct (Nat.eqb_spec j i) as [|Ne]; [lia|].
        split; [|apply rest_upd; exact X2]. cbn [snd]. eapply F_later; [exact X1|]. exact (other_finalize E b kd v3 c (other_d j c Hc Ne) (other_m j c Hc) m a w Hm Ba Aa Ka). }
    destruct (finalize_array E (a, w)) as [[a' w'] [v|e| |]]; cbn [fst snd] in *; [exact Res|exact (G_F _ _ _ Res)..].
  - intros ok. destruct ok; [apply IH|apply hx_ret; apply G_F].
Qed.
Lemma o_finalize m f : m + 1 < 2 ^ 32 -> hx (TT m 0 f) (finalize_stream E) (fun _ tw => F b km kd (snd tw)) (fun tw => F b km kd (snd tw)).
Proof.
  intros Hm. assert (TN : forall tw, TT m 0 f tw -> F b km kd (snd tw)) by (intros tw X; apply F_none; eapply HT; exact X).
  assert (Wms : forall s l, ts v3 cs fb KK m 0 f s -> ts v3 cs fb KK m 0 f (set_msinks s l)) by (intros s l [Y1 Y2 Y3 Y4 Y5 Y6]; split; auto).
  unfold finalize_stream. eapply hx_bind with (Q := fun _ => TT m 0 f); [eapply hx_weak; [apply (pd_hx b km v3 nd cs fb itm Hnd); intros M0; apply (d_group E b km nd itm Hnd); exact Wms|intros tw H; exact H|intros v tw H; exact H|exact TN]|].
  intros ok. destruct ok; [|apply hx_ret; exact TN]. apply hx_getT. intros s0. eapply hx_bind with (Q := fun _ => TT m 0 f).
  { eapply hx_weak; [apply (pd_hx b km v3 nd cs fb itm Hnd); intros M0; apply d_all_ok; intros i0; apply (d_msink E b km nd itm Hnd); exact Wms|intros tw [H _]; exact H|intros v tw H; exact H|exact TN]. }
  intros ok. destruct ok; [|apply hx_ret; exact TN]. eapply hx_bind with (Q := fun _ => G m 0).
  { apply hx_modT. intros s w [X Y]. cbn [fst snd] in *. change (G m 0) with (before m 0). split; cbn [fst snd s_writers set_msinks skipn].
    - unfold tot in X. pose proof (hsum_nonneg b km (map snd (s_msinks s))). unfold hm in X. lia.
    - destruct (the_i s (t_w _ _ _ _ _ _ _ _ Y)) as (ai & Hai). split; [|exists ai; exact Hai].
      intros j a _ Hj. cbn [s_writers set_msinks] in Hj. destruct Y as [Y1 Y2 Y3 Y4 Y5 Y6]. destruct (F2_nth _ _ _ Y1 j a Hj) as (c & Nc & Ba). exists c. split; [exact Nc|]. split; [exact Ba|]. specialize (Y5 j a Hj). change (Nat.ltb j 0) with false in Y5. cbv iota in Y5. split; [lia|exact (Y6 j a Hj)]. }
  intros _. apply hx_getT. intros s1. eapply hx_bind with (Q := fun _ tw => F b km kd (snd tw)).
  { eapply hx_pre; [apply o_close; exact Hm|intros tw [H _]; exact H]. }
  intros ok. destruct ok; [|apply hx_ret; auto]. eapply hx_bind with (Q := fun _ tw => F b km kd (snd tw)); [apply hx_modT; intros s w H; exact H|]. intros _. apply hx_ret. auto.
Qed.
Hypothesis Hfb : 0 < fb.
Lemma o_session st calls :
  place st = (bk, root) -> v3 = (st_version st =? 3) ->
  (forall s n, commit st = Ok s -> bytes_of_frame (s_dims s) (s_dtype s) = Ok n -> n = fb) ->
  (forall s ws, commit st = Ok s -> create_writers s = Ok ws -> Forall2 (bw v3) cs ws /\ Forall new_w ws) ->
  bytes_given calls + fb * (zlen calls + 1) < 2 ^ 32 * fb ->
  forall w, cnt b km w = 0 -> F b km kd (fst (session E st calls w)).
Proof.
  intros HP HV Hn Hw HB w Hc.
  assert (Hw' : forall s ws, commit st = Ok s -> create_writers s = Ok ws -> (Forall2 (bw v3) cs ws /\ Forall new_w ws) /\ forall i a, nth_error ws i = Some a -> KK i a).
  { intros s ws X Y. destruct (Hw s ws X Y) as [W1 W2]. split; [auto|]. intros j a Ha. destruct (F2_nth _ _ _ W1 j a Ha) as (c & Nc & B1 & B2 & _). rewrite Forall_forall in W2. destruct (W2 a (nth_error_In _ _ Ha)) as (N1 & N2 & N3 & _). unfold KK. destruct (Nat.eqb_spec j i) as [->|Ne].
    - rewrite Hci in Nc. injection Nc as <-. split; [exact B1|split; [exact B2|rewrite N2; exact I]].
    - unfold silent, may, futq, futm. rewrite N1, N2. reflexivity. }
  assert (Hsum : forall s ws, commit st = Ok s -> create_writers s = Ok ws -> 0 + wsum 0 ws + dtf itm <= 1).
  { intros s ws X Y. destruct (Hw s ws X Y) as [_ W2]. pose proof (fresh_total b km v3 root bk nd itm Hnd rolem ws W2). lia. }
  unfold session. pose proof (t_new E b km v3 root bk nd cs fb itm Hnd rolem 1 KK HK Hfb 0 (HT 0 0%nat 0) st 0 (Z.le_refl 0) HP HV Hn Hw' Hsum w Hc) as N. rewrite IndepStream.bind_gen. unfold api_create, catchM. rewrite IndepStream.bind_gen.
  destruct (new_stream E (Some st) w) as [w1 [s|e| |]]; cbn [fst snd ret] in *; try (apply F_none; exact N).
  assert (L0 : L b km v3 cs fb itm 1 KK 0 (s, w1)) by (eapply (L_intro b km v3 cs fb itm 1 KK 0 0 0); [exact N|lia|lia|lia]).
  assert (HB' : 0 + bytes_given calls + fb * zlen calls < 2 ^ 32 * fb) by lia.
  pose proof (st_appends E b km v3 root bk nd cs fb itm Hnd Hcs rolem 1 KK HK Hfb calls 0 HB' (s, w1) L0) as A. rewrite IndepStream.bind_gen. destruct (api_appends E calls (s, w1)) as [tw2 r].
  assert (A' : L b km v3 cs fb itm 1 KK (0 + bytes_given calls + fb * zlen calls) tw2) by (destruct r; exact A). clear A. destruct A' as (m & A1 & A2 & A3 & A4).
  assert (C2 : F b km kd (snd tw2)) by (apply F_none; eapply HT; exact A1).
  destruct r as [rs|e| |]; try (destruct tw2; exact C2).
  assert (Hm1 : m + 1 < 2 ^ 32) by nia.
  pose proof (o_finalize m _ Hm1 tw2 A1) as Fz. rewrite IndepStream.bind_gen. unfold api_destroy. destruct (finalize_stream E tw2) as [[s3 w3] [d|e| |]]; exact Fz.
Qed.
End St.
