(** Append calls of any sizes. *)
Require Import ZArith List Bool String Ascii Lia Zify.
Require Import Verif.Base Verif.Spec Verif.Dim Verif.Limits Verif.Radix Verif.Json Verif.PathProofs Verif.World Verif.Writer
  Verif.SinkProofs Verif.CreateProofs Verif.FlushProofs Verif.LayoutProofs Verif.BufProofs Verif.WriterProofs
  Verif.LevelProofs Verif.Stream Verif.MetaProofs Verif.StreamProofs Verif.PyramidProofs Verif.Api Verif.SettingsSpec Verif.ValidProofs
  Verif.SessionSpec Verif.SessionProofs Verif.AppendSpec.
Import ListNotations.
Open Scope string_scope.
Open Scope list_scope.
Open Scope Z_scope.

(** ** Computations that do not look at the frame buffer *)
Definition put (b : list Z) (o : Z) (tw : TW) : TW := (set_fbuf (fst tw) b o, snd tw).
Definition blind {A} (c : M TW A) : Prop := forall b o tw, c (put b o tw) = (put b o (fst (c tw)), snd (c tw)).

Lemma blind_ret {A} (a : A) : blind (ret a). Proof. intros b o tw. reflexivity. Qed.
Lemma blind_lift {A} (a : outcome A) : blind (liftM a). Proof. intros b o tw. reflexivity. Qed.
Lemma blind_throw {A} e : blind (@throwM TW A e). Proof. intros b o tw. reflexivity. Qed.
Lemma blind_expect c e : blind (expectM c e). Proof. destruct c; intros b o tw; reflexivity. Qed.
Lemma blind_bind {A B} (c : M TW A) (f : A -> M TW B) : blind c -> (forall a, blind (f a)) -> blind (bind c f).
Proof.
  intros Hc Hf b o tw. unfold bind. rewrite Hc. destruct (c tw) as [tw' [a|e| |]]; cbn [fst snd]; auto. apply Hf.
Qed.
Lemma blind_get {B} (f : stream -> M TW B) : (forall s, blind (f s)) -> (forall s b o, f (set_fbuf s b o) = f s) -> blind (bind getT f).
Proof. intros H1 H2 b o tw. unfold bind, getT. cbn [put fst]. rewrite H2. apply H1. Qed.
Lemma blind_mod g : (forall s b o, g (set_fbuf s b o) = set_fbuf (g s) b o) -> blind (modT g).
Proof. intros H b o [s w]. unfold modT, put. cbn [fst snd]. rewrite H. reflexivity. Qed.
Lemma blind_on_writer {A} i (c : M AW A) : blind (on_writer i c).
Proof. intros b o [s w]. unfold on_writer, put. cbn [fst snd s_writers set_fbuf]. destruct (nth_error (s_writers s) i); auto. destruct (c (w0, w)) as [[a' w'] r]. reflexivity. Qed.

Lemma blind_multiscale_loop E bpp fuel : forall i data nb wd ht, blind (multiscale_loop E bpp fuel i data nb wd ht).
Proof.
  induction fuel as [|fuel IH]; intros; cbn [multiscale_loop]; [apply blind_ret|].
  apply blind_get; [intros s|reflexivity]. apply blind_bind; [apply blind_lift|]. intros [[[px nb'] w'] h'].
  destruct (nth i (s_scaled s) None).
  - apply blind_bind; [apply blind_on_writer|]. intros k. apply blind_bind; [apply blind_expect|]. intros _.
    apply blind_bind; [apply blind_mod; reflexivity|]. intros _. apply IH.
  - apply blind_mod; reflexivity.
Qed.
Lemma blind_write_multiscale E data nb : blind (write_multiscale E data nb).
Proof.
  apply blind_get; [intros s|reflexivity]. destruct (s_multi s); [|apply blind_ret]. destruct (dt_count <=? s_dtype s); [apply blind_throw|].
  apply blind_bind; [apply blind_lift|]. intros bpp. apply blind_multiscale_loop.
Qed.
Lemma blind_write_metadata E k d e : blind (write_metadata E k d e).
Proof.
  intros b o [s w]. unfold write_metadata, put. cbn [fst snd s_msinks set_fbuf]. destruct (find_key k (s_msinks s)) as [i|]; auto.
  destruct (nth i (s_msinks s) (k, None)) as [k' [sk|]].
  - destruct (sink_write E 0 d (sk, w)) as [[sk' w'] [[|]|m| |]]; reflexivity.
  - reflexivity.
Qed.
Lemma blind_all_ok {A} (f : A -> M TW bool) l : (forall a, blind (f a)) -> blind (all_ok f l).
Proof.
  intros H. induction l as [|a l IH]; cbn; [apply blind_ret|]. apply blind_bind; auto. intros [|]; auto. apply blind_ret.
Qed.
Lemma blind_finalize_msink E i : blind (finalize_msink E i).
Proof.
  intros b o [s w]. unfold finalize_msink, put. cbn [fst snd s_msinks set_fbuf]. destruct (nth_error (s_msinks s) i) as [[k x]|]; auto.
  destruct (finalize_sink E (x, w)) as [[x' w'] r]. reflexivity.
Qed.
Lemma blind_finalize E : blind (finalize_stream E).
Proof.
  unfold finalize_stream. apply blind_bind.
  - apply blind_get; [intros s|reflexivity]. destruct (group_metadata s) as [k j]. apply blind_write_metadata.
  - intros [|]; [|apply blind_ret]. apply blind_get; [intros s|reflexivity]. apply blind_bind; [apply blind_all_ok; intros; apply blind_finalize_msink|].
    intros [|]; [|apply blind_ret]. apply blind_bind; [apply blind_mod; reflexivity|]. intros _.
    apply blind_get; [intros s2|reflexivity]. apply blind_bind; [apply blind_all_ok; intros; apply blind_on_writer|].
    intros [|]; [|apply blind_ret]. apply blind_bind; [apply blind_mod; reflexivity|]. intros _. apply blind_ret.
Qed.

(** ** Whole frames, one at a time *)
Fixpoint feed (E : env) (F : list (list Z)) : M TW unit :=
  match F with
  | [] => ret tt
  | f :: l => r <- on_writer 0 (write_frame E f) ;; write_multiscale E f r ;;; feed E l
  end.
Lemma blind_feed E F : blind (feed E F).
Proof.
  induction F as [|f F IH]; cbn; [apply blind_ret|]. apply blind_bind; [apply blind_on_writer|]. intros r. apply blind_bind; [apply blind_write_multiscale|]. auto.
Qed.
Lemma feed_app E F : forall G tw tw', feed E F tw = (tw', Ok tt) -> feed E (F ++ G) tw = feed E G tw'.
Proof.
  induction F as [|f F IH]; intros G tw tw' H; cbn [feed app] in *.
  - unfold ret in H. injection H as ->. reflexivity.
  - unfold bind in *. destruct (on_writer 0 (write_frame E f) tw) as [tw1 [r|e| |]]; try discriminate.
    destruct (write_multiscale E f r tw1) as [tw2 [[]|e| |]]; try discriminate. auto.
Qed.

(** ** Cutting *)
Lemma zseq_S k : 0 <= k -> zseq (k + 1) = 0 :: map (fun i => i + 1) (zseq k).
Proof.
  intros H. unfold zseq. replace (Z.to_nat (k + 1)) with (S (Z.to_nat k)) by lia. cbn [seq map]. f_equal.
  rewrite <- seq_shift, !map_map. apply map_ext. intros a. lia.
Qed.
Lemma slice_len d p k : 0 <= p -> 0 <= k -> p + k <= zlen d -> zlen (slice d p k) = k.
Proof. intros. unfold slice, zlen in *. rewrite firstn_length, skipn_length. lia. Qed.
Lemma skipn_skipn {A} x : forall y (l : list A), skipn x (skipn y l) = skipn (x + y) l.
Proof.
  intros y l. revert l. induction y as [|y IH]; intros l; [rewrite Nat.add_0_r; reflexivity|]. rewrite Nat.add_succ_r.
  destruct l as [|a l]; [rewrite !skipn_nil; reflexivity|]. cbn [skipn]. apply IH.
Qed.
Lemma slice_slice d p k q j : 0 <= p -> 0 <= q -> 0 <= j -> q + j <= k -> slice (slice d p k) q j = slice d (p + q) j.
Proof.
  intros. unfold slice. rewrite skipn_firstn_comm, skipn_skipn, firstn_firstn. f_equal; [lia|]. f_equal. lia.
Qed.
Lemma slice_split d p k j : 0 <= p -> 0 <= k -> 0 <= j -> slice d p (k + j) = slice d p k ++ slice d (p + k) j.
Proof.
  intros. unfold slice. rewrite !Z2Nat.inj_add by lia. rewrite (Nat.add_comm (Z.to_nat p)), <- skipn_skipn.
  set (x := skipn (Z.to_nat p) d). rewrite <- (firstn_skipn (Z.to_nat k) x) at 1. 
  rewrite firstn_app. rewrite firstn_firstn, Nat.min_r by lia. f_equal.
  rewrite firstn_length. destruct (Nat.le_gt_cases (Z.to_nat k) (List.length x)).
  - f_equal. lia.
  - rewrite (skipn_all2 x) by lia. rewrite !firstn_nil. reflexivity.
Qed.
Lemma slice_full d : slice d 0 (zlen d) = d.
Proof. apply slice_all. reflexivity. Qed.
Lemma whole_short f d : 0 <= zlen d < f -> whole f d = [].
Proof. intros H. unfold whole. rewrite Z.div_small by lia. reflexivity. Qed.
Lemma whole_cons f d : 0 < f <= zlen d -> whole f d = slice d 0 f :: whole f (slice d f (zlen d - f)).
Proof.
  intros H. unfold whole. rewrite slice_len by lia. replace (zlen d / f) with ((zlen d - f) / f + 1).
  2:{ replace (zlen d) with (zlen d - f + 1 * f) at 2 by lia. rewrite Z.div_add by lia. reflexivity. }
  assert (0 <= (zlen d - f) / f) by (apply Z.div_pos; lia).
  rewrite zseq_S by lia. cbn [map]. f_equal. rewrite map_map. apply map_ext_in. intros i Hi.
  apply in_map_iff in Hi as (x & <- & Hx). apply in_seq in Hx.
  assert (Z.of_nat x + 1 <= (zlen d - f) / f) by lia.
  assert ((Z.of_nat x + 1) * f <= zlen d - f). { pose proof (Z.mul_div_le (zlen d - f) f ltac:(lia)). nia. }
  rewrite slice_slice by nia. f_equal. lia.
Qed.
Lemma whole_all f d : 0 < f -> Forall (fun x => zlen x = f) (whole f d).
Proof.
  intros H. unfold whole. apply Forall_map, Forall_forall. intros i Hi. apply in_map_iff in Hi as (x & <- & Hx). apply in_seq in Hx.
  assert (Z.of_nat x + 1 <= zlen d / f) by lia. pose proof (Z.mul_div_le (zlen d) f H). apply slice_len; nia.
Qed.
Lemma whole_concat f F : 0 < f -> Forall (fun x => zlen x = f) F -> whole f (List.concat F) = F /\ zlen (List.concat F) mod f = 0.
Proof.
  intros Hf H. induction H as [|x F Hx _ [IH1 IH2]]; cbn [List.concat].
  - split; [apply whole_short; split; [vm_compute; congruence|exact Hf]|reflexivity].
  - rewrite zapp. pose proof (zlen_nonneg (List.concat F)). split.
    + rewrite whole_cons by (rewrite zapp; lia). rewrite zapp. f_equal.
      * pose proof (slice_mid [] x (List.concat F)) as Q. cbn [app] in Q. change (zlen []) with 0 in Q. rewrite Hx in Q. exact Q.
      * refine (eq_trans _ IH1). f_equal. pose proof (slice_mid x (List.concat F) []) as Q. rewrite app_nil_r in Q. refine (eq_trans _ Q). rewrite Hx. f_equal. lia.
    + rewrite Hx. replace (f + zlen (List.concat F)) with (zlen (List.concat F) + 1 * f) by lia. rewrite Z.mod_add by lia. exact IH2.
Qed.

Ltac sps := repeat match goal with |- _ /\ _ => split end.
(** ** One call *)
Section A.
Variable u : use.
Hypothesis HU : fair_use u.
Let E := u_env u.
Let st := u_set u.
Let v3 := (st_version st =? 3).
Let root := u_root u.
Let bk := u_bk u.
Let dt := st_dtype st.
Let m := List.length (u_mids u).
Let f := u_frame u.
Let SINV := sinv E v3 root bk (u_L0 u) (u_Lr u) dt.

Lemma f_pos : 0 < f.
Proof. exact (fb_pos E v3 root bk m (u_L0 u) (u_Lr u) (u_lgood u HU) 0 (u_L0 u) eq_refl). Qed.

Lemma feed_ok F : forall Fs docs s w, SINV Fs docs s w -> Forall (fun x => zlen x = f) F -> zlen (nth 0 Fs []) + zlen F < 2 ^ 32 ->
  exists s' w' Fs', feed E F (s, w) = ((s', w'), Ok tt) /\ SINV Fs' docs s' w' /\ nth 0 Fs' [] = nth 0 Fs [] ++ F.
Proof.
  induction F as [|x F IH]; intros Fs docs s w I HF HL.
  - exists s, w, Fs. split; [reflexivity|]. split; auto. rewrite app_nil_r. reflexivity.
  - inversion HF as [|? ? Hx HF']; subst. assert (Z2 : zlen (x :: F) = 1 + zlen F) by (unfold zlen; cbn [List.length]; lia). pose proof (zlen_nonneg F).
    destruct (append_frame E (u_calm u HU) v3 root bk m (proj1 (fu_path _ HU)) (proj2 (fu_path _ HU)) (u_bucket u HU) (u_L0 u) (u_Lr u) dt (u_lgood u HU) (fu_bpp _ HU) (u_dtr u HU) (u_step u HU)
      Fs docs s w x I Hx ltac:(lia)) as (s1 & w1 & s2 & w2 & Fs2 & R1 & R2 & I2 & N2 & _).
    destruct (IH Fs2 docs s2 w2 I2 HF') as (s' & w' & Fs' & R' & I' & N'). { rewrite N2, zapp. change (zlen [x]) with 1. lia. }
    exists s', w', Fs'. split; [|split; [exact I'|]].
    + cbn [feed]. rewrite (bind_ok _ _ _ _ _ R1). rewrite (bind_ok _ _ _ _ _ R2). exact R'.
    + rewrite N', N2, <- app_assoc. reflexivity.
Qed.

(** the stream [s] with [o] bytes waiting *)
Definition waiting (s : stream) (b : list Z) (o : Z) : stream := set_fbuf s b o.

Lemma feed_cons x F tw tw' : feed E (x :: F) tw = (tw', Ok tt) ->
  exists tw1 tw2 r, on_writer 0 (write_frame E x) tw = (tw1, Ok r) /\ write_multiscale E x r tw1 = (tw2, Ok tt) /\ feed E F tw2 = (tw', Ok tt).
Proof.
  cbn [feed]. unfold bind. destruct (on_writer 0 (write_frame E x) tw) as [tw1 [r|e| |]]; try discriminate.
  destruct (write_multiscale E x r tw1) as [tw2 [[]|e| |]] eqn:Q; try discriminate. intros H. exists tw1, tw2, r. auto.
Qed.
Lemma frame_ok Fs docs s w x : SINV Fs docs s w -> zlen x = f -> zlen (nth 0 Fs []) + 1 < 2 ^ 32 ->
  exists s1 w1 s' w' Fs', on_writer 0 (write_frame E x) (s, w) = ((s1, w1), Ok f) /\ write_multiscale E x f (s1, w1) = ((s', w'), Ok tt) /\
   SINV Fs' docs s' w' /\ nth 0 Fs' [] = nth 0 Fs [] ++ [x].
Proof.
  intros I Hx HL.
  destruct (append_frame E (u_calm u HU) v3 root bk m (proj1 (fu_path _ HU)) (proj2 (fu_path _ HU)) (u_bucket u HU) (u_L0 u) (u_Lr u) dt (u_lgood u HU) (fu_bpp _ HU) (u_dtr u HU) (u_step u HU)
      Fs docs s w x I Hx HL) as (s1 & w1 & s2 & w2 & Fs2 & R1 & R2 & I2 & N2 & _).
  exists s1, w1, s2, w2, Fs2. auto.
Qed.

Lemma splice_len b o d : 0 <= o -> o + zlen d <= zlen b -> zlen (splice b o d) = zlen b.
Proof. intros. unfold splice, zlen in *. rewrite !app_length, firstn_length, skipn_length. lia. Qed.

Lemma loop_aligned : forall k rest fuel pos written data Fs docs s w b,
  (List.length rest <= k)%nat -> SINV Fs docs s w -> zlen b = f -> 0 <= pos <= written -> written <= zlen data ->
  rest = slice data pos (zlen data - written) -> (List.length rest < fuel)%nat -> zlen (nth 0 Fs []) + zlen (whole f rest) < 2 ^ 32 ->
  exists s' w' Fs' b', append_loop E fuel data pos written (set_fbuf s b 0, w) = ((set_fbuf s' b' (zlen rest mod f), w'), Ok (zlen data)) /\
    feed E (whole f rest) (s, w) = ((s', w'), Ok tt) /\ SINV Fs' docs s' w' /\ nth 0 Fs' [] = nth 0 Fs [] ++ whole f rest /\ zlen b' = f.
Proof.
  pose proof f_pos as Fp.
  induction k as [|k IH]; intros rest fuel pos written data Fs docs s w b Hk I Hb Hp Hw Hr Hfuel HL.
  all: assert (RL : zlen rest = zlen data - written) by (rewrite Hr; apply slice_len; lia).
  all: destruct fuel as [|fuel]; [lia|].
  { assert (R0 : rest = []) by (destruct rest; [reflexivity|cbn in Hk; lia]). rewrite R0 in *. change (zlen []) with 0 in *.
    exists s, w, Fs, b. cbn [append_loop]. replace (written <? zlen data) with false by (symmetry; apply Z.ltb_ge; lia).
    rewrite (whole_short f []) by (change (zlen []) with 0; lia). cbn [feed]. rewrite Z.mod_0_l by lia. sps; auto using app_nil_r. unfold ret. do 2 f_equal. lia. }
  destruct (Z.eq_dec (zlen rest) 0) as [Z0|Z0].
  { apply (IH rest (S fuel) pos written data); auto. unfold zlen in Z0. lia. }
  pose proof (zlen_nonneg rest).
  cbn [append_loop]. replace (written <? zlen data) with true by (symmetry; apply Z.ltb_lt; lia).
  unfold bind at 1, getT. cbn [fst snd s_fbuf s_foff set_fbuf]. rewrite Hb. cbn [Z.ltb Z.compare].
  destruct (Z.ltb_spec (zlen data - written) f) as [Hlt|Hge].
  - replace (zlen data <? pos + (zlen data - written)) with false by (symmetry; apply Z.ltb_ge; lia).
    unfold bind at 1, modT. cbn [fst snd s_fbuf s_foff set_fbuf]. rewrite (whole_short f rest) by lia. cbn [feed].
    exists s, w, Fs, (splice b 0 (slice data pos (zlen data - written))). split; [|split; [reflexivity|split; [exact I|split; [rewrite app_nil_r; reflexivity|]]]].
    + destruct fuel as [|fuel]; [unfold zlen in *; lia|]. cbn [append_loop]. replace (written + (zlen data - written) <? zlen data) with false by (symmetry; apply Z.ltb_ge; lia).
      rewrite RL, Z.mod_small by lia. unfold ret. f_equal. f_equal. lia.
    + rewrite splice_len; auto; try lia. rewrite slice_len by lia. lia.
  - replace (zlen data <? pos + f) with false by (symmetry; apply Z.ltb_ge; lia).
    assert (W : whole f rest = slice data pos f :: whole f (slice data (pos + f) (zlen data - (written + f)))).
    { rewrite whole_cons by lia. rewrite Hr. rewrite slice_len by lia. rewrite !slice_slice by lia. f_equal; [f_equal; lia|]. f_equal. f_equal. lia. }
    set (rest' := slice data (pos + f) (zlen data - (written + f))) in *. rewrite W in HL.
    assert (ZW : zlen (slice data pos f :: whole f rest') = 1 + zlen (whole f rest')) by (unfold zlen; cbn [List.length]; lia). pose proof (zlen_nonneg (whole f rest')).
    destruct (frame_ok Fs docs s w (slice data pos f) I) as (s1 & w1 & s2 & w2 & Fs2 & R1 & R2 & I2 & N2); [apply slice_len; lia|lia|].
    assert (RL' : zlen rest' = zlen data - (written + f)) by (apply slice_len; lia).
    destruct (IH rest' fuel (pos + f) (written + f) data Fs2 docs s2 w2 b) as (s' & w' & Fs' & b' & R' & FD & I' & N' & Hb'); auto; try lia.
    + unfold zlen in *; lia.
    + unfold zlen in *; lia.
    + rewrite N2, zapp. change (zlen [slice data pos f]) with 1. lia.
    + exists s', w', Fs', b'. split; [|split; [|split; [exact I'|split; [|exact Hb']]]].
      * pose proof (blind_on_writer 0 (write_frame E (slice data pos f)) b 0 (s, w)) as B1. rewrite R1 in B1. cbn [put fst snd] in B1.
        rewrite (bind_ok _ _ _ _ _ B1). replace (f =? 0) with false by (symmetry; apply Z.eqb_neq; lia).
        pose proof (blind_write_multiscale E (slice data pos f) f b 0 (s1, w1)) as B2. rewrite R2 in B2. cbn [put fst snd] in B2.
        rewrite (bind_ok _ _ _ _ _ B2). refine (eq_trans R' _). do 3 f_equal. rewrite RL, RL'.
        replace (zlen data - written) with (zlen data - (written + f) + 1 * f) by lia. rewrite Z.mod_add by lia. reflexivity.
      * rewrite W. cbn [feed]. rewrite (bind_ok _ _ _ _ _ R1). rewrite (bind_ok _ _ _ _ _ R2). exact FD.
      * rewrite N', N2, <- app_assoc, W. reflexivity.
Qed.

(** a call that stays inside its buffer *)
Lemma call_ok d o b Fs docs s w G o' out :
  SINV Fs docs s w -> zlen b = f -> 0 <= o < f -> takes f o d = Some (G, o', out) ->
  ((s_multi s = false /\ st_multi st = false) \/ o = 0 \/ zlen d < f - o) -> zlen (nth 0 Fs []) + zlen G < 2 ^ 32 ->
  exists s' w' Fs' b', append E d (set_fbuf s b o, w) = ((set_fbuf s' b' o', w'), Ok out) /\
    feed E G (s, w) = ((s', w'), Ok tt) /\ SINV Fs' docs s' w' /\ nth 0 Fs' [] = nth 0 Fs [] ++ G /\ zlen b' = f /\ 0 <= o' < f.
Proof.
  intros I Hb Ho HT Hc HL. pose proof f_pos as Fp. pose proof (zlen_nonneg d).
  assert (A : append E d (set_fbuf s b o, w) = append_loop E (S (List.length d)) d 0 0 (set_fbuf s b o, w)).
  { unfold append. unfold bind at 1, onT, getM. cbn [fst snd]. rewrite (si_err _ _ _ _ _ _ _ _ _ _ _ I). reflexivity. }
  rewrite A. unfold takes in HT. destruct (Z.eqb_spec o 0) as [->|No].
  - injection HT as <- <- <-. 
    destruct (loop_aligned (List.length d) d (S (List.length d)) 0 0 d Fs docs s w b) as (s' & w' & Fs' & b' & R & FD & I' & N' & Hb'); auto; try lia.
    + rewrite Z.sub_0_r, slice_full. reflexivity.
    + exists s', w', Fs', b'. sps; auto; apply Z.mod_pos_bound; lia.
  - destruct (Z.ltb_spec (zlen d) (f - o)) as [Hs|Hs].
    + injection HT as <- <- <-. exists s, w, Fs. destruct (Z.eq_dec (zlen d) 0) as [Z0|Z0].
      * exists b. cbn [append_loop]. replace (0 <? zlen d) with false by (symmetry; apply Z.ltb_ge; lia). rewrite Z0, Z.add_0_r. sps; auto using app_nil_r; try lia; unfold ret; do 2 f_equal; lia.
      * exists (splice b o (slice d (0 + 0) (zlen d))). cbn [append_loop]. replace (0 <? zlen d) with true by (symmetry; apply Z.ltb_lt; lia).
        unfold bind at 1, getT. cbn [fst snd s_fbuf s_foff set_fbuf]. rewrite Hb. replace (0 <? o) with true by (symmetry; apply Z.ltb_lt; lia).
        rewrite Z.min_r by lia. rewrite Z.sub_0_r. replace (zlen d <? 0 + 0 + zlen d) with false by (symmetry; apply Z.ltb_ge; lia).
        unfold bind at 1, modT. cbn [fst snd s_fbuf s_foff set_fbuf]. replace (o + zlen d =? f) with false by (symmetry; apply Z.eqb_neq; lia).
        destruct (List.length d) eqn:LD; [unfold zlen in Z0; lia|]. cbn [append_loop]. replace (0 + zlen d <? zlen d) with false by (symmetry; apply Z.ltb_ge; lia).
        sps; auto using app_nil_r; try lia; rewrite splice_len; auto; try lia; rewrite slice_len by lia; lia.
    + destruct Hc as [[Hc _]|[Hc|Hc]]; try lia. destruct (Z.ltb_spec (zlen d) f) as [?|Hn]; [discriminate|].
      set (k := f - o) in *.
      assert (ST : forall fuel X, append_loop E fuel d k (k + k) (set_fbuf X (splice b o (slice d 0 k)) 0, snd (X, w)) = append_loop E fuel d k (k + k) (set_fbuf X (splice b o (slice d 0 k)) 0, w)) by reflexivity. clear ST.
      assert (G0 : exists G1, G = slice d 0 f :: G1) by (destruct (zlen d <? 2 * k); injection HT as <- <- <-; eauto). destruct G0 as [G1 G0].
      assert (ZG : zlen G = 1 + zlen G1) by (rewrite G0; unfold zlen; cbn [List.length]; lia). pose proof (zlen_nonneg G1).
      destruct (frame_ok Fs docs s w (slice d 0 f) I) as (s1 & w1 & s2 & w2 & Fs2 & R1 & R2 & I2 & N2); [apply slice_len; lia|lia|].
      assert (M1 : s_multi s1 = false).
      { unfold on_writer in R1. destruct (nth_error (s_writers s) 0); [|discriminate]. destruct (write_frame E (slice d 0 f) (w0, w)) as [[a' wx] r].
        injection R1 as <- _ _. cbn. congruence. }
      assert (R3 : (s2, w2) = (s1, w1)).
      { unfold write_multiscale in R2. unfold bind at 1, getT in R2. cbn [fst] in R2. rewrite M1 in R2. unfold ret in R2. injection R2 as -> ->. reflexivity. }
      injection R3 as -> ->.
      set (b1 := splice b o (slice d 0 k)).
      assert (B1L : zlen b1 = f). { unfold b1. rewrite splice_len; auto; try lia. rewrite slice_len by lia. lia. }
      pose proof (blind_on_writer 0 (write_frame E (slice d 0 f)) b1 f (s, w)) as B1. rewrite R1 in B1. cbn [put fst snd] in B1.
      assert (STEP : forall fuel, append_loop E (S fuel) d 0 0 (set_fbuf s b o, w) = append_loop E fuel d k (k + k) (set_fbuf s1 b1 0, w1)).
      { intros fuel. cbn [append_loop]. replace (0 <? zlen d) with true by (symmetry; apply Z.ltb_lt; lia).
        unfold bind at 1, getT. cbn [fst snd s_fbuf s_foff set_fbuf]. rewrite Hb. replace (0 <? o) with true by (symmetry; apply Z.ltb_lt; lia).
        fold k. rewrite Z.min_l by lia. replace (zlen d <? 0 + 0 + k) with false by (symmetry; apply Z.ltb_ge; lia).
        unfold bind at 1, modT. cbn [fst snd s_fbuf s_foff set_fbuf]. replace (o + k =? f) with true by (symmetry; apply Z.eqb_eq; unfold k; lia).
        replace (zlen d <? 0 + f) with false by (symmetry; apply Z.ltb_ge; lia). 
        replace (o + k) with f by (unfold k; lia). fold b1. rewrite (bind_ok _ _ _ _ _ B1). replace (f =? 0) with false by (symmetry; apply Z.eqb_neq; lia).
        reflexivity. }
      rewrite STEP. destruct (Z.ltb_spec (zlen d) (2 * k)) as [H2|H2].
      * injection HT as H1 <- <-. assert (G1 = []) by congruence. subst G1. exists s1, w1, Fs2, b1. split; [|sps; auto; try lia].
        -- destruct (List.length d) eqn:LD; [unfold zlen in *; lia|]. cbn [append_loop]. replace (k + k <? zlen d) with false by (symmetry; apply Z.ltb_ge; lia).
           unfold ret. do 2 f_equal. lia.
        -- rewrite G0. cbn [feed]. rewrite (bind_ok _ _ _ _ _ R1). rewrite (bind_ok _ _ _ _ _ R2). reflexivity.
        -- rewrite N2, G0. reflexivity.
      * injection HT as H1 <- <-. assert (G1 = whole f (slice d k (zlen d - 2 * k))) by congruence. subst G1.
        assert (RL : zlen (slice d k (zlen d - 2 * k)) = zlen d - 2 * k) by (apply slice_len; lia).
        destruct (loop_aligned (List.length d) (slice d k (zlen d - 2 * k)) (List.length d) k (k + k) d Fs2 docs s1 w1 b1) as (s' & w' & Fs' & b' & R & FD & I' & N' & Hb'); auto; try lia.
        -- unfold zlen in *; lia.
        -- f_equal. lia.
        -- unfold zlen in *; lia.
        -- rewrite N2, zapp. change (zlen [slice d 0 f]) with 1. lia.
        -- exists s', w', Fs', b'. rewrite RL in R. split; [exact R|]. split; [|split; [exact I'|split; [|split; [exact Hb'|apply Z.mod_pos_bound; lia]]]].
           ++ rewrite G0. cbn [feed]. rewrite (bind_ok _ _ _ _ _ R1). rewrite (bind_ok _ _ _ _ _ R2). exact FD.
           ++ rewrite N', N2, G0, <- app_assoc. reflexivity.
Qed.

(** a call that does not *)
Lemma call_ub d o b Fs docs s w : SINV Fs docs s w -> zlen b = f -> 0 <= o < f -> takes f o d = None -> snd (append E d (set_fbuf s b o, w)) = UB.
Proof.
  intros I Hb Ho HT. pose proof f_pos as Fp. unfold takes in HT. destruct (Z.eqb_spec o 0); [discriminate|].
  destruct (Z.ltb_spec (zlen d) (f - o)); [discriminate|]. destruct (Z.ltb_spec (zlen d) f) as [Hn|?]; [|destruct (zlen d <? 2 * (f - o)); discriminate].
  unfold append. unfold bind at 1, onT, getM. cbn [fst snd]. rewrite (si_err _ _ _ _ _ _ _ _ _ _ _ I). cbn [String.eqb expectM]. unfold bind at 1, ret at 1.
  cbn [append_loop]. replace (0 <? zlen d) with true by (symmetry; apply Z.ltb_lt; lia).
  unfold bind at 1, getT. cbn [fst snd s_fbuf s_foff set_fbuf]. rewrite Hb. replace (0 <? o) with true by (symmetry; apply Z.ltb_lt; lia).
  rewrite Z.min_l by lia. replace (zlen d <? 0 + 0 + (f - o)) with false by (symmetry; apply Z.ltb_ge; lia).
  unfold bind at 1, modT. cbn [fst snd s_fbuf s_foff set_fbuf]. replace (o + (f - o) =? f) with true by (symmetry; apply Z.eqb_eq; lia).
  replace (zlen d <? 0 + f) with true by (symmetry; apply Z.ltb_lt; lia). reflexivity.
Qed.

Lemma whole_count d : f * zlen (whole f d) + zlen d mod f = zlen d.
Proof.
  pose proof f_pos. unfold whole, zlen at 1. rewrite map_length. unfold zseq. rewrite map_length, seq_length. pose proof (zlen_nonneg d).
  rewrite Z2Nat.id by (apply Z.div_pos; lia). pose proof (Z.div_mod (zlen d) f ltac:(lia)). lia.
Qed.
Lemma takes_count o d G o' out : 0 <= o < f -> takes f o d = Some (G, o', out) ->
  f * zlen G + o' <= o + zlen d /\ 0 <= o' < f /\ Forall (fun x => zlen x = f) G.
Proof.
  intros Ho HT. pose proof f_pos as Fp. pose proof (zlen_nonneg d). unfold takes in HT.
  destruct (Z.eqb_spec o 0) as [->|No].
  - injection HT as <- <- <-. pose proof (whole_count d). pose proof (Z.mod_pos_bound (zlen d) f Fp). split; [lia|]. split; [lia|]. apply whole_all; lia.
  - destruct (Z.ltb_spec (zlen d) (f - o)). { injection HT as <- <- <-. change (zlen []) with 0. split; [lia|]. split; [lia|constructor]. }
    destruct (Z.ltb_spec (zlen d) f); [discriminate|]. destruct (Z.ltb_spec (zlen d) (2 * (f - o))).
    + injection HT as <- <- <-. change (zlen [slice d 0 f]) with 1. split; [lia|]. split; [lia|]. constructor; [apply slice_len; lia|constructor].
    + injection HT as <- <- <-. set (r := slice d (f - o) (zlen d - 2 * (f - o))).
      assert (RL : zlen r = zlen d - 2 * (f - o)) by (apply slice_len; lia). pose proof (whole_count r) as C. rewrite RL in C.
      assert (Zc : zlen (slice d 0 f :: whole f r) = 1 + zlen (whole f r)) by (unfold zlen; cbn [List.length]; lia). rewrite Zc.
      split; [lia|]. split; [apply Z.mod_pos_bound; lia|]. constructor; [apply slice_len; lia|]. apply whole_all; lia.
Qed.
Lemma takes_all_count cs : forall o G o' outs, 0 <= o < f -> takes_all f o cs = Some (G, o', outs) ->
  f * zlen G + o' <= o + zlen (List.concat cs) /\ 0 <= o' < f /\ Forall (fun x => zlen x = f) G.
Proof.
  induction cs as [|d cs IH]; intros o G o' outs Ho H; cbn [takes_all List.concat] in *.
  - injection H as <- <- <-. change (zlen (@nil (list Z))) with 0. change (zlen (@nil Z)) with 0. split; [lia|]. split; [lia|constructor].
  - destruct (takes f o d) as [[[G1 o1] b1]|] eqn:T; [|discriminate]. destruct (takes_all f o1 cs) as [[[G2 o2] bs]|] eqn:T2; [|discriminate].
    injection H as <- <- <-. destruct (takes_count _ _ _ _ _ Ho T) as (A & B & C). destruct (IH _ _ _ _ B T2) as (A2 & B2 & C2).
    rewrite !zapp. split; [lia|]. split; [lia|]. apply Forall_app; auto.
Qed.

Lemma never_takes cs : forall o, never_finishes f o cs -> takes_all f o cs <> None.
Proof.
  induction cs as [|d cs IH]; intros o H; cbn [takes_all never_finishes] in *; [discriminate|]. unfold takes.
  destruct (o =? 0).
  - specialize (IH _ H). destruct (takes_all f (zlen d mod f) cs) as [[[? ?] ?]|]; [discriminate|congruence].
  - destruct H as [H1 H2]. specialize (IH _ H2). replace (zlen d <? f - o) with true by (symmetry; apply Z.ltb_lt; lia).
    destruct (takes_all f (o + zlen d) cs) as [[[? ?] ?]|]; [discriminate|congruence].
Qed.

Lemma feed_multi F : forall s w s' w' , feed E F (s, w) = ((s', w'), Ok tt) -> s_multi s = false -> s_multi s' = false.
Proof.
  induction F as [|x F IH]; intros s w s' w' H M; [cbn in H; unfold ret in H; congruence|].
  destruct (feed_cons _ _ _ _ H) as ([s1 w1] & [s2 w2] & r & R1 & R2 & R3).
  assert (M1 : s_multi s1 = false).
  { unfold on_writer in R1. destruct (nth_error (s_writers s) 0); [|discriminate]. destruct (write_frame E x (w0, w)) as [[a' wx] rr]. injection R1 as <- _ _. exact M. }
  assert (R4 : (s2, w2) = (s1, w1)).
  { unfold write_multiscale in R2. unfold bind at 1, getT in R2. cbn [fst] in R2. rewrite M1 in R2. unfold ret in R2. injection R2 as -> ->. reflexivity. }
  injection R4 as -> ->. eauto.
Qed.

Definition reported (outs : list Z) : list (Z * option Z) := map (fun n => (st_success, Some n)) outs.

(** whether a completing call may be allowed *)
Definition fine (s : stream) (o : Z) (cs : list (list Z)) : Prop := (s_multi s = false /\ st_multi st = false) \/ never_finishes f o cs.

Lemma appends_any cs : forall o b Fs docs s w, SINV Fs docs s w -> zlen b = f -> 0 <= o < f -> fine s o cs ->
  f * zlen (nth 0 Fs []) + o + zlen (List.concat cs) < f * 2 ^ 32 ->
  match takes_all f o cs with
  | None => snd (api_appends E cs (set_fbuf s b o, w)) = UB
  | Some (G, o', outs) => exists s' w' Fs' b', api_appends E cs (set_fbuf s b o, w) = ((set_fbuf s' b' o', w'), Ok (reported outs)) /\
      feed E G (s, w) = ((s', w'), Ok tt) /\ SINV Fs' docs s' w'
  end.
Proof.
  pose proof f_pos as Fp.
  induction cs as [|d cs IH]; intros o b Fs docs s w I Hb Ho HF HL; cbn [takes_all].
  - exists s, w, Fs, b. sps; auto.
  - cbn [List.concat] in HL. rewrite zapp in HL. pose proof (zlen_nonneg (List.concat cs)). pose proof (zlen_nonneg d).
    destruct (takes f o d) as [[[G1 o1] b1]|] eqn:T.
    + destruct (takes_count _ _ _ _ _ Ho T) as (A & B & C).
      assert (HM : (s_multi s = false /\ st_multi st = false) \/ o = 0 \/ zlen d < f - o).
      { destruct HF as [MM|NF]; [left; exact MM|]. right. cbn [never_finishes] in NF. destruct (Z.eqb_spec o 0); [auto|]. right. apply NF. }
      assert (CO : exists s' w' Fs' b', append E d (set_fbuf s b o, w) = ((set_fbuf s' b' o1, w'), Ok b1) /\
         feed E G1 (s, w) = ((s', w'), Ok tt) /\ SINV Fs' docs s' w' /\ nth 0 Fs' [] = nth 0 Fs [] ++ G1 /\ zlen b' = f /\ 0 <= o1 < f).
      { assert (LL : zlen (nth 0 Fs []) + zlen G1 < 2 ^ 32) by nia.
        eapply call_ok; eauto. }
      destruct CO as (s1 & w1 & Fs1 & b1' & R1 & F1 & I1 & N1 & Hb1 & _).
      assert (HF1 : fine s1 o1 cs).
      { destruct HF as [[M1 M2]|NF].
        - left. split; auto. eapply feed_multi; eauto.
        - right. cbn [never_finishes] in NF. unfold takes in T. destruct (Z.eqb_spec o 0).
          + injection T as <- <- <-. exact NF.
          + destruct NF as [NF1 NF2]. replace (zlen d <? f - o) with true in T by (symmetry; apply Z.ltb_lt; lia). injection T as <- <- <-. exact NF2. }
      specialize (IH o1 b1' Fs1 docs s1 w1 I1 Hb1 B HF1). 
      destruct (takes_all f o1 cs) as [[[G2 o2] bs]|] eqn:T2.
      * destruct IH as (s' & w' & Fs' & b' & R & FD & I'); [rewrite N1, zapp; lia|].
        exists s', w', Fs', b'. split; [|split; [|exact I']].
        -- cbn [api_appends]. rewrite (bind_ok _ _ _ (set_fbuf s1 b1' o1, w1) (st_success, Some b1)).
           2:{ unfold api_append, catchM. rewrite (bind_ok _ _ _ _ _ R1). reflexivity. }
           rewrite (bind_ok _ _ _ _ _ R). reflexivity.
        -- rewrite (feed_app E G1 G2 (s, w) (s1, w1) F1). exact FD.
      * cbn [api_appends]. rewrite (bind_ok _ _ _ (set_fbuf s1 b1' o1, w1) (st_success, Some b1)).
        2:{ unfold api_append, catchM. rewrite (bind_ok _ _ _ _ _ R1). reflexivity. }
        assert (X : snd (api_appends E cs (set_fbuf s1 b1' o1, w1)) = UB) by (apply IH; rewrite N1, zapp; lia).
        unfold bind. destruct (api_appends E cs (set_fbuf s1 b1' o1, w1)) as [tw r]. cbn [snd] in X. subst r. reflexivity.
    + pose proof (call_ub d o b Fs docs s w I Hb Ho T) as X. cbn [api_appends].
      unfold bind at 1. unfold api_append, catchM. unfold bind at 1. destruct (append E d (set_fbuf s b o, w)) as [tw r]. cbn [snd] in X. subst r. reflexivity.
Qed.

(** ** The whole session *)
Definition keeps {A} (c : M TW A) : Prop := forall tw, s_multi (fst (fst (c tw))) = s_multi (fst tw).
Lemma keeps_bind {A B} (c : M TW A) (g : A -> M TW B) : keeps c -> (forall a, keeps (g a)) -> keeps (bind c g).
Proof. intros H1 H2 tw. unfold bind. specialize (H1 tw). destruct (c tw) as [tw' [a|e| |]]; cbn [fst] in *; auto. rewrite H2. exact H1. Qed.
Lemma keeps_ret {A} (a : A) : keeps (ret a). Proof. intros tw. reflexivity. Qed.
Lemma keeps_expect c e : keeps (expectM c e). Proof. destruct c; intros tw; reflexivity. Qed.
Lemma keeps_get {B} (g : stream -> M TW B) : (forall s, keeps (g s)) -> keeps (bind getT g).
Proof. intros H tw. unfold bind, getT. apply H. Qed.
Lemma keeps_on {A} (c : M world A) : keeps (onT c).
Proof. intros [s w]. unfold onT. cbn [fst snd]. destruct (c w). reflexivity. Qed.
Lemma keeps_md k d e : keeps (write_metadata E k d e).
Proof.
  intros [s w]. unfold write_metadata. destruct (find_key k (s_msinks s)) as [i|]; auto. destruct (nth i (s_msinks s) (k, None)) as [k' [sk|]].
  - destruct (sink_write E 0 d (sk, w)) as [[sk' w'] [[|]|mm| |]]; reflexivity.
  - reflexivity.
Qed.
Lemma keeps_sinks : keeps (create_metadata_sinks E).
Proof.
  apply keeps_get. intros s. apply keeps_bind; [apply keeps_on|]. intros [l|]; [|apply keeps_ret]. apply keeps_bind; [|intros; apply keeps_ret]. intros tw. reflexivity.
Qed.
Lemma new_multi s w w' : new_stream E (Some st) w = (w', Ok s) -> s_multi s = st_multi st.
Proof.
  unfold new_stream. destruct (validate_settings E w (Some st)) as [[|]|e| |]; try discriminate. intros H.
  unfold bind at 1, liftM at 1 in H. destruct (commit st) as [s0|e| |] eqn:C; try discriminate.
  assert (M0 : s_multi s0 = st_multi st).
  { destruct (u_commit u HU) as (s0' & C' & _ & _ & _ & _ & _ & M & _). pose proof (eq_trans (eq_sym C) C') as Q. injection Q as ->. exact M. }
  unfold bind at 1, liftM at 1 in H. destruct (bytes_of_frame (s_dims s0) (s_dtype s0)) as [n|e| |]; try discriminate.
  unfold bind at 1 in H. destruct (create_store E (set_fbuf s0 (zrep 0 n) 0) w) as [w1 [ok|e| |]]; try discriminate.
  unfold bind at 1 in H. destruct ok; [|discriminate]. cbn [expectM] in H. unfold ret at 1 in H.
  unfold bind at 1, liftM at 1 in H. destruct (create_writers (set_fbuf s0 (zrep 0 n) 0)) as [ws|e| |]; try discriminate.
  cbv beta in H.
  match type of H with context [bind (create_metadata_sinks E) ?k] => assert (K : keeps (bind (create_metadata_sinks E) k)) end.
  { apply keeps_bind; [apply keeps_sinks|intros]. apply keeps_bind; [apply keeps_expect|intros].
    apply keeps_bind; [apply keeps_get; intros s1; destruct (base_metadata s1); apply keeps_md|intros]. apply keeps_bind; [apply keeps_expect|intros].
    apply keeps_bind; [apply keeps_get; intros s1; destruct (group_metadata s1); apply keeps_md|intros]. apply keeps_bind; [apply keeps_expect|intros].
    apply keeps_bind; [|intros; apply keeps_expect].
    apply keeps_get. intros s1. destruct (String.eqb (s_custom s1) ""); [apply keeps_ret|apply keeps_md]. }
  match type of H with context [bind (create_metadata_sinks E) ?k (?t, w1)] => specialize (K (t, w1)); destruct (bind (create_metadata_sinks E) k (t, w1)) as [[s' wx] [[]|e| |]] end; cbn [obind] in H; try discriminate.
  injection H as _ <-. cbn [fst] in K. rewrite K. cbn [s_multi set_writers set_fbuf]. destruct (s_multi s0) eqn:Q; exact (eq_trans (eq_refl) (eq_trans (eq_sym Q) M0)) || (cbn; congruence).
Qed.

Lemma created : exists s w1, api_create E (Some st) (u_world u) = (w1, Ok (Some s)) /\
  SINV (repeat [] (List.length (u_L0 u :: u_Lr u))) (docs_of E v3 (u_L0 u) (u_Lr u) (u_custom u)) s w1 /\ s_multi s = st_multi st.
Proof.
  destruct (validate_settings_spec E (u_world u) st (fu_typed _ HU) (fu_strings _ HU)) as (b & HV & Hb).
  assert (b = true) as -> by (apply Hb; exact (fu_doc _ HU)).
  destruct (u_commit u HU) as (s0 & HC & C1 & C2 & C3 & C4 & C5 & C6 & C7 & C8).
  destruct (u_writers u HU s0 [] C1 C2 C3 C4 C5 C6 C8) as (ws & HW & F2).
  assert (HW' : forall b, create_writers (set_fbuf s0 b 0) = Ok ws) by (intros; exact HW).
  assert (TR : bk = None -> tree E (u_world u)). { intros _ d p A B C D. exact (fu_disk _ HU d p A B D C). }
  assert (ML : s_multi s0 = false -> u_Lr u = []) by (rewrite C6; intros M; unfold u_Lr; rewrite M; reflexivity).
  assert (DF : docs_fit E v3 bk (u_L0 u) (u_Lr u) (s_custom s0)) by (rewrite C7; exact (u_docs_fit u HU)).
  destruct (new_stream_ok E (u_calm u HU) v3 root bk m (proj1 (fu_path _ HU)) (proj2 (fu_path _ HU)) (u_bucket u HU) (u_L0 u) (u_Lr u) dt (u_lgood u HU) (fu_bpp _ HU) st s0 ws (u_world u) HV HC C1 C2 C3 C4 C5 ML HW' F2 DF (fu_err _ HU) TR (fu_conns _ HU))
    as (s & w1 & R & I & _).
  exists s, w1. split; [|split].
  - unfold api_create, catchM. rewrite (bind_ok _ _ _ _ _ R). reflexivity.
  - rewrite C7 in I. exact I.
  - eapply new_multi. exact R.
Qed.

Definition fine_calls (cs : list (list Z)) : Prop := st_multi st = false \/ never_finishes f 0 cs.

Theorem any_calls cs : fine_calls cs -> zlen (List.concat cs) < f * 2 ^ 32 ->
  match takes_all f 0 cs with
  | None => snd (session E st cs (u_world u)) = UB
  | Some (G, o', outs) => whole_frames u [G] /\ session E st cs (u_world u) = (after u [G], Ok (Some (reported outs, true)))
  end.
Proof.
  intros HF HL. pose proof f_pos as Fp. destruct created as (s & w1 & R & I & M).
  assert (SB : s = set_fbuf s (s_fbuf s) 0). { pose proof (si_off _ _ _ _ _ _ _ _ _ _ _ I) as O. destruct s; cbn in *. subst. reflexivity. }
  assert (BL : zlen (s_fbuf s) = f) by exact (si_buf _ _ _ _ _ _ _ _ _ _ _ I).
  assert (N0 : nth 0 (repeat (@nil (list Z)) (List.length (u_L0 u :: u_Lr u))) [] = []) by reflexivity.
  assert (F0 : forall c, fine_calls c -> fine s 0 c) by (intros c [Q|Q]; [left; rewrite M; auto|right; auto]).
  assert (SESS : forall c, session E st c (u_world u) =
      let '((s', w'), r) := (rs <- api_appends E c ;; d <- api_destroy E ;; ret (Some (rs, d))) (set_fbuf s (s_fbuf s) 0, w1) in (w', r)).
  { intros c. unfold session. rewrite (bind_ok _ _ _ _ _ R). rewrite <- SB. reflexivity. }
  pose proof (appends_any cs 0 (s_fbuf s) _ _ s w1 I BL ltac:(lia) (F0 cs HF)) as AP. rewrite N0 in AP. change (zlen []) with 0 in AP.
  rewrite Z.mul_0_r in AP. specialize (AP ltac:(lia)). rewrite SESS. destruct (takes_all f 0 cs) as [[[G o'] outs]|] eqn:T.
  - destruct AP as (s' & w' & Fs' & b' & RA & FD & I').
    destruct (takes_all_count cs 0 G o' outs ltac:(lia) T) as (A & B & C).
    assert (ZG : zlen G < 2 ^ 32) by nia.
    assert (WF : whole_frames u [G]). { split; [constructor; [exact C|constructor]|]. cbn [List.concat]. rewrite app_nil_r. exact ZG. }
    split; [exact WF|].
    destruct (whole_concat f G Fp C) as [W1 W2].
    assert (FG : fine_calls (calls [G])). { right. cbn [calls map never_finishes Z.eqb]. exact Logic.I. }
    assert (CL : zlen (List.concat G) = f * zlen G). { pose proof (whole_count (List.concat G)) as Q. rewrite W1, W2 in Q. lia. }
    pose proof (appends_any (calls [G]) 0 (s_fbuf s) _ _ s w1 I BL ltac:(lia) (F0 _ FG)) as AP2.
    assert (TG : takes_all f 0 (calls [G]) = Some (G ++ [], 0, [zlen (List.concat G)])).
    { cbn [calls map takes_all]. unfold takes. cbn [Z.eqb]. rewrite W1, W2. reflexivity. }
    rewrite TG, app_nil_r in AP2. destruct AP2 as (s2 & w2 & Fs2 & b2 & RA2 & FD2 & I2).
    { rewrite N0. change (zlen []) with 0. cbn [calls map List.concat]. rewrite app_nil_r, CL. nia. }
    rewrite FD in FD2. injection FD2 as <- <-.
    unfold after. fold E st. rewrite SESS. rewrite (bind_ok _ _ _ _ _ RA), (bind_ok _ _ _ _ _ RA2).
    destruct (session_ok u HU [G] WF) as (x1 & x2 & SO & _). fold E st in SO. rewrite SESS in SO. rewrite (bind_ok _ _ _ _ _ RA2) in SO.
    unfold api_destroy in *. unfold bind in *.
    pose proof (blind_finalize E b' o' (s', w')) as B1. pose proof (blind_finalize E b2 0 (s', w')) as B2. unfold put in B1, B2. cbn [fst snd] in B1, B2.
    rewrite B1. rewrite B2 in *. destruct (finalize_stream E (s', w')) as [[s3 w3] [d|e| |]]; cbn [fst snd put] in *; try discriminate.
    unfold ret in *. injection SO as _ ->. reflexivity.
  - unfold bind at 1. destruct (api_appends E cs (set_fbuf s (s_fbuf s) 0, w1)) as [[s2 w2] r]. cbn [snd] in AP. subst r. reflexivity.
Qed.
End A.

(** ** Calls that do not split frames *)
Lemma split_whole f d : 0 < f -> exists p, d = List.concat (whole f d) ++ p /\ zlen p = zlen d mod f.
Proof.
  intros Hf. remember (List.length d) as k eqn:Hk. assert (Hk' : (List.length d <= k)%nat) by lia. clear Hk. revert d Hk'.
  induction k as [|k IH]; intros d Hk.
  - assert (d = []) as -> by (destruct d; [reflexivity|cbn in Hk; lia]). exists []. rewrite whole_short by (change (zlen []) with 0; lia). change (zlen []) with 0. rewrite Z.mod_0_l by lia. auto.
  - pose proof (zlen_nonneg d). destruct (Z.lt_ge_cases (zlen d) f).
    + exists d. rewrite whole_short by lia. rewrite Z.mod_small by lia. auto.
    + rewrite whole_cons by lia. destruct (IH (slice d f (zlen d - f))) as (p & P1 & P2).
      { assert (zlen (slice d f (zlen d - f)) = zlen d - f) by (apply slice_len; lia). unfold zlen in *. lia. }
      exists p. cbn [List.concat]. rewrite <- app_assoc, <- P1. split.
      * rewrite <- (slice_full d) at 1. replace (zlen d) with (f + (zlen d - f)) at 1 by lia. rewrite slice_split by lia. rewrite Z.add_0_l. reflexivity.
      * rewrite P2, slice_len by lia. replace (zlen d) with (zlen d - f + 1 * f) at 2 by lia. rewrite Z.mod_add by lia. reflexivity.
Qed.
Lemma slice_app_exact (x y : list Z) : slice (x ++ y) 0 (zlen x) = x /\ slice (x ++ y) (zlen x) (zlen y) = y.
Proof.
  split.
  - pose proof (slice_mid [] x y) as Q. exact Q.
  - pose proof (slice_mid x y []) as Q. rewrite app_nil_r in Q. exact Q.
Qed.
Lemma whole_frames_app f F p : 0 < f -> Forall (fun x => zlen x = f) F -> whole f (List.concat F ++ p) = F ++ whole f p.
Proof.
  intros Hf H. induction H as [|x F Hx _ IH]; [reflexivity|]. cbn [List.concat app]. rewrite <- app_assoc.
  pose proof (zlen_nonneg (List.concat F ++ p)). rewrite whole_cons by (rewrite zapp; lia). destruct (slice_app_exact x (List.concat F ++ p)) as [S1 S2]. rewrite Hx in S1, S2.
  f_equal; [exact S1|]. refine (eq_trans _ IH). f_equal. refine (eq_trans _ S2). f_equal. rewrite zapp. lia.
Qed.
Lemma never_takes_all f cs : 0 < f -> forall o, 0 <= o < f -> never_finishes f o cs ->
  exists o', takes_all f o cs = Some (if o =? 0 then whole f (List.concat cs) else [], o', map (@zlen Z) cs) /\ (o <> 0 -> o + zlen (List.concat cs) < f).
Proof.
  intros Hf. induction cs as [|d cs IH]; intros o Ho H; cbn [takes_all never_finishes List.concat map] in *.
  - exists o. change (zlen []) with 0. split; [|lia]. destruct (o =? 0); auto.
  - unfold takes. pose proof (zlen_nonneg d). destruct (Z.eqb_spec o 0) as [->|No].
    + destruct (IH (zlen d mod f) ltac:(apply Z.mod_pos_bound; lia) H) as (o' & T & S). exists o'. rewrite T. split; [|lia]. do 3 f_equal.
      destruct (split_whole f d Hf) as (p & P1 & P2). pose proof (whole_all f d Hf) as WA. set (F := whole f d) in *. clearbody F. rewrite P1, <- app_assoc, whole_frames_app by auto. f_equal.
      rewrite <- P1, <- P2 in *. destruct (Z.eqb_spec (zlen p) 0) as [Z0|Z0].
      * assert (p = []) as -> by (destruct p; [reflexivity|unfold zlen in Z0; cbn in Z0; lia]). reflexivity.
      * symmetry. apply whole_short. rewrite zapp. specialize (S Z0). pose proof (zlen_nonneg p). pose proof (zlen_nonneg (List.concat cs)). lia.
    + destruct H as [H1 H2]. replace (zlen d <? f - o) with true by (symmetry; apply Z.ltb_lt; lia).
      destruct (IH (o + zlen d) ltac:(lia) H2) as (o' & T & S). exists o'. rewrite T. replace (o + zlen d =? 0) with false by (symmetry; apply Z.eqb_neq; lia).
      split; [reflexivity|]. intros _. rewrite zapp. lia.
Qed.
Lemma documented_takes f cs : 0 < f -> Forall (fun d => d = [] \/ f <= zlen d) cs -> forall o, 0 <= o < f -> takes_all f o cs <> None.
Proof.
  intros Hf H. induction H as [|d cs Hd _ IH]; intros o Ho; cbn [takes_all]; [discriminate|].
  assert (T : exists G o1 b, takes f o d = Some (G, o1, b) /\ 0 <= o1 < f).
  { unfold takes. pose proof (zlen_nonneg d). destruct (Z.eqb_spec o 0); [do 3 eexists; split; [reflexivity|apply Z.mod_pos_bound; lia]|].
    destruct (Z.ltb_spec (zlen d) (f - o)); [do 3 eexists; split; [reflexivity|lia]|]. destruct Hd as [->|Hd]; [change (zlen []) with 0 in *; lia|].
    destruct (Z.ltb_spec (zlen d) f); [lia|]. destruct (zlen d <? 2 * (f - o)); do 3 eexists; (split; [reflexivity|]); [lia|apply Z.mod_pos_bound; lia]. }
  destruct T as (G & o1 & b & -> & Ho1). specialize (IH o1 Ho1). destruct (takes_all f o1 cs) as [[[? ?] ?]|]; congruence.
Qed.
