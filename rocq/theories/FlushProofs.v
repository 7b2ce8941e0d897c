(** Operations on the list of sinks of one flush, compression and array metadata, without failures. *)
Require Import ZArith List Bool String Ascii Lia Zify.
Require Import Verif.Base Verif.Spec Verif.Dim Verif.Json Verif.Radix Verif.Limits Verif.DimProofs Verif.PathProofs
  Verif.World Verif.Writer Verif.SinkProofs Verif.CreateProofs.
Import ListNotations.
Open Scope string_scope.
Open Scope list_scope.
Open Scope Z_scope.

Lemma set_sinks_id a : set_sinks a (a_sinks a) = a.
Proof. destruct a; reflexivity. Qed.
Lemma set_bufs_id a : set_bufs a (a_bufs a) = a.
Proof. destruct a; reflexivity. Qed.

Lemma in_locs_incl ls ls' e : (forall l, In l ls -> In l ls') -> in_locs ls e -> in_locs ls' e.
Proof. intros H (l & H1 & H2). exists l; auto. Qed.
Lemma in_locs_no_remove ls e : in_locs ls e -> no_remove e.
Proof. intros (l & _ & H). eapply only_no_remove; eauto. Qed.

Lemma miter_app {S A} (f : A -> M S unit) l m s : miter f (l ++ m) s = (miter f l ;;; miter f m) s.
Proof.
  revert s; induction l; intros s; simpl; auto. unfold bind. destruct (f a s) as [s1 [ | | | ]]; auto.
  rewrite IHl. reflexivity.
Qed.

Section L.
Variable E : env.
Hypothesis HE : calm E.

Lemma sinks_hold_ext P w w' ss ls cs :
  extends P w w' -> (forall e l, P e -> In l ls -> ~ affects l e) ->
  sinks_hold E w ss ls cs -> sinks_hold E w' ss ls cs.
Proof.
  intros Hx HP (L1 & L2 & H). split; [auto|split; [auto|]]. intros i Hi.
  destruct (H i Hi) as (s & A1 & A2 & A3). exists s. split; [auto|split; [auto|]].
  eapply extends_holds; eauto. intros e He. rewrite A2. apply HP; auto. apply nth_In; auto.
Qed.

Lemma on_sink_write a w ls cs i d :
  sinks_hold E w (a_sinks a) ls cs -> NoDup ls -> (i < List.length ls)%nat ->
  zlen (nth i cs []) + zlen d < 2 ^ 64 ->
  exists ss' w', on_sink i (sink_write E (zlen (nth i cs [])) d) (a, w) = ((set_sinks a ss', w'), Ok true)
    /\ extends (only (nth i ls (LF ""))) w w'
    /\ sinks_hold E w' ss' ls (upd cs i (nth i cs [] ++ d)).
Proof.
  intros (L1 & L2 & Hs) Hnd Hi Hb. destruct (Hs i Hi) as (s & A1 & A2 & A3).
  destruct (sink_write_ok E w s _ d HE A3 Hb) as (s' & w' & R1 & R2 & R3 & R4).
  unfold on_sink. rewrite A1, R1. do 2 eexists. split; [reflexivity|]. rewrite A2 in R2. split; auto.
  split; [rewrite upd_length; auto|]. split; [rewrite upd_length; auto|].
  intros j Hj. rewrite !nth_upd by lia. destruct (Nat.eqb_spec i j) as [<-|Hij].
  - exists s'. split; [auto|]. split; [congruence|auto].
  - destruct (Hs j Hj) as (t & B1 & B2 & B3). exists t. split; [auto|]. split; [auto|].
    eapply extends_holds; eauto. intros e He Ha. pose proof (only_affects _ _ _ He Ha) as X. rewrite B2 in X.
    apply Hij. symmetry. eapply NoDup_nth; eauto.
Qed.

(** ** closing *)
Definition slots (w : world) (ss : list (option sink)) (ls : list loc) (cs : list (list Z)) (open : nat -> Prop) : Prop :=
  List.length ss = List.length ls /\ List.length cs = List.length ls /\
  forall i, (i < List.length ls)%nat ->
    (open i -> exists s, nth i ss None = Some s /\ loc_of s = nth i ls (LF "") /\ holds E w s (nth i cs []))
    /\ (~ open i -> content E (w_trace w) (nth i ls (LF "")) = Some (nth i cs []) /\ closed (w_trace w) (nth i ls (LF ""))).

Definition closable (l : loc) (c : list Z) : Prop := zlen c < 2 ^ 64 /\ (c <> [] \/ exists p, l = LF p).

Lemma close_one a w ls cs i (open : nat -> Prop) :
  slots w (a_sinks a) ls cs open -> NoDup ls -> (i < List.length ls)%nat -> open i ->
  closable (nth i ls (LF "")) (nth i cs []) -> (forall j, open j \/ ~ open j) ->
  exists ss' w', on_slot i (finalize_sink E) (a, w) = ((set_sinks a ss', w'), Ok true)
    /\ extends (only (nth i ls (LF ""))) w w'
    /\ slots w' ss' ls cs (fun j => open j /\ j <> i).
Proof.
  intros (L1 & L2 & Hs) Hnd Hi Ho [Hc1 Hc2] Hdec. destruct (Hs i Hi) as [H1 _]. destruct (H1 Ho) as (s & A1 & A2 & A3).
  destruct (finalize_sink_shut E w s _ HE A3 Hc1) as (w' & R1 & R2' & R3 & R4).
  { destruct Hc2 as [|[p Hp]]; auto. right. rewrite <- A2 in Hp. destruct s; [eauto|discriminate]. }
  assert (R2 : extends (only (loc_of s)) w w') by (eapply extends_impl; [|exact R2']; apply shut_only).
  unfold on_slot. rewrite A1, R1. do 2 eexists. split; [reflexivity|]. rewrite A2 in R2, R3, R4. split; auto.
  split; [rewrite upd_length; auto|]. split; [auto|].
  intros j Hj. destruct (Hs j Hj) as [K1 K2]. split.
  - intros [Hoj Hji]. destruct (K1 Hoj) as (t & B1 & B2 & B3). exists t. rewrite nth_upd by lia.
    rewrite (proj2 (Nat.eqb_neq i j)) by auto. split; [auto|]. split; [auto|].
    eapply extends_holds; eauto. intros e He Ha. pose proof (only_affects _ _ _ He Ha) as X. rewrite B2 in X.
    apply Hji. eapply NoDup_nth; eauto.
  - intros Hn. destruct (Nat.eq_dec j i) as [->|Hji]; [auto|].
    assert (HN : forall e, only (nth i ls (LF "")) e -> ~ affects (nth j ls (LF "")) e).
    { intros e He Ha. pose proof (only_affects _ _ _ He Ha) as X. apply Hji. eapply NoDup_nth; eauto. }
    rewrite (extends_content E _ _ _ _ R2 HN). destruct K2 as [K2 K3]; [tauto|]. split; [exact K2|].
    exact (extends_closed _ _ _ _ R2 HN K3).
Qed.

Lemma close_sinks_ok a w ls cs :
  sinks_hold E w (a_sinks a) ls cs -> NoDup ls ->
  (forall i, (i < List.length ls)%nat -> closable (nth i ls (LF "")) (nth i cs [])) ->
  exists w', close_sinks E (a, w) = ((set_sinks a [], w'), Ok tt)
    /\ extends (in_locs ls) w w'
    /\ (forall i, (i < List.length ls)%nat -> content E (w_trace w') (nth i ls (LF "")) = Some (nth i cs []))
    /\ (forall i, (i < List.length ls)%nat -> closed (w_trace w') (nth i ls (LF ""))).
Proof.
  intros Hs Hnd Hc. unfold close_sinks. rewrite (bind_ok getA _ (a, w) (a, w) a) by reflexivity.
  assert (G : forall l a w (open : nat -> Prop), NoDup l -> (forall i, open i <-> In i l) ->
     (forall i, In i l -> (i < List.length ls)%nat) -> slots w (a_sinks a) ls cs open ->
     exists ss' w', miter (fun i => ok <- on_slot i (finalize_sink E) ;; expectM ok "Failed to finalize sink") l (a, w)
        = ((set_sinks a ss', w'), Ok tt) /\ extends (in_locs ls) w w' /\ slots w' ss' ls cs (fun _ => False)).
  { induction l as [|i l IH]; intros a0 w0 open Hndl Hop Hin Hsl.
    - exists (a_sinks a0), w0. rewrite set_sinks_id. split; [reflexivity|]. split; [apply extends_refl|].
      destruct Hsl as (L1 & L2 & Hsl). split; [auto|split; [auto|]]. intros i Hi. destruct (Hsl i Hi) as [_ K2].
      split; [tauto|]. intros _. apply K2. rewrite Hop. simpl; tauto.
    - inv Hndl. destruct (close_one a0 w0 ls cs i open Hsl Hnd) as (ss1 & w1 & R1 & R2 & R3).
      + apply Hin; left; auto.
      + apply Hop; left; auto.
      + apply Hc, Hin; left; auto.
      + intros j. rewrite Hop. destruct (in_dec Nat.eq_dec j (i :: l)); auto.
      + cbn [miter]. erewrite bind_ok. 2:{ erewrite bind_ok by exact R1. reflexivity. }
        destruct (IH (set_sinks a0 ss1) w1 (fun j => open j /\ j <> i)) as (ss2 & w2 & S1 & S2 & S3).
        * auto.
        * intros j. rewrite Hop. simpl. split; [intros [[->|]]; tauto|].
          intros Hj. split; [tauto|]. intros ->. tauto.
        * intros; apply Hin; right; auto.
        * exact R3.
        * exists ss2, w2. split; [rewrite S1; reflexivity|]. split; [|auto].
          eapply extends_trans; [|exact S2]. eapply extends_impl; [|exact R2]. intros e He. eexists; split; [|exact He].
          apply nth_In. apply Hin; left; auto. }
  destruct Hs as (L1 & L2 & Hs).
  destruct (G (seq 0 (List.length (a_sinks a))) a w (fun i => In i (seq 0 (List.length (a_sinks a))))) as (ss' & w' & R1 & R2 & R3).
  - apply seq_NoDup.
  - tauto.
  - intros i Hi. apply in_seq in Hi. lia.
  - split; [auto|split; [auto|]]. intros i Hi. split; [auto|]. intros Hn. exfalso. apply Hn. apply in_seq. lia.
  - rewrite (bind_ok _ _ _ _ _ R1). unfold modA. cbn [fst snd]. exists w'. split; [reflexivity|]. split; [auto|].
    destruct R3 as (_ & _ & R3). split; intros i Hi; apply R3; auto.
Qed.

(** ** the writes of one v2 flush, in any order of the jobs *)
Lemma v2_job_ok a w ls cs i :
  sinks_hold E w (a_sinks a) ls cs -> NoDup ls -> (i < List.length ls)%nat -> nth i cs [] = [] ->
  zlen (nth i (a_bufs a) []) < 2 ^ 64 ->
  exists ss' w', v2_job E i (a, w) = ((set_sinks a ss', w'), Ok tt)
    /\ extends (only (nth i ls (LF ""))) w w'
    /\ sinks_hold E w' ss' ls (upd cs i (nth i (a_bufs a) [])).
Proof.
  intros Hs Hnd Hi Hc Hb. destruct (on_sink_write a w ls cs i (nth i (a_bufs a) []) Hs Hnd Hi) as (ss' & w' & R1 & R2 & R3).
  { rewrite Hc. exact Hb. }
  rewrite Hc in R1, R3. change (zlen []) with 0 in R1. cbn [app] in R3.
  exists ss', w'. split; [|auto]. unfold v2_job. rewrite (bind_ok getA _ (a, w) (a, w) a) by reflexivity.
  erewrite bind_ok. 2:{ unfold catchM. erewrite bind_ok by exact R1. reflexivity. }
  reflexivity.
Qed.

Lemma v2_jobs_ok ls bufs : NoDup ls ->
  forall l a w cs, NoDup l -> a_bufs a = bufs ->
  (forall i, In i l -> (i < List.length ls)%nat /\ nth i cs [] = [] /\ zlen (nth i bufs []) < 2 ^ 64) ->
  sinks_hold E w (a_sinks a) ls cs ->
  exists ss' w' cs', miter (v2_job E) l (a, w) = ((set_sinks a ss', w'), Ok tt)
    /\ extends (in_locs ls) w w' /\ sinks_hold E w' ss' ls cs'
    /\ (forall i, In i l -> nth i cs' [] = nth i bufs []) /\ (forall i, ~ In i l -> nth i cs' [] = nth i cs []).
Proof.
  intros Hnd. induction l as [|i l IH]; intros a w cs Hl Hb Hin Hs.
  - exists (a_sinks a), w, cs. rewrite set_sinks_id. split; [reflexivity|]. split; [apply extends_refl|]. split; [auto|].
    split; [intros i []|auto].
  - inv Hl. destruct (Hin i (or_introl eq_refl)) as (I1 & I2 & I3).
    destruct (v2_job_ok a w ls cs i Hs Hnd I1 I2 I3) as (ss1 & w1 & R1 & R2 & R3).
    destruct Hs as (L1 & L2 & Hs).
    destruct (IH (set_sinks a ss1) w1 (upd cs i (nth i (a_bufs a) []))) as (ss2 & w2 & cs2 & S1 & S2 & S3 & S4 & S5); auto.
    + intros j Hj. destruct (Hin j (or_intror Hj)) as (J1 & J2 & J3). split; [auto|]. split; [|auto].
      rewrite nth_upd by lia. destruct (Nat.eqb_spec i j); [subst; tauto|auto].
    + exists ss2, w2, cs2. cbn [miter]. erewrite bind_ok by exact R1. split; [rewrite S1; reflexivity|]. split.
      { eapply extends_trans; [|exact S2]. eapply extends_impl; [|exact R2]. intros e He. eexists; split; [|exact He]. apply nth_In; auto. }
      split; [auto|]. split.
      * intros j [<-|Hj]; [|auto]. rewrite S5 by auto. rewrite nth_upd by lia. rewrite Nat.eqb_refl. auto.
      * intros j Hj. simpl in Hj. rewrite S5 by tauto. rewrite nth_upd by lia.
        destruct (Nat.eqb_spec i j); [subst; tauto|auto].
Qed.

(** ** compression *)
Definition comp_ok (comp : option blosc) (bpp B : Z) (enc : list Z -> list Z) (mxl : Z) : Prop :=
  match comp with
  | None => (forall raw, enc raw = raw) /\ B <= mxl
  | Some p => forall raw, zlen raw = B -> e_compress E p bpp raw = Some (enc raw) /\ 0 < zlen (enc raw) <= mxl
  end.

Lemma comp_len comp bpp B enc mxl raw : comp_ok comp bpp B enc mxl -> 0 < B -> zlen raw = B -> 0 < zlen (enc raw) <= mxl.
Proof. destruct comp; simpl; [intros H ? Hr; apply H; auto|]. intros [H1 H2] ? Hr. rewrite H1. lia. Qed.

Lemma compress_buffers_ok a w bpp B enc mxl :
  comp_ok (c_comp (a_cfg a)) bpp B enc mxl -> bytes_of_type (c_dtype (a_cfg a)) = Ok bpp ->
  Forall (fun b => zlen b = B) (a_bufs a) ->
  compress_buffers E (a, w) = ((set_bufs a (map enc (a_bufs a)), w), Ok tt).
Proof.
  intros Hc Hb HB. unfold compress_buffers. rewrite (bind_ok getA _ (a, w) (a, w) a) by reflexivity.
  destruct (c_comp (a_cfg a)) as [p|] eqn:Ec.
  - simpl in Hc. rewrite Hb. rewrite (bind_ok (liftM (Ok bpp)) _ (a, w) (a, w) bpp) by reflexivity.
    match goal with |- miter ?f0 _ _ = _ => set (f := f0) end.
    assert (G : forall todo done, a_bufs a = done ++ todo ->
      miter f (seq (List.length done) (List.length todo)) (set_bufs a (map enc done ++ todo), w)
      = ((set_bufs a (map enc done ++ map enc todo), w), Ok tt)).
    { induction todo as [|b todo IH]; intros done Heq; [reflexivity|].
      cbn [List.length seq miter].
      assert (Hbl : zlen b = B). { rewrite Forall_forall in HB. apply HB. rewrite Heq. apply in_or_app. right; left; auto. }
      assert (Hf : f (List.length done) (set_bufs a (map enc done ++ b :: todo), w)
                   = ((set_bufs a (map enc (done ++ [b]) ++ todo), w), Ok tt)).
      { unfold f. unfold bind, getA. cbn [fst snd set_bufs a_bufs].
        rewrite app_nth2 by (rewrite map_length; lia). rewrite map_length, Nat.sub_diag. cbn [nth].
        destruct (Hc b Hbl) as [-> _]. unfold modA, onWd, job_done, ret. cbn [fst snd]. f_equal. f_equal.
        unfold set_bufs; cbn. f_equal. unfold upd. rewrite map_app. cbn [map].
        rewrite firstn_app, map_length, Nat.sub_diag. rewrite firstn_all2 by (rewrite map_length; lia). cbn [firstn]. rewrite app_nil_r.
        rewrite skipn_app, map_length, Nat.sub_diag. rewrite skipn_all2 by (rewrite map_length; lia). cbn [skipn app].
        rewrite <- app_assoc. reflexivity. }
      erewrite bind_ok by exact Hf.
      replace (S (List.length done)) with (List.length (done ++ [b])) by (rewrite app_length; simpl; lia).
      rewrite IH by (rewrite <- app_assoc; auto). f_equal. f_equal. rewrite map_app, <- app_assoc. reflexivity. }
    specialize (G (a_bufs a) [] eq_refl). cbn [map app List.length] in G. rewrite set_bufs_id in G. exact G.
  - simpl in Hc. unfold ret. f_equal. f_equal. destruct Hc as [Hc _].
    rewrite (map_ext _ (fun x => x)) by auto. rewrite map_id. symmetry. apply set_bufs_id.
Qed.
End L.

(** ** metadata *)
Lemma ceil_ceil n a b : 0 < a -> 0 < b -> ceil_div (ceil_div n a) b = ceil_div n (a * b).
Proof.
  intros. unfold ceil_div.
  replace (n + a * b - 1) with ((n - 1) + b * a) by lia.
  replace (n + a - 1) with ((n - 1) + 1 * a) by lia. rewrite Z.div_add by lia.
  replace ((n - 1) / a + 1 + b - 1) with ((n - 1) / a + 1 * b) by lia. rewrite Z.div_add by lia.
  rewrite Z.div_div by lia. replace (n - 1 + b * a) with (n - 1 + 1 * (a * b)) by lia.
  rewrite Z.div_add; nia.
Qed.
Lemma ceil_div_mono a b n : 0 < n -> a <= b -> ceil_div a n <= ceil_div b n.
Proof. intros. unfold ceil_div. apply Z.div_le_mono; lia. Qed.

Lemma append_size_exact a d0 mids dy dx :
  c_dims (a_cfg a) = d0 :: mids ++ [dy; dx] -> Forall inner_ok mids -> 0 <= a_frames a < 2 ^ 32 ->
  append_size a = Ok (ceil_div (a_frames a) (prodZ (map d_array mids))).
Proof.
  intros Hd Hm Hfr. unfold append_size. rewrite Hd, mid_dims_eq.
  assert (G : forall l n, Forall inner_ok l -> 0 <= n < 2 ^ 32 ->
    ofold (fun n d => if d_array d =? 0 then Throw "CHECK(array_size_px)" else Ok (u64 (n + d_array d - 1) / d_array d)) (rev l) n
    = Ok (ceil_div n (prodZ (map d_array l)))).
  { induction l as [|d l IH]; intros n Hl Hn.
    - simpl. rewrite ceil_div_1. auto.
    - inv Hl. cbn [rev]. rewrite ofold_app, IH by auto. cbn [obind ofold].
      pose proof (prodZ_pos _ (inner_allpos_arr _ H2)) as Hp. destruct H1 as (D1 & D2 & D3).
      assert (0 <= ceil_div n (prodZ (map d_array l)) <= n) by (split; [apply ceil_div_nonneg|apply ceil_div_le]; lia).
      rewrite (proj2 (Z.eqb_neq _ _)) by lia. rewrite u64_id by lia. f_equal.
      change ((ceil_div n (prodZ (map d_array l)) + d_array d - 1) / d_array d) with (ceil_div (ceil_div n (prodZ (map d_array l))) (d_array d)).
      rewrite ceil_ceil by auto. cbn [obind]. f_equal. f_equal. cbn [map prodZ]. lia. }
  apply G; auto.
Qed.

(** the document is [pre ++ dec n ++ post] *)
Definition hole (f : Z -> string) : Prop := exists pre post, forall n, f n = (pre ++ dec n ++ post)%string.
Lemma hole_dec : hole (fun n => dec n).
Proof. exists "", "". intros. cbn. rewrite sapp_nil_r. auto. Qed.
Lemma hole_l s f : hole f -> hole (fun n => (s ++ f n)%string).
Proof. intros (p & q & H). exists (s ++ p)%string, q. intros. rewrite H, sapp_assoc. auto. Qed.
Lemma hole_r s f : hole f -> hole (fun n => (f n ++ s)%string).
Proof. intros (p & q & H). exists p, (q ++ s)%string. intros. rewrite H, !sapp_assoc. auto. Qed.
Lemma hole_ints ind l : hole (fun n => dump_at ind (jints (n :: l))).
Proof.
  unfold jints. destruct l as [|x l].
  - cbn [map dump_at]. apply hole_l, hole_l, hole_r. apply (hole_l (spaces (ind + 4))). apply hole_dec.
  - cbn [map dump_at]. apply hole_l, hole_l, hole_r. apply (hole_l (spaces (ind + 4))), hole_r, hole_dec.
Qed.

Definition doc (v3 : bool) (ds : list dim) (t : string) (comp : option blosc) (n : Z) : list Z :=
  bytes_of_string (dump (if v3 then array_json n ds t comp else zarray_json n ds t comp)).

Ltac holes :=
  repeat (cbv beta; first [ apply hole_ints | (refine (hole_l _ _ _)) | refine (hole_r _ _ _) ]).
Lemma hole_doc (v3 : bool) ds t comp : hole (fun n => dump (if v3 then array_json n ds t comp else zarray_json n ds t comp)).
Proof.
  destruct v3; unfold dump, array_json, zarray_json; cbn [dump_at plus].
  all: holes.
Qed.

Lemma dec_aux_len f : forall g n m acc acc', 0 <= n <= m -> g <> O -> m < 2 ^ Z.of_nat g ->
  (String.length acc <= String.length acc')%nat ->
  (String.length (dec_aux f n acc) <= String.length (dec_aux g m acc'))%nat.
Proof.
  induction f as [|f IH]; intros g n m acc acc' Hn Hg Hm Ha.
  - cbn [dec_aux]. destruct (dec_aux_app g m acc') as (s & -> & _). rewrite slength_app. lia.
  - destruct g as [|g]; [congruence|]. cbn [dec_aux].
    assert (Hdiv : n / 10 <= m / 10) by (apply Z.div_le_mono; lia).
    destruct (Z.eqb_spec (n / 10) 0) as [e|e].
    + destruct (Z.eqb_spec (m / 10) 0).
      * cbn [String.length]. lia.
      * destruct (dec_aux_app g (m / 10) (String (digit (m mod 10)) acc')) as (s & -> & _). rewrite slength_app. cbn [String.length]. lia.
    + assert (0 <= n / 10) by (apply Z.div_pos; lia).
      rewrite (proj2 (Z.eqb_neq (m / 10) 0)) by lia. apply IH.
      * lia.
      * intros ->. change (2 ^ Z.of_nat 1) with 2 in Hm. assert (m / 10 = 0) by (apply Z.div_small; lia). lia.
      * apply Z.div_lt_upper_bound; [lia|]. rewrite Nat2Z.inj_succ, Z.pow_succ_r in Hm by lia. lia.
      * cbn [String.length]. lia.
Qed.
Lemma dec_len_mono n m : 0 <= n <= m -> (String.length (dec n) <= String.length (dec m))%nat.
Proof.
  intros H. unfold dec. apply dec_aux_len; auto.
  rewrite Nat2Z.inj_succ. destruct (Z.eq_dec m 0) as [->|Hm]; [reflexivity|].
  pose proof (Z.log2_spec m ltac:(lia)). rewrite Z2Nat.id by apply Z.log2_nonneg. lia.
Qed.
Lemma bytes_len s : zlen (bytes_of_string s) = Z.of_nat (String.length s).
Proof. unfold bytes_of_string, zlen. rewrite map_length. f_equal. induction s; simpl; auto. Qed.
Lemma doc_len_mono v3 ds t comp n m : 0 <= n <= m -> zlen (doc v3 ds t comp n) <= zlen (doc v3 ds t comp m).
Proof.
  intros H. destruct (hole_doc v3 ds t comp) as (p & q & Hh). unfold doc. rewrite !Hh, !bytes_len, !slength_app.
  pose proof (dec_len_mono n m H). lia.
Qed.
Lemma doc_nonempty v3 ds t comp n : doc v3 ds t comp n <> [].
Proof.
  intros H. pose proof (bytes_len (dump (if v3 then array_json n ds t comp else zarray_json n ds t comp))) as L.
  fold (doc v3 ds t comp n) in L. rewrite H in L. change (zlen []) with 0 in L.
  destruct v3; unfold dump, array_json, zarray_json in L; cbn [dump_at append String.length] in L; lia.
Qed.

Definition mkloc (b : option string) (p : string) : loc := match b with None => LF p | Some b => LO b p end.
Lemma mkloc_inj b p q : mkloc b p = mkloc b q -> p = q.
Proof. destruct b; simpl; intros H; inversion H; auto. Qed.

(** the metadata sink: rewriting at offset 0 *)
Lemma write_at_0 c d : zlen c <= zlen d -> write_at c 0 d = d.
Proof.
  intros H. unfold write_at, splice. change (Z.to_nat 0) with 0%nat. cbn [firstn app plus].
  rewrite skipn_all2; [apply app_nil_r|]. rewrite app_length. unfold zlen, zrep in *. rewrite repeat_length. lia.
Qed.

(** events of one rewriting of the metadata document at [l]: every write is of the whole document [d] *)
Definition wev (l : loc) (d : list Z) (e : event) : Prop := only l e /\ forall p off x, e = EWrite p off x -> off = 0 /\ x = d.
Definition mev (l : loc) (d : list Z) (e : event) : Prop := is_mkdir e \/ wev l d e.
Lemma mev_only l d e : mev l d e -> is_mkdir e \/ only l e.
Proof. intros [H|[H _]]; auto. Qed.
Lemma only_LO_wev b k d e : only (LO b k) e -> wev (LO b k) d e.
Proof. intros H. split; [exact H|]. intros p off x ->. discriminate. Qed.

Section Meta.
Variable E : env.
Hypothesis HE : calm E.

Lemma sink_rewrite_ok w s c d :
  holds E w s c -> zlen c <= zlen d -> ((exists p, loc_of s = LF p) \/ zlen d < part_size) ->
  exists s' w', sink_write E 0 d (s, w) = ((s', w'), Ok true)
    /\ extends (wev (loc_of s) d) w w' /\ loc_of s' = loc_of s /\ holds E w' s' d.
Proof.
  intros Hh Hl Hsz. destruct s as [f|s].
  - destruct Hh as [Ho Hc]. unfold sink_write, runF. cbn [fst snd]. unfold file_write.
    destruct (Z.eqb_spec (zlen d) 0) as [Hz|Hz].
    + do 2 eexists. split; [reflexivity|]. split; [apply extends_refl|]. split; [auto|]. split; [auto|].
      destruct d; [|rewrite zlen_cons in Hz; pose proof (zlen_nonneg d); lia].
      destruct c; [auto|]. rewrite zlen_cons in Hl. pose proof (zlen_nonneg c). change (zlen []) with 0 in Hl. lia.
    + rewrite Ho. unfold bind, next_tick. rewrite (calm_fs _ HE). unfold emit, modM, ret. cbn.
      do 2 eexists. split; [reflexivity|]. split; [|split; [auto|split; [auto|]]].
      * eexists. cbn. split; [reflexivity|]. split; [|auto].
        constructor; [split; [simpl; auto|intros ? ? ? X; injection X as <- <- <-; auto]|constructor].
      * cbn [w_trace f_path]. rewrite file_of_app. simpl. rewrite eqb_self, Hc. f_equal. apply write_at_0; auto.
  - destruct Hsz as [[p Hp]|Hsz]; [discriminate|].
    destruct Hh as ((B1 & B2 & B3 & B4 & up & U1 & U2 & U3) & Hconn).
    assert (Hup : up = [] /\ s_mp s = None).
    { destruct (s_mp s) as [[id parts]|]; auto. exfalso. destruct U3 as (ps & _ & V2 & V3 & _ & [V5 _]).
      subst up. pose proof (concat_full_len ps V5) as HL. destruct ps as [|p ps]; [congruence|].
      cbn [List.length] in HL. rewrite U1, zlen_app in Hl. pose proof (zlen_nonneg (slice (s_buf s) 0 (s_nbuf s))).
      unfold part_size in *. lia. }
    destruct Hup as [-> Hmp]. change (zlen []) with 0 in U2.
    destruct (Z.eq_dec (zlen d) 0) as [Hz|Hz].
    { assert (d = []) by (destruct d; [auto|rewrite zlen_cons in Hz; pose proof (zlen_nonneg d); lia]). subst d.
      assert (c = []) by (destruct c; [auto|rewrite zlen_cons in Hl; pose proof (zlen_nonneg c); change (zlen []) with 0 in Hl; lia]). subst c.
      unfold sink_write, runS, s3_write. cbn [fst snd]. change (zlen [] =? 0) with true. cbn [ret].
      do 2 eexists. split; [reflexivity|]. split; [apply extends_refl|]. split; [auto|]. split; [|auto].
      split; [auto|]. split; [auto|]. split; [auto|]. split; [auto|]. exists []. split; [auto|]. split; [auto|]. rewrite Hmp. auto. }
    set (s0 := mks3 (s_bucket s) (s_key s) (s_buf s) 0 0 None).
    assert (H0 : holds E w (SS3 s0) []).
    { split; [|auto]. split; [auto|]. split; [auto|]. cbn. split; [unfold part_size; lia|]. split; [apply zlen_nonneg|].
      exists []. auto. }
    destruct (sink_write_ok E w (SS3 s0) [] d HE H0) as (s' & w' & R1 & R2 & R3 & R4).
    { change (zlen []) with 0. unfold part_size in Hsz. lia. }
    exists s', w'. change (zlen []) with 0 in R1. cbn [app] in R4.
    split; [|split; [eapply extends_impl; [|exact R2]; apply only_LO_wev|auto]]. rewrite <- R1. unfold sink_write, runS, s3_write. cbn [fst snd].
    rewrite (proj2 (Z.eqb_neq (zlen d) 0)) by auto.
    unfold bind at 1 3. unfold getS. cbn [fst]. rewrite U2. cbn [s_nflush s0]. change (0 <? 0) with false. cbn iota.
    unfold bind, putS. cbn [snd fst s0 s_bucket s_key s_buf s_nflush s_mp]. rewrite Hmp. reflexivity.
Qed.

Lemma make_sink_fs_ok p w :
  p <> "" -> strip_file p = p ->
  (exists d c, d <> "" /\ p = (d ++ "/" ++ c)%string /\ no_slash c) ->
  exists w', make_sink_fs E p w = (w', Ok (Some (SFile (mkfsink p true))))
    /\ extends (fun e => is_mkdir e \/ (only (LF p) e /\ forall q off x, e <> EWrite q off x)) w w' /\ holds E w' (SFile (mkfsink p true)) [].
Proof.
  intros Hp Hs (d & c & Hd0 & Hd & Hc). unfold make_sink_fs. rewrite Hs, (proj2 (String.eqb_neq _ _) Hp). cbn [negb expectM].
  rewrite (bind_ok (ret tt) _ w w tt) by reflexivity.
  assert (Hpar : parent_path p = d) by (rewrite Hd; apply parent_snoc; auto). rewrite Hpar.
  rewrite (bind_ok (fs_is_directory E d) _ w w (dir_of E (w_trace w) d)) by (unfold fs_is_directory; rewrite (calm_stat _ HE); reflexivity).
  assert (Hdir : exists w1, (if dir_of E (w_trace w) d then ret true else fs_create_directories E d) w = (w1, Ok true)
     /\ extends is_mkdir w w1 /\ dir_of E (w_trace w1) d = true).
  { destruct (dir_of E (w_trace w) d) eqn:Ed.
    - exists w. split; [reflexivity|]. split; [apply extends_refl|auto].
    - unfold fs_create_directories, getM, bind, next_tick, emit, modM, ret. rewrite Ed, (proj2 (String.eqb_neq _ _) Hd0). cbn [orb]. rewrite (calm_fs _ HE).
      eexists. split; [reflexivity|]. split.
      + eexists. cbn. split; [reflexivity|]. split; [constructor; [simpl; auto|constructor]|auto].
      + cbn [w_trace]. apply dir_of_mkdir; [auto|apply under_refl]. }
  destruct Hdir as (w1 & R1 & R2 & R3). erewrite bind_ok by exact R1.
  destruct (file_sink_open E (calm_fs _ HE) p w1) as (w2 & S1 & S2 & S3); [rewrite Hpar; auto|].
  erewrite bind_ok by exact S1. exists w2. split; [reflexivity|]. split; [|auto].
  eapply extends_trans; [eapply extends_impl; [|exact R2]; auto|eapply extends_impl; [|exact S2]].
  intros e ->. right. split; [reflexivity|discriminate].
Qed.

Lemma make_sink_s3_ok b k w :
  b <> "" -> k <> "" -> (0 < w_conns w)%nat ->
  exists w', make_sink_s3 E b k w = (w', Ok (Some (SS3 (mks3 b k [] 0 0 None))))
    /\ extends is_mkdir w w' /\ holds E w' (SS3 (mks3 b k [] 0 0 None)) [].
Proof.
  intros Hb Hk Hc. destruct (w_conns w) as [|nc] eqn:Enc; [lia|].
  unfold make_sink_s3, bucket_exists, s3_sink, s3_request, get_connection, return_connection, expectM, next_tick, bind, modM, ret.
  rewrite (proj2 (String.eqb_neq _ _) Hb), (proj2 (String.eqb_neq _ _) Hk). cbn. rewrite Enc. cbn. rewrite (calm_s3 _ HE). cbn.
  eexists. split; [reflexivity|]. split.
  - exists []. rewrite app_nil_r. cbn. rewrite Enc. auto.
  - split; [|cbn; lia]. split; [auto|]. split; [auto|]. cbn. split; [unfold part_size; lia|]. split; [unfold zlen; cbn; lia|].
    exists []. auto.
Qed.

(** state of the metadata sink: absent, or holding [c] *)
Definition meta_state (w : world) (m : option sink) (ml : loc) (c : option (list Z)) : Prop :=
  match m, c with
  | None, None => True
  | Some s, Some c => loc_of s = ml /\ holds E w s c
  | _, _ => False
  end.
Lemma meta_state_ext P w w' m ml c :
  extends P w w' -> (forall e, P e -> ~ affects ml e) -> meta_state w m ml c -> meta_state w' m ml c.
Proof.
  intros Hx HP. destruct m as [s|], c as [c|]; simpl; auto. intros [H1 H2]. split; [auto|].
  eapply extends_holds; eauto. rewrite H1. auto.
Qed.

(** where the bucket is and what the paths look like *)
Definition where_ok (b : option string) (p : string) (w : world) : Prop :=
  p <> "" /\
  match b with
  | None => strip_file p = p /\ exists d c, d <> "" /\ p = (d ++ "/" ++ c)%string /\ no_slash c
  | Some b => b <> "" /\ (0 < w_conns w)%nat
  end.

Lemma write_array_metadata_ok a w d0 mids dy dx t old :
  let b := c_bucket (a_cfg a) in let p := metadata_path a in let n := a_frames a in
  let ds := d0 :: mids ++ [dy; dx] in
  let D := fun k => doc (a_v3 a) ds t (c_comp (a_cfg a)) (ceil_div k (prodZ (map d_array mids))) in
  c_dims (a_cfg a) = ds -> Forall inner_ok mids -> 0 <= n < 2 ^ 32 ->
  (if a_v3 a then dtype_v3 else dtype_v2) (c_dtype (a_cfg a)) = Some t ->
  where_ok b p w -> (b <> None -> zlen (D n) < part_size) ->
  meta_state w (a_meta a) (mkloc b p) (option_map D old) ->
  (forall k, old = Some k -> 0 <= k <= n) ->
  exists s w', write_array_metadata E (a, w) = ((set_meta a (Some s), w'), Ok true)
    /\ extends (mev (mkloc b p) (D n)) w w'
    /\ meta_state w' (Some s) (mkloc b p) (Some (D n)).
Proof.
  intros b p n ds D Hds Hmid Hn Ht Hwh Hsz Hm Hold.
  assert (Hmk : exists s w1 c, make_metadata_sink E (a, w) = ((set_meta a (Some s), w1), Ok true)
     /\ extends (mev (mkloc b p) (D n)) w w1 /\ loc_of s = mkloc b p /\ holds E w1 s c /\ zlen c <= zlen (D n)).
  { unfold make_metadata_sink. rewrite (bind_ok getA _ (a, w) (a, w) a) by reflexivity.
    destruct (a_meta a) as [s|] eqn:Em; destruct old as [k|]; cbn [meta_state option_map] in Hm; try tauto.
    - destruct Hm as [M1 M2]. exists s, w, (D k). split; [unfold ret; rewrite <- Em; destruct a; reflexivity|].
      split; [apply extends_refl|]. split; [auto|]. split; [auto|].
      apply doc_len_mono. specialize (Hold k eq_refl). pose proof (prodZ_pos _ (inner_allpos_arr _ Hmid)).
      split; [apply ceil_div_nonneg; lia|apply ceil_div_mono; lia].
    - destruct Hwh as [Hp Hb]. fold p. destruct (c_bucket (a_cfg a)) as [bk|] eqn:Eb; cbn in Hb.
      + destruct Hb as [Hb1 Hb2]. destruct (make_sink_s3_ok bk p w Hb1 Hp Hb2) as (w1 & R1 & R2 & R3).
        unfold onWd at 1. unfold bind at 1. cbn [snd fst]. fold p. rewrite R1. unfold bind, modA, ret. cbn [fst snd].
        do 3 eexists. split; [reflexivity|]. split; [eapply extends_impl; [|exact R2]; intros; left; auto|]. unfold b; cbn. split; [auto|]. split; [exact R3|].
        change (zlen []) with 0. apply zlen_nonneg.
      + destruct Hb as [Hb1 Hb2]. destruct (make_sink_fs_ok p w Hp Hb1 Hb2) as (w1 & R1 & R2 & R3).
        unfold onWd at 1. unfold bind at 1. cbn [snd fst]. fold p. rewrite R1. unfold bind, modA, ret. cbn [fst snd].
        do 3 eexists. split; [reflexivity|]. split; [eapply extends_impl; [|exact R2]; intros e [He|[He1 He2]]; [left; auto|right; split; [unfold b; exact He1|intros; exfalso; eapply He2; eauto]]|]. unfold b; cbn. split; [auto|]. split; [exact R3|].
        change (zlen []) with 0. apply zlen_nonneg. }
  destruct Hmk as (s & w1 & c & R1 & R2 & R3 & R4 & R5).
  destruct (sink_rewrite_ok w1 s c (D n) R4 R5) as (s' & w2 & S1 & S2 & S3 & S4).
  { rewrite R3. destruct b as [bk|]; [right; apply Hsz; discriminate|left; eexists; reflexivity]. }
  exists s', w2. split; [|split].
  - unfold write_array_metadata. erewrite bind_ok by exact R1. cbn iota.
    rewrite (bind_ok getA _ (set_meta a (Some s), w1) (set_meta a (Some s), w1) (set_meta a (Some s))) by reflexivity.
    change (a_cfg (set_meta a (Some s))) with (a_cfg a). change (a_v3 (set_meta a (Some s))) with (a_v3 a).
    assert (Happ : append_size (set_meta a (Some s)) = Ok (ceil_div n (prodZ (map d_array mids)))).
    { eapply append_size_exact; eauto. }
    rewrite Happ. rewrite Hds.
    assert (Hw : forall v, v = a_v3 a -> on_meta (sink_write E 0 (doc v ds t (c_comp (a_cfg a)) (ceil_div n (prodZ (map d_array mids))))) (set_meta a (Some s), w1)
              = ((set_meta a (Some s'), w2), Ok true)).
    { intros v ->. unfold on_meta. cbn [a_meta set_meta]. fold (D n). rewrite S1. reflexivity. }
    destruct (a_v3 a) eqn:E3; rewrite Ht.
    + rewrite (bind_ok (liftM (Ok (ceil_div n (prodZ (map d_array mids))))) _ (set_meta a (Some s), w1) (set_meta a (Some s), w1) (ceil_div n (prodZ (map d_array mids)))) by reflexivity.
      exact (Hw true eq_refl).
    + rewrite (bind_ok (liftM (Ok (ceil_div n (prodZ (map d_array mids))))) _ (set_meta a (Some s), w1) (set_meta a (Some s), w1) (ceil_div n (prodZ (map d_array mids)))) by reflexivity.
      exact (Hw false eq_refl).
  - eapply extends_trans; [exact R2|]. rewrite R3 in S2. eapply extends_impl; [|exact S2]; intros e He; right; exact He.
  - split; [congruence|auto].
Qed.
End Meta.
