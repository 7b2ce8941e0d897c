(** Sinks: a sequence of contiguous writes followed by a flush stores the concatenation. *)
Require Import ZArith List Bool String Ascii Lia Zify.
Require Import Verif.Base Verif.Spec Verif.Dim Verif.Radix Verif.PathProofs Verif.World.
Import ListNotations.
Open Scope string_scope.
Open Scope list_scope.
Open Scope Z_scope.

(** ** locations *)
Inductive loc : Type := LF (p : string) | LO (b k : string).

Definition content (E : env) (tr : list event) (l : loc) : option (list Z) :=
  match l with LF p => file_of E tr p | LO b k => object_of E tr b k end.

Definition affects (l : loc) (e : event) : Prop :=
  match e with
  | EMkdir _ => False
  | ERemoveAll q => match l with LF p => under q p = true | LO _ _ => False end
  | EOpen p | EWrite p _ _ | EFlush p | EClose p => l = LF p
  | EPut b k _ | EMpCreate b k _ | EMpPart b k _ _ _ | EMpComplete b k _ _ => l = LO b k
  end.
(** the event concerns exactly location [l] *)
Definition only (l : loc) (e : event) : Prop :=
  match e with EMkdir _ | ERemoveAll _ => False | _ => affects l e end.
Lemma only_affects l l' e : only l e -> affects l' e -> l' = l.
Proof. destruct e; simpl; try tauto; intros -> ->; auto. Qed.
Lemma only_not l l' evs : l' <> l -> Forall (only l) evs -> Forall (fun e => ~ affects l' e) evs.
Proof. intros H. apply Forall_impl. intros e He Ha. apply H. eapply only_affects; eauto. Qed.

Lemma eqb_self s : String.eqb s s = true. Proof. apply String.eqb_refl. Qed.

Lemma file_of_app E tr evs p : file_of E (tr ++ evs) p = fold_left (file_step p) evs (file_of E tr p).
Proof. unfold file_of. apply fold_left_app. Qed.
Lemma file_step_frame p c e : ~ affects (LF p) e -> file_step p c e = c.
Proof.
  destruct e; simpl; intros H; auto.
  - destruct (under p0 p); auto; tauto.
  - destruct (String.eqb_spec p0 p); auto; subst; tauto.
  - destruct (String.eqb_spec p0 p); auto; subst; tauto.
Qed.
Lemma file_of_frame E tr evs p : Forall (fun e => ~ affects (LF p) e) evs -> file_of E (tr ++ evs) p = file_of E tr p.
Proof.
  rewrite file_of_app. generalize (file_of E tr p) as c. induction evs; simpl; intros c H; auto.
  inv H. rewrite file_step_frame by auto. apply IHevs; auto.
Qed.
Lemma object_rev_frame E b k revs r : Forall (fun e => ~ affects (LO b k) e) revs -> object_rev E b k (revs ++ r) = object_rev E b k r.
Proof.
  induction 1 as [|e l He Hl IH]; auto. simpl. destruct e; auto; simpl in He;
    destruct (String.eqb_spec b b0); simpl; auto; destruct (String.eqb_spec k k0); simpl; auto; subst; tauto.
Qed.
Lemma part_of_frame b k revs r id n : Forall (fun e => ~ affects (LO b k) e) revs -> part_of (revs ++ r) b k id n = part_of r b k id n.
Proof.
  induction 1 as [|e l He Hl IH]; auto. simpl. destruct e; auto; simpl in He;
    destruct (String.eqb_spec b b0); simpl; auto; destruct (String.eqb_spec k k0); simpl; auto; subst; tauto.
Qed.
Lemma content_frame E tr evs l : Forall (fun e => ~ affects l e) evs -> content E (tr ++ evs) l = content E tr l.
Proof.
  destruct l; simpl; [apply file_of_frame|]. intros H. unfold object_of. rewrite rev_app_distr.
  apply object_rev_frame. apply Forall_rev; auto.
Qed.

(** ** environments without failures *)
Record calm (E : env) : Prop := {
  calm_fs : forall k, e_fault E k = false;
  calm_s3 : forall k, e_s3 E k = true;
  calm_stat : forall k p, e_stat E k p = true
}.

(** ** what a sink has received *)
Definition loc_of (s : sink) : loc :=
  match s with SFile f => LF (f_path f) | SS3 s => LO (s_bucket s) (s_key s) end.

(** the parts uploaded so far: numbered 1..n, each of the full part size *)
Definition parts_hold (tr : list event) (b k : string) (id : Z) (ps : list (list Z)) : Prop :=
  Forall (fun p => zlen p = part_size) ps /\
  forall i, (i < List.length ps)%nat -> part_of (rev tr) b k id (Z.of_nat i + 1) = nth i ps [].

Definition holds_s3 (tr : list event) (s : s3sink) (c : list Z) : Prop :=
  s_bucket s <> "" /\ s_key s <> "" /\
  0 <= s_nbuf s < part_size /\ s_nbuf s <= zlen (s_buf s) /\
  exists up, c = up ++ slice (s_buf s) 0 (s_nbuf s) /\ s_nflush s = zlen up /\
    match s_mp s with
    | None => up = []
    | Some (id, parts) =>
        exists ps, id > 0 /\ ps <> [] /\ up = List.concat ps
          /\ parts = map (fun i => Z.of_nat i + 1) (seq 0 (List.length ps))
          /\ parts_hold tr (s_bucket s) (s_key s) id ps
    end.

Definition holds (E : env) (w : world) (s : sink) (c : list Z) : Prop :=
  match s with
  | SFile f => f_open f = true /\ file_of E (w_trace w) (f_path f) = Some c
  | SS3 s => holds_s3 (w_trace w) s c /\ (0 < w_conns w)%nat
  end.

Lemma parts_hold_frame tr evs b k id ps :
  Forall (fun e => ~ affects (LO b k) e) evs -> parts_hold tr b k id ps -> parts_hold (tr ++ evs) b k id ps.
Proof.
  intros H [H1 H2]. split; auto. intros i Hi. rewrite rev_app_distr, part_of_frame by (apply Forall_rev; auto). auto.
Qed.
Lemma holds_frame E w w' evs s c :
  w_trace w' = w_trace w ++ evs -> w_conns w' = w_conns w ->
  Forall (fun e => ~ affects (loc_of s) e) evs -> holds E w s c -> holds E w' s c.
Proof.
  intros Ht Hc HF. destruct s as [f|s]; simpl in *; rewrite Ht.
  - rewrite file_of_frame by auto. auto.
  - intros [H1 H2]. split; [|rewrite Hc; auto].
    destruct H1 as (B1 & B2 & B3 & B4 & up & U1 & U2 & U3). repeat split; auto; try tauto.
    exists up. split; [auto|split; [auto|]]. destruct (s_mp s) as [[id parts]|]; auto.
    destruct U3 as (ps & V1 & V2 & V3 & V4 & V5). exists ps. repeat split; auto; try tauto; apply parts_hold_frame with (evs := evs) in V5; auto; apply V5.
Qed.

(** what a step did: new events, all of which satisfy [P]; connections and error unchanged *)
Definition extends (P : event -> Prop) (w w' : world) : Prop :=
  exists evs, w_trace w' = w_trace w ++ evs /\ Forall P evs /\ w_conns w' = w_conns w /\ w_err w' = w_err w.
Lemma extends_refl P w : extends P w w.
Proof. exists []. rewrite app_nil_r. auto. Qed.
Lemma extends_trans P w w' w'' : extends P w w' -> extends P w' w'' -> extends P w w''.
Proof.
  intros (e1 & A1 & A2 & A3 & A4) (e2 & B1 & B2 & B3 & B4). exists (e1 ++ e2).
  rewrite B1, A1, app_assoc. split; [auto|]. split; [apply Forall_app; auto|]. split; congruence.
Qed.
Lemma extends_impl (P Q : event -> Prop) w w' : (forall e, P e -> Q e) -> extends P w w' -> extends Q w w'.
Proof. intros H (e & A1 & A2 & A3 & A4). exists e. repeat split; auto. eapply Forall_impl; eauto. Qed.
Lemma extends_content E P w w' l :
  extends P w w' -> (forall e, P e -> ~ affects l e) -> content E (w_trace w') l = content E (w_trace w) l.
Proof. intros (evs & -> & A2 & _) H. apply content_frame. eapply Forall_impl; eauto. Qed.
Lemma extends_holds E P w w' s c :
  extends P w w' -> (forall e, P e -> ~ affects (loc_of s) e) -> holds E w s c -> holds E w' s c.
Proof. intros (evs & A1 & A2 & A3 & A4) H. eapply holds_frame; eauto. eapply Forall_impl; eauto. Qed.

Lemma bind_ok {S A B} (m : M S A) (f : A -> M S B) s s' a : m s = (s', Ok a) -> bind m f s = f a s'.
Proof. unfold bind. intros ->. auto. Qed.

(** ** buffers *)
Lemma write_at_end buf n d :
  0 <= n <= zlen buf -> slice (write_at buf n d) 0 (n + zlen d) = slice buf 0 n ++ d.
Proof.
  intros Hn. pose proof (zlen_nonneg d). unfold write_at, splice, slice.
  change (Z.to_nat 0) with 0%nat. rewrite !skipn_O.
  unfold zlen in *.
  replace (firstn (Z.to_nat n) (buf ++ zrep 0 (n + Z.of_nat (Datatypes.length d) - Z.of_nat (Datatypes.length buf))))
    with (firstn (Z.to_nat n) buf).
  2:{ rewrite firstn_app. replace (Z.to_nat n - Datatypes.length buf)%nat with 0%nat by lia. simpl. rewrite app_nil_r; auto. }
  rewrite app_assoc. rewrite firstn_app. rewrite firstn_all2 by (rewrite app_length, firstn_length; lia).
  replace (Z.to_nat (n + Z.of_nat (Datatypes.length d)) - Datatypes.length (firstn (Z.to_nat n) buf ++ d))%nat with 0%nat
    by (rewrite app_length, firstn_length; lia).
  simpl. rewrite app_nil_r. auto.
Qed.
Lemma write_at_len buf n d : 0 <= n <= zlen buf -> n + zlen d <= zlen (write_at buf n d).
Proof.
  intros Hn. pose proof (zlen_nonneg d). unfold write_at. rewrite splice_length; try lia; rewrite zlen_app.
  - destruct (Z.le_ge_cases 0 (n + zlen d - zlen buf)).
    + rewrite zlen_zrep by auto. lia.
    + pose proof (zlen_nonneg (zrep 0 (n + zlen d - zlen buf))). lia.
  - destruct (Z.le_ge_cases 0 (n + zlen d - zlen buf)).
    + rewrite zlen_zrep by auto. lia.
    + pose proof (zlen_nonneg (zrep 0 (n + zlen d - zlen buf))). lia.
Qed.
Lemma slice_0_len buf n : 0 <= n <= zlen buf -> zlen (slice buf 0 n) = n.
Proof. intros. apply slice_length; lia. Qed.

(** ** files *)
Lemma write_at_append c d : write_at c (zlen c) d = c ++ d.
Proof.
  pose proof (zlen_nonneg d). pose proof (zlen_nonneg c).
  unfold write_at, splice, zlen, zrep. replace (Z.to_nat (Z.of_nat (Datatypes.length c) + Z.of_nat (Datatypes.length d) - Z.of_nat (Datatypes.length c))) with (Datatypes.length d) by lia.
  rewrite Nat2Z.id. rewrite firstn_app, Nat.sub_diag, firstn_all. simpl. rewrite app_nil_r.
  rewrite skipn_all2 by (rewrite app_length, repeat_length; lia). rewrite app_nil_r. auto.
Qed.

Lemma file_write_ok E f w c d :
  (forall k, e_fault E k = false) -> holds E w (SFile f) c ->
  exists w', file_write E f (zlen c) d w = (w', Ok true) /\ extends (only (LF (f_path f))) w w' /\ holds E w' (SFile f) (c ++ d).
Proof.
  intros HE [Ho Hc]. unfold file_write. destruct (Z.eqb_spec (zlen d) 0) as [Hz|Hz].
  - exists w. split; [auto|]. split; [apply extends_refl|]. destruct d; [rewrite app_nil_r; split; auto|].
    rewrite zlen_cons in Hz. pose proof (zlen_nonneg d). lia.
  - rewrite Ho. unfold bind, next_tick. rewrite HE. unfold emit, modM, ret. simpl.
    eexists. split; [reflexivity|]. split.
    + exists [EWrite (f_path f) (zlen c) d]. simpl. repeat split; auto. constructor; [simpl; auto|constructor].
    + split; auto. simpl. rewrite file_of_app. simpl. rewrite eqb_self, Hc. f_equal. apply write_at_append.
Qed.

(** ** S3 *)
Lemma s3_create_upload_ok E s w :
  (forall k, e_s3 E k = true) -> s_bucket s <> "" -> s_key s <> "" -> (0 < w_conns w)%nat ->
  exists w' id, id > 0 /\
    s3_create_upload E (s, w) = ((mks3 (s_bucket s) (s_key s) (s_buf s) (s_nbuf s) (s_nflush s) (Some (id, [])), w'), Ok tt)
    /\ extends (only (LO (s_bucket s) (s_key s))) w w'.
Proof.
  intros HE Hb Hk Hc. unfold s3_create_upload, s3_create_multipart, s3_request, get_connection, return_connection, onW, getS, putS, bind, expectM, next_tick, emit, modM, ret, throwM.
  simpl. destruct (w_conns w) as [|n] eqn:En; [lia|]. simpl.
  rewrite (proj2 (String.eqb_neq _ _) Hb), (proj2 (String.eqb_neq _ _) Hk). simpl. rewrite HE. simpl.
  eexists. exists (Z.of_nat (w_tick w) + 1). split; [lia|]. split; [reflexivity|].
  eexists. simpl. split; [reflexivity|]. split; [constructor; [simpl; auto|constructor]|]. auto.
Qed.

Lemma s3_flush_part_ok E s w up nb :
  (forall k, e_s3 E k = true) -> s_bucket s <> "" -> s_key s <> "" -> (0 < w_conns w)%nat ->
  s_nbuf s = nb -> 0 < nb <= zlen (s_buf s) -> zlen up + nb < 2 ^ 64 ->
  s_nflush s = zlen up ->
  match s_mp s with
  | None => up = []
  | Some (id, parts) =>
      exists ps, id > 0 /\ up = List.concat ps
        /\ parts = map (fun i => Z.of_nat i + 1) (seq 0 (List.length ps))
        /\ parts_hold (w_trace w) (s_bucket s) (s_key s) id ps
  end ->
  exists s' w' id ps,
    s3_flush_part E (s, w) = ((s', w'), Ok true)
    /\ extends (only (LO (s_bucket s) (s_key s))) w w'
    /\ s_bucket s' = s_bucket s /\ s_key s' = s_key s /\ s_buf s' = s_buf s
    /\ s_nbuf s' = 0 /\ s_nflush s' = zlen up + nb
    /\ id > 0 /\ up = List.concat ps
    /\ s_mp s' = Some (id, map (fun i => Z.of_nat i + 1) (seq 0 (S (List.length ps))))
    /\ Forall (fun p => zlen p = part_size) ps
    /\ (forall i, (i < S (List.length ps))%nat ->
          part_of (rev (w_trace w')) (s_bucket s) (s_key s) id (Z.of_nat i + 1)
          = nth i (ps ++ [slice (s_buf s) 0 nb]) []).
Proof.
  intros HE Hb Hk Hc Hnb Hlen Hbd Hnf Hmp.
  assert (Hstep : exists w1 id ps, id > 0 /\ up = List.concat ps /\
     parts_hold (w_trace w1) (s_bucket s) (s_key s) id ps /\
     (match s_mp s with Some _ => ret tt | None => s3_create_upload E end) (s, w)
       = ((mks3 (s_bucket s) (s_key s) (s_buf s) (s_nbuf s) (s_nflush s)
                (Some (id, map (fun i => Z.of_nat i + 1) (seq 0 (List.length ps)))), w1), Ok tt)
     /\ extends (only (LO (s_bucket s) (s_key s))) w w1).
  { destruct (s_mp s) as [[id parts]|] eqn:Em.
    - destruct Hmp as (ps & V1 & V2 & V3 & V4). exists w, id, ps. split; [auto|]. split; [auto|]. split; [auto|].
      split; [|apply extends_refl]. unfold ret. rewrite <- V3, <- Em. destruct s; reflexivity.
    - subst up. destruct (s3_create_upload_ok E s w HE Hb Hk Hc) as (w1 & id & X1 & X2 & X3).
      exists w1, id, []. split; [auto|]. split; [auto|]. split; [split; [constructor|simpl; intros; lia]|]. split; auto. }
  destruct Hstep as (w1 & id & ps & Hid & Hup & Hps & Hrun & Hext).
  assert (Hc1 : (0 < w_conns w1)%nat). { destruct Hext as (? & _ & _ & -> & _). auto. }
  unfold s3_flush_part. rewrite (bind_ok getS _ _ (s, w) s) by reflexivity.
  rewrite (proj2 (Z.eqb_neq (s_nbuf s) 0)) by lia.
  erewrite bind_ok by exact Hrun.
  set (s1 := mks3 _ _ _ _ _ _).
  destruct (w_conns w1) as [|nc] eqn:Enc; [lia|].
  erewrite bind_ok. 2:{ unfold onW, get_connection. rewrite Enc. reflexivity. }
  rewrite (bind_ok getS _ _ _ s1) by reflexivity. unfold s1 at 1. cbn [s_mp].
  set (d := slice (s_buf s) 0 nb).
  assert (Hd : zlen d = nb) by (apply slice_0_len; lia).
  set (parts := map (fun i => Z.of_nat i + 1) (seq 0 (Datatypes.length ps))).
  assert (Hpl : zlen parts = Z.of_nat (List.length ps)) by (unfold parts, zlen; rewrite map_length, seq_length; auto).
  erewrite bind_ok.
  2:{ unfold onW, catchM, s3_upload_part, s3_request, bind, expectM, next_tick, emit, modM, ret, throwM, s1. cbn [s_bucket s_key s_buf s_nbuf].
      rewrite (proj2 (String.eqb_neq _ _) Hb), (proj2 (String.eqb_neq _ _) Hk). cbn [negb].
      fold d. rewrite ?Hnb. fold d. rewrite (proj2 (Z.eqb_neq (zlen d) 0)) by lia. cbn [negb].
      rewrite (proj2 (Z.eqb_neq (zlen parts + 1) 0)) by lia. cbn [negb w_tick]. rewrite HE. reflexivity. }
  erewrite bind_ok by reflexivity. erewrite bind_ok by reflexivity. unfold ret.
  do 4 eexists. split; [reflexivity|].
  split.
  { eapply extends_trans; [apply Hext|]. eexists. simpl. split; [reflexivity|]. split; [constructor; [simpl; auto|constructor]|]. auto. }
  split; [reflexivity|]. split; [reflexivity|]. split; [reflexivity|]. split; [reflexivity|].
  split. { unfold s1; cbn [s_nflush s_nbuf]. rewrite Hnf, Hnb. apply u64_id. pose proof (zlen_nonneg up). lia. }
  split; [apply Hid|]. split; [apply Hup|]. split.
  { cbn [s_mp]. rewrite seq_S, map_app. cbn [map plus]. f_equal. f_equal. f_equal. rewrite Hpl. reflexivity. }
  destruct Hps as [Hps1 Hps2]. split; [auto|].
  intros i Hi. cbn [w_trace snd fst]. rewrite rev_app_distr. cbn [rev app part_of].
  unfold s1; cbn [s_bucket s_key]. rewrite !eqb_self, Z.eqb_refl. cbn [andb].
  destruct (Z.eqb_spec (Z.of_nat i + 1) (zlen parts + 1)) as [e|e].
  - assert (i = List.length ps) by lia. subst i. rewrite app_nth2, Nat.sub_diag by lia. reflexivity.
  - rewrite Hps2 by lia. rewrite app_nth1 by lia. auto.
Qed.

Lemma concat_full_len ps : Forall (fun p : list Z => zlen p = part_size) ps -> zlen (List.concat ps) = Z.of_nat (List.length ps) * part_size.
Proof. induction 1; simpl; [reflexivity|]. rewrite zlen_app, H, IHForall. lia. Qed.

Lemma s3_write_loop_ok E : (forall k, e_s3 E k = true) -> forall fuel data s w c,
  (List.length data < fuel)%nat -> holds_s3 (w_trace w) s c -> (0 < w_conns w)%nat -> zlen c + zlen data < 2 ^ 64 ->
  exists s' w', s3_write_loop E fuel data (s, w) = ((s', w'), Ok true)
    /\ extends (only (LO (s_bucket s) (s_key s))) w w'
    /\ s_bucket s' = s_bucket s /\ s_key s' = s_key s
    /\ holds_s3 (w_trace w') s' (c ++ data).
Proof.
  intros HE. induction fuel as [|fuel IH]; intros data s w c Hfuel Hh Hc Hbd; [lia|].
  cbn [s3_write_loop]. destruct (Z.eqb_spec (zlen data) 0) as [Hz|Hz].
  { exists s, w. split; [reflexivity|]. split; [apply extends_refl|]. split; [auto|]. split; [auto|].
    destruct data; [rewrite app_nil_r; auto|]. rewrite zlen_cons in Hz. pose proof (zlen_nonneg data). lia. }
  rewrite (bind_ok getS _ _ (s, w) s) by reflexivity.
  destruct Hh as (B1 & B2 & B3 & B4 & up & U1 & U2 & U3).
  rewrite (proj2 (Z.ltb_ge part_size (s_nbuf s))) by lia.
  pose proof (zlen_nonneg data) as Hd0.
  set (n := Z.min (zlen data) (part_size - s_nbuf s)).
  assert (Hn : 0 < n <= zlen data) by (unfold n; lia).
  set (d := firstn (Z.to_nat n) data).
  assert (Hd : zlen d = n) by (unfold d, zlen in *; rewrite firstn_length; lia).
  assert (Hcl : zlen c = zlen up + s_nbuf s) by (rewrite U1, zlen_app, slice_0_len by lia; auto).
  rewrite (bind_ok (putS _) _ (s, w) (mks3 (s_bucket s) (s_key s) (write_at (s_buf s) (s_nbuf s) d) (s_nbuf s + n) (s_nflush s) (s_mp s), w) tt) by reflexivity.
  set (s1 := mks3 _ _ _ _ _ _).
  pose proof (write_at_len (s_buf s) (s_nbuf s) d ltac:(lia)) as Hwl.
  pose proof (write_at_end (s_buf s) (s_nbuf s) d ltac:(lia)) as Hwe.
  assert (Hskip : data = d ++ skipn (Z.to_nat n) data) by (unfold d; rewrite firstn_skipn; auto).
  assert (Hsl : (List.length (skipn (Z.to_nat n) data) < fuel)%nat) by (rewrite skipn_length; unfold zlen in *; lia).
  assert (Hsz : zlen (skipn (Z.to_nat n) data) = zlen data - n) by (unfold zlen in *; rewrite skipn_length; lia).
  destruct (Z.eqb_spec (s_nbuf s + n) part_size) as [Hfull|Hfull].
  - destruct (s3_flush_part_ok E s1 w up part_size) as (s2 & w2 & id & ps & R1 & R2 & R3 & R4 & R5 & R6 & R7 & R8 & R9 & R10 & R11 & R12); auto; unfold s1; cbn [s_buf s_nbuf s_nflush s_mp s_bucket s_key]; auto; try lia.
    { destruct (s_mp s) as [[id parts]|]; auto. destruct U3 as (ps & V1 & V2 & V3 & V4 & V5). exists ps. auto. }
    fold s1 in R1. erewrite bind_ok by exact R1.
    unfold s1 in R2, R3, R4, R5, R12. cbn [s_bucket s_key s_buf] in R2, R3, R4, R5, R12.
    assert (Hc2 : (0 < w_conns w2)%nat). { destruct R2 as (? & _ & _ & -> & _). auto. }
    assert (Hpart : slice (write_at (s_buf s) (s_nbuf s) d) 0 part_size = slice (s_buf s) 0 (s_nbuf s) ++ d).
    { rewrite <- Hfull, <- Hd. auto. }
    rewrite Hpart in R12.
    assert (Hpl : zlen (slice (s_buf s) 0 (s_nbuf s) ++ d) = part_size) by (rewrite zlen_app, slice_0_len; lia).
    destruct (IH (skipn (Z.to_nat n) data) s2 w2 (c ++ d)) as (s3 & w3 & T1 & T2 & T3 & T4 & T5); auto.
    + split; [congruence|]. split; [congruence|]. rewrite R6. split; [unfold part_size; lia|]. split; [apply zlen_nonneg|].
      exists (up ++ (slice (s_buf s) 0 (s_nbuf s) ++ d)). split.
      { rewrite U1. unfold slice. simpl. rewrite !app_nil_r, !app_assoc. auto. }
      split. { rewrite R7, zlen_app, Hpl. auto. }
      rewrite R10. exists (ps ++ [slice (s_buf s) 0 (s_nbuf s) ++ d]).
      split; [auto|]. split; [destruct ps; discriminate|]. split.
      { rewrite concat_app, <- R9. simpl. rewrite app_nil_r. auto. }
      split. { rewrite app_length. simpl. rewrite Nat.add_1_r. auto. }
      split. { apply Forall_app. split; auto. }
      rewrite R3, R4. intros i Hi. rewrite app_length in Hi. simpl in Hi. apply R12. lia.
    + rewrite zlen_app. lia.
    + exists s3, w3. split; [auto|]. rewrite R3, R4 in T2. split; [eapply extends_trans; eauto|].
      split; [congruence|]. split; [congruence|]. rewrite Hskip at 1. rewrite app_assoc. auto.
  - rewrite (bind_ok (ret true) _ (s1, w) (s1, w) true) by reflexivity.
    assert (Hnn : n = zlen data) by (unfold n in *; lia).
    destruct (IH (skipn (Z.to_nat n) data) s1 w (c ++ d)) as (s3 & w3 & T1 & T2 & T3 & T4 & T5); auto.
    + unfold s1. split; [auto|]. split; [auto|]. cbn [s_nbuf s_buf s_mp s_nflush s_bucket s_key].
      split; [unfold n in *; lia|]. split; [lia|]. exists up. split.
      { rewrite <- Hd at 1. rewrite Hwe, U1, app_assoc. auto. }
      split; auto.
    + rewrite zlen_app. lia.
    + exists s3, w3. split; [auto|]. split; [auto|]. split; [auto|]. split; [auto|].
      rewrite Hskip at 1. rewrite app_assoc. auto.
Qed.

Theorem sink_write_ok E w s c d :
  calm E -> holds E w s c -> zlen c + zlen d < 2 ^ 64 ->
  exists s' w', sink_write E (zlen c) d (s, w) = ((s', w'), Ok true)
    /\ extends (only (loc_of s)) w w' /\ loc_of s' = loc_of s /\ holds E w' s' (c ++ d).
Proof.
  intros [H1 H2] Hh Hbd. destruct s as [f|s]; unfold sink_write; cbn [fst].
  - destruct (file_write_ok E f w c d H1 Hh) as (w' & R1 & R2 & R3).
    unfold runF. cbn [snd fst]. rewrite R1. do 2 eexists. split; [reflexivity|]. auto.
  - destruct Hh as [Hh Hc]. unfold runS, s3_write. cbn [snd].
    destruct (Z.eqb_spec (zlen d) 0) as [Hz|Hz].
    { unfold ret. do 2 eexists. split; [reflexivity|]. split; [apply extends_refl|]. split; auto.
      destruct d; [rewrite app_nil_r; split; auto|]. rewrite zlen_cons in Hz. pose proof (zlen_nonneg d). lia. }
    rewrite (bind_ok getS _ _ (s, w) s) by reflexivity.
    pose proof Hh as (B1 & B2 & B3 & B4 & up & U1 & U2 & U3).
    assert (Hcl : zlen c = zlen up + s_nbuf s) by (rewrite U1, zlen_app, slice_0_len by lia; auto).
    rewrite U2. rewrite (proj2 (Z.ltb_ge (zlen c) (zlen up))) by lia.
    replace (zlen c - zlen up) with (s_nbuf s) by lia. rewrite <- U2.
    assert (Es : mks3 (s_bucket s) (s_key s) (s_buf s) (s_nbuf s) (s_nflush s) (s_mp s) = s) by (destruct s; auto).
    rewrite Es. rewrite (bind_ok (putS s) _ (s, w) (s, w) tt) by reflexivity.
    destruct (s3_write_loop_ok E H2 (2 * List.length d + 2) d s w c) as (s' & w' & R1 & R2 & R3 & R4 & R5); auto; try lia.
    rewrite R1. do 2 eexists. split; [reflexivity|]. split; [auto|]. split; [simpl; congruence|].
    split; auto. destruct R2 as (? & _ & _ & -> & _). auto.
Qed.

(** the events of closing: for a file, a flush and a close *)
Definition shut (l : loc) (e : event) : Prop :=
  only l e /\ match l with LF _ => match e with EFlush _ | EClose _ => True | _ => False end | LO _ _ => True end.
Lemma shut_only l e : shut l e -> only l e.
Proof. intros [H _]; exact H. Qed.

(** the file has been closed and not touched since (objects: no such notion) *)
Definition closed (tr : list event) (l : loc) : Prop :=
  match l with
  | LF p => exists t1 t2, tr = t1 ++ EClose p :: t2 /\ Forall (fun e => ~ affects l e) t2
  | LO _ _ => True
  end.
Lemma closed_app tr evs l : closed tr l -> Forall (fun e => ~ affects l e) evs -> closed (tr ++ evs) l.
Proof.
  destruct l as [p|b k]; simpl; auto. intros (t1 & t2 & -> & H) H2. exists t1, (t2 ++ evs).
  rewrite <- app_assoc. split; [reflexivity|]. apply Forall_app. auto.
Qed.
Lemma extends_closed P w w' l :
  extends P w w' -> (forall e, P e -> ~ affects l e) -> closed (w_trace w) l -> closed (w_trace w') l.
Proof. intros (evs & -> & A2 & _) H Hc. apply closed_app; auto. eapply Forall_impl; eauto. Qed.

(** flush and release *)
Theorem finalize_sink_shut E w s c :
  calm E -> holds E w s c -> zlen c < 2 ^ 64 -> (c <> [] \/ exists f, s = SFile f) ->
  exists w', finalize_sink E (Some s, w) = ((None, w'), Ok true)
    /\ extends (shut (loc_of s)) w w' /\ content E (w_trace w') (loc_of s) = Some c /\ closed (w_trace w') (loc_of s).
Proof.
  intros [H1 H2] Hh Hbd Hne. destruct s as [f|s]; unfold finalize_sink, sink_flush; cbn [fst].
  - destruct Hh as [Ho Hc]. unfold runF, file_flush, file_close, sink_destroy, bind, emit, modM, ret. cbn [snd fst]. rewrite Ho. cbn.
    unfold file_close. rewrite Ho. unfold emit, modM. cbn.
    eexists. split; [reflexivity|]. split.
    + exists [EFlush (f_path f); EClose (f_path f)]. cbn. rewrite <- app_assoc. repeat split; auto.
      constructor; [split; simpl; auto|]. constructor; [split; simpl; auto|constructor].
    + cbn [w_trace content loc_of closed]. rewrite <- app_assoc. split; [rewrite file_of_app; simpl; auto|].
      exists (w_trace w ++ [EFlush (f_path f)]), []. rewrite <- app_assoc. split; [reflexivity|constructor].
  - destruct Hh as [Hh Hc]. destruct Hne as [Hne|[f Hx]]; [|discriminate].
    unfold runS, s3_flush. cbn [snd]. rewrite (bind_ok getS _ _ (s, w) s) by reflexivity.
    pose proof Hh as (B1 & B2 & B3 & B4 & up & U1 & U2 & U3).
    assert (Hcl : zlen c = zlen up + s_nbuf s) by (rewrite U1, zlen_app, slice_0_len by lia; auto).
    destruct (s_mp s) as [[id parts]|] eqn:Em.
    + destruct U3 as (ps & V1 & V2 & V3 & V4 & V5).
      (* remaining bytes, then complete *)
      assert (Hfin : exists s1 w1 pl, (if 0 <? s_nbuf s then s3_flush_part E else ret true) (s, w) = ((s1, w1), Ok true)
         /\ extends (only (LO (s_bucket s) (s_key s))) w w1 /\ s_bucket s1 = s_bucket s /\ s_key s1 = s_key s
         /\ exists id1 qs, s_mp s1 = Some (id1, pl) /\ id1 > 0 /\ qs <> [] /\ pl = map (fun i => Z.of_nat i + 1) (seq 0 (List.length qs))
            /\ List.concat qs = c
            /\ (forall i, (i < List.length qs)%nat -> part_of (rev (w_trace w1)) (s_bucket s) (s_key s) id1 (Z.of_nat i + 1) = nth i qs [])).
      { destruct (Z.ltb_spec 0 (s_nbuf s)) as [Hp|Hp].
        - destruct (s3_flush_part_ok E s w up (s_nbuf s)) as (s2 & w2 & id2 & ps2 & R1 & R2 & R3 & R4 & R5 & R6 & R7 & R8 & R9 & R10 & R11 & R12); auto; try lia.
          { rewrite Em. exists ps. auto. }
          exists s2, w2. eexists. split; [exact R1|]. split; [auto|]. split; [auto|]. split; [auto|].
          exists id2, (ps2 ++ [slice (s_buf s) 0 (s_nbuf s)]). split; [exact R10|]. split; [auto|]. split; [destruct ps2; discriminate|].
          rewrite app_length. cbn [List.length]. rewrite Nat.add_1_r. split; [auto|]. split; [|exact R12].
          rewrite concat_app, <- R9. simpl. rewrite app_nil_r. auto.
        - exists s, w, parts. split; [reflexivity|]. split; [apply extends_refl|]. split; [auto|]. split; [auto|].
          exists id, ps. split; [auto|]. split; [auto|]. split; [auto|]. split; [auto|].
          assert (s_nbuf s = 0) as Z0 by lia. rewrite Z0 in U1. unfold slice in U1. simpl in U1. rewrite app_nil_r in U1.
          split; [congruence|]. apply V5. }
      destruct Hfin as (s1 & w1 & pl & R1 & R2 & R3 & R4 & id1 & qs & M1 & M2 & M3 & M4 & M5 & M6).
      assert (Hc1 : (0 < w_conns w1)%nat). { destruct R2 as (? & _ & _ & -> & _). auto. }
      destruct (w_conns w1) as [|nc] eqn:Enc; [lia|].
      unfold bind at 1 2. rewrite R1.
      unfold s3_finalize. unfold bind at 1. unfold onW at 1, get_connection at 1. rewrite Enc.
      rewrite (bind_ok getS _ _ _ s1) by reflexivity. rewrite M1.
      unfold s3_complete, s3_request, onW, bind, expectM, next_tick, return_connection, emit, modM, ret, throwM, getS, putS. cbn -[Z.eqb zlen].
      rewrite R3, R4, (proj2 (String.eqb_neq _ _) B1), (proj2 (String.eqb_neq _ _) B2). cbn -[Z.eqb zlen].
      rewrite (proj2 (Z.eqb_neq id1 0)) by lia. cbn -[Z.eqb zlen].
      rewrite (proj2 (Z.eqb_neq (zlen pl) 0)).
      2:{ rewrite M4. unfold zlen. rewrite map_length, seq_length. destruct qs; [congruence|simpl; lia]. }
      cbn -[Z.eqb zlen]. rewrite H2. cbn -[Z.eqb zlen].
      eexists. split; [reflexivity|]. split.
      * eapply extends_impl with (P := only (LO (s_bucket s) (s_key s))); [intros e He; split; [exact He|exact I]|].
        eapply extends_trans; [exact R2|]. eexists. cbn. split; [reflexivity|]. split; [constructor; [simpl; auto|constructor]|].
        rewrite Enc. auto.
      * cbn. split; [|exact I]. unfold object_of. rewrite rev_app_distr. cbn. rewrite !eqb_self. cbn. f_equal. rewrite <- M5, M4.
        f_equal. rewrite map_map. apply nth_ext with [] []; [rewrite map_length, seq_length; auto|].
        intros i Hi. rewrite map_length, seq_length in Hi.
        rewrite nth_indep with (d' := part_of (rev (w_trace w1)) (s_bucket s) (s_key s) id1 (Z.of_nat 0 + 1)) by (rewrite map_length, seq_length; auto).
        rewrite (map_nth (fun x => part_of (rev (w_trace w1)) (s_bucket s) (s_key s) id1 (Z.of_nat x + 1))).
        rewrite seq_nth by auto. simpl. auto.
    + subst up. simpl in U1. assert (Hp : 0 < s_nbuf s).
      { destruct (Z.eq_dec (s_nbuf s) 0) as [z|z]; [|lia]. rewrite z in U1. unfold slice in U1. simpl in U1. congruence. }
      rewrite (proj2 (Z.ltb_lt 0 (s_nbuf s))) by auto.
      destruct (w_conns w) as [|nc] eqn:Enc; [lia|].
      unfold s3_put_object. unfold bind at 1 2. unfold getS at 1. cbn [fst].
      rewrite (proj2 (Z.eqb_neq (s_nbuf s) 0)) by lia.
      unfold s3_put, s3_request, get_connection, return_connection, onW, catchM, bind, expectM, next_tick, emit, modM, ret, throwM, getS, putS.
      cbn -[Z.eqb zlen slice]. rewrite Enc. cbn -[Z.eqb zlen slice].
      rewrite (proj2 (String.eqb_neq _ _) B1), (proj2 (String.eqb_neq _ _) B2). cbn -[Z.eqb zlen slice].
      rewrite <- U1. rewrite (proj2 (Z.eqb_neq (zlen c) 0)) by (change (zlen (@nil Z)) with 0 in Hcl; lia). cbn -[Z.eqb zlen slice].
      rewrite H2. cbn -[Z.eqb zlen slice].
      eexists. split; [reflexivity|]. split.
      * eexists. cbn. split; [reflexivity|]. split; [constructor; [split; simpl; auto|constructor]|]. rewrite Enc. auto.
      * cbn. unfold object_of. rewrite rev_app_distr. cbn. rewrite !eqb_self. cbn. auto.
Qed.
Theorem finalize_sink_ok E w s c :
  calm E -> holds E w s c -> zlen c < 2 ^ 64 -> (c <> [] \/ exists f, s = SFile f) ->
  exists w', finalize_sink E (Some s, w) = ((None, w'), Ok true)
    /\ extends (only (loc_of s)) w w' /\ content E (w_trace w') (loc_of s) = Some c.
Proof.
  intros H1 H2 H3 H4. destruct (finalize_sink_shut E w s c H1 H2 H3 H4) as (w' & R & X & C & _).
  exists w'. split; [exact R|]. split; [|exact C]. eapply extends_impl; [|exact X]. apply shut_only.
Qed.
