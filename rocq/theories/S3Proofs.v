(** S3 sinks under any pattern of failing requests. *)
Require Import ZArith List Bool String Lia.
Require Import Verif.Base Verif.Radix Verif.World Verif.SinkProofs Verif.S3Spec.
Import ListNotations.
Open Scope string_scope.
Open Scope list_scope.
Open Scope Z_scope.

Section S.
Variable E : env.
Variables b k : string.
Hypothesis Hb : b <> "".
Hypothesis Hk : k <> "".
Lemma beq : String.eqb b "" = false. Proof. apply String.eqb_neq. exact Hb. Qed.
Lemma keq : String.eqb k "" = false. Proof. apply String.eqb_neq. exact Hk. Qed.

(** [c] is what was written, [ps] the parts sent; the sink's own requests are those after [tr0] *)
Definition sent (tr0 : list event) (ps : list (list Z)) (s : s3sink) (w : world) : Prop :=
  s_bucket s = b /\ s_key s = k /\ s_nflush s = zlen (List.concat ps) /\ Forall (fun p => zlen p = part_size) ps /\
  match s_mp s with
  | None => ps = [] /\ w_trace w = tr0
  | Some (id, parts) => id > 0 /\ parts = numbers (List.length ps) /\ w_trace w = tr0 ++ EMpCreate b k id :: part_events b k id ps
  end.

Lemma numbers_len n : zlen (numbers n) = Z.of_nat n.
Proof. unfold zlen, numbers. rewrite map_length, seq_length. reflexivity. Qed.
Lemma numbers_S n : numbers (S n) = numbers n ++ [Z.of_nat n + 1].
Proof. unfold numbers. rewrite seq_S, map_app. reflexivity. Qed.
Lemma part_events_app id ps p : part_events b k id (ps ++ [p]) = part_events b k id ps ++ [EMpPart b k id (Z.of_nat (List.length ps) + 1) p].
Proof.
  unfold part_events. rewrite app_length. cbn [List.length]. rewrite Nat.add_1_r, seq_S, map_app. cbn [map]. f_equal.
  - apply map_ext_in. intros i Hi. apply in_seq in Hi. rewrite app_nth1 by lia. reflexivity.
  - rewrite app_nth2, Nat.sub_diag by lia. reflexivity.
Qed.

(** what flush_part does to a sink *)
Lemma flush_part_cases tr0 ps s w :
  sent tr0 ps s w -> 0 < s_nbuf s <= zlen (s_buf s) -> zlen (List.concat ps) + s_nbuf s < 2 ^ 64 ->
  (0 < w_conns w)%nat ->
  let p := slice (s_buf s) 0 (s_nbuf s) in
  match s3_flush_part E (s, w) with
  | ((s', w'), Ok true) => exists id, s' = mks3 b k (s_buf s) 0 (zlen (List.concat ps) + s_nbuf s) (Some (id, numbers (S (List.length ps)))) /\
        w_trace w' = tr0 ++ EMpCreate b k id :: part_events b k id (ps ++ [p]) /\ id > 0 /\ w_conns w' = w_conns w /\
        (forall i l, s_mp s = Some (i, l) -> id = i)
  | ((s', w'), Ok false) => w_conns w' = w_conns w /\ exists j, e_s3 E j = false
  | ((s', w'), Throw _) => S (w_conns w') = w_conns w /\ s_mp s = None /\ exists j, e_s3 E j = false
  | _ => False
  end.
Proof.
  destruct s as [sb sk buf nb nf mp]. destruct w as [tr tk cn er]. unfold sent. cbn [s_bucket s_key s_buf s_nbuf s_nflush s_mp w_trace w_conns].
  intros (-> & -> & -> & HP & HM) Hn Hl Hc. set (p := slice buf 0 nb).
  destruct cn as [|cn]; [lia|].
  assert (Hz : zlen p = nb) by (unfold p; apply slice_0_len; lia).
  assert (Hu : u64 (zlen (List.concat ps) + nb) = zlen (List.concat ps) + nb).
  { unfold u64. apply Z.mod_small. pose proof (zlen_nonneg (List.concat ps)). lia. }
  unfold s3_flush_part. cbv beta iota zeta delta [bind getS fst snd]. cbn [s_nbuf s_mp]. rewrite (proj2 (Z.eqb_neq nb 0)) by lia.
  destruct mp as [[id parts]|].
  - destruct HM as (Hid & -> & Htr). cbv beta iota zeta delta [ret onW get_connection bind getS putS fst snd]. cbn [s_mp w_conns s_bucket s_key s_buf s_nbuf s_nflush w_trace w_tick w_err].
    unfold s3_upload_part. cbv beta iota zeta delta [catchM bind expectM ret throwM]. rewrite beq, keq. fold p. rewrite Hz, (proj2 (Z.eqb_neq nb 0)) by lia. cbn [negb].
    rewrite numbers_len. rewrite (proj2 (Z.eqb_neq (Z.of_nat (List.length ps) + 1) 0)) by lia. cbn [negb]. unfold s3_request, next_tick, bind, ret. cbn [w_tick w_trace w_conns w_err].
    destruct (e_s3 E tk) eqn:Ef; unfold emit, modM, return_connection, modM; cbn [w_trace w_conns w_tick w_err].
    + exists id. rewrite Hu. rewrite numbers_S. split; [reflexivity|]. split; [|split; [auto|split; [auto|]]]; [|intros i l X; injection X as -> _; reflexivity]. rewrite Htr, part_events_app, <- app_assoc. reflexivity.
    + split; [reflexivity|eauto].
  - destruct HM as (-> & Htr). unfold s3_create_upload. cbv beta iota zeta delta [ret onW get_connection bind getS putS fst snd]. cbn [s_mp w_conns s_bucket s_key s_buf s_nbuf s_nflush w_trace w_tick w_err].
    unfold s3_create_multipart. cbv beta iota zeta delta [catchM bind expectM ret throwM]. rewrite beq, keq. cbn [negb]. unfold s3_request, next_tick, bind, ret. cbn [w_tick w_trace w_conns w_err].
    destruct (e_s3 E tk) eqn:Ef; [|cbn; split; [reflexivity|split; [reflexivity|eauto]]].
    unfold emit, modM, return_connection, modM; cbn [w_trace w_conns w_tick w_err s_mp s_bucket s_key s_buf s_nbuf s_nflush].
    unfold s3_upload_part. cbv beta iota zeta delta [catchM bind expectM ret throwM]. rewrite beq, keq. fold p. rewrite Hz, (proj2 (Z.eqb_neq nb 0)) by lia. cbn [negb].
    change (zlen (@nil Z)) with 0. cbn [Z.add Z.eqb negb]. unfold s3_request, next_tick, bind, ret. cbn [w_tick w_trace w_conns w_err].
    change (0 + 1 =? 0) with false. cbv beta iota. cbn [negb w_tick w_trace w_conns w_err].
    destruct (e_s3 E (S tk)) eqn:Ef2; unfold emit, modM, return_connection, modM; cbv beta iota; cbn [w_trace w_conns w_tick w_err].
    + exists (Z.of_nat tk + 1). cbn [List.concat] in *. change (zlen (@nil Z)) with 0 in *. rewrite Hu. split; [reflexivity|]. split; [|split; [lia|split; [auto|discriminate]]]. rewrite Htr, <- app_assoc. reflexivity.
    + split; [reflexivity|eauto].
Qed.

Definition written (tr0 : list event) (c : list Z) (s : s3sink) (w : world) : Prop :=
  exists ps, sent tr0 ps s w /\ 0 <= s_nbuf s < part_size /\ s_nbuf s <= zlen (s_buf s) /\ c = List.concat ps ++ slice (s_buf s) 0 (s_nbuf s) /\ (s_mp s <> None -> ps <> []).
Definition failed (w w' : world) (r : outcome bool) : Prop :=
  (r = Ok false /\ w_conns w' = w_conns w \/ exists m, r = Throw m /\ S (w_conns w') = w_conns w) /\ exists j, e_s3 E j = false.

Lemma failed_conns w w1 w' r : failed w1 w' r -> w_conns w1 = w_conns w -> failed w w' r.
Proof. unfold failed. intros H <-. exact H. Qed.

Lemma write_loop_cases tr0 : forall fuel data s w c,
  (List.length data < fuel)%nat -> written tr0 c s w -> zlen c + zlen data < 2 ^ 64 -> (0 < w_conns w)%nat ->
  match s3_write_loop E fuel data (s, w) with
  | ((s', w'), Ok true) => written tr0 (c ++ data) s' w' /\ w_conns w' = w_conns w
  | ((s', w'), r) => failed w w' r
  end.
Proof.
  induction fuel as [|fuel IH]; intros data s w c Hf HW Hl Hc; [lia|]. cbn [s3_write_loop].
  destruct (Z.eqb_spec (zlen data) 0) as [Hz|Hz].
  { assert (data = []) as -> by (destruct data; auto; unfold zlen in Hz; cbn in Hz; lia). cbn. rewrite app_nil_r. auto. }
  destruct HW as (ps & HS & H1 & H2 & H3 & H4).
  rewrite (bind_ok getS _ _ (s, w) s) by reflexivity. rewrite (proj2 (Z.ltb_ge part_size (s_nbuf s))) by lia.
  pose proof (zlen_nonneg data) as Hd0. set (n := Z.min (zlen data) (part_size - s_nbuf s)). assert (Hn : 0 < n <= zlen data) by (unfold n; lia).
  set (d := firstn (Z.to_nat n) data). assert (Hd : zlen d = n) by (unfold d, zlen in *; rewrite firstn_length; lia).
  assert (Hcl : zlen c = zlen (List.concat ps) + s_nbuf s) by (rewrite H3, zlen_app, slice_0_len by lia; auto).
  match goal with |- context [putS ?x] => set (s1 := x) end.
  rewrite (bind_ok (putS s1) _ (s, w) (s1, w) tt) by reflexivity.
  pose proof (write_at_len (s_buf s) (s_nbuf s) d ltac:(lia)) as Hwl. pose proof (write_at_end (s_buf s) (s_nbuf s) d ltac:(lia)) as Hwe. rewrite Hd in Hwl, Hwe.
  assert (Hskip : data = d ++ skipn (Z.to_nat n) data) by (unfold d; rewrite firstn_skipn; auto).
  assert (Hsl : (List.length (skipn (Z.to_nat n) data) < fuel)%nat) by (rewrite skipn_length; unfold zlen in *; lia).
  assert (Hsz : zlen (skipn (Z.to_nat n) data) = zlen data - n) by (unfold zlen in *; rewrite skipn_length; lia).
  assert (HS1 : sent tr0 ps s1 w) by exact HS.
  destruct (Z.eqb_spec (s_nbuf s + n) part_size) as [Hfull|Hfull].
  - pose proof (flush_part_cases tr0 ps s1 w HS1) as FP. cbn [s1 s_nbuf s_buf] in FP. specialize (FP ltac:(lia) ltac:(lia) Hc). cbv zeta in FP. fold s1 in FP.
    unfold bind at 1. destruct (s3_flush_part E (s1, w)) as ((s2 & w2) & [[]| | |]); try contradiction.
    + destruct FP as (id & -> & T & Hid & C2 & _). rewrite Hwe in T.
      assert (HPL : zlen (slice (s_buf s) 0 (s_nbuf s) ++ d) = part_size) by (rewrite zlen_app, slice_0_len, Hd by lia; lia).
      match goal with |- context [s3_write_loop E fuel _ (?x, w2)] => set (s2 := x) end.
      assert (HW2 : written tr0 (c ++ d) s2 w2).
      { exists (ps ++ [slice (s_buf s) 0 (s_nbuf s) ++ d]). unfold s2. cbn [s_nbuf s_buf s_mp]. split; [|split; [|split; [|split]]].
        - destruct HS as (A1 & A2 & A3 & A4 & A5). split; [reflexivity|]. split; [reflexivity|]. cbn [s_nflush s_mp]. rewrite concat_app, zlen_app. cbn [List.concat]. rewrite app_nil_r, HPL. split; [lia|].
          split; [apply Forall_app; auto|]. split; [auto|]. split; [rewrite app_length; cbn [List.length]; rewrite Nat.add_1_r; reflexivity|]. exact T.
        - unfold part_size; lia.
        - apply zlen_nonneg.
        - rewrite H3, concat_app. cbn [List.concat]. unfold slice at 2. cbn. rewrite !app_nil_r, !app_assoc. reflexivity.
        - intros _ X. destruct ps; discriminate. }
      specialize (IH (skipn (Z.to_nat n) data) s2 w2 (c ++ d) Hsl HW2 ltac:(rewrite zlen_app; lia) ltac:(lia)).
      destruct (s3_write_loop E fuel (skipn (Z.to_nat n) data) (s2, w2)) as ((s3 & w3) & [[]| | |]); try (eapply failed_conns; [exact IH|congruence]).
      rewrite Hskip at 1. rewrite app_assoc. destruct IH. split; [auto|congruence].
    + destruct FP as [A B]. split; auto.
    + destruct FP as (A & _ & B). split; [right; eauto|auto].
  - rewrite (bind_ok (ret true) _ (s1, w) (s1, w) true) by reflexivity.
    assert (Hnn : n = zlen data) by (unfold n in *; lia).
    assert (HW1 : written tr0 (c ++ d) s1 w).
    { exists ps. cbn [s1 s_nbuf s_buf s_mp]. split; [exact HS1|]. split; [unfold n in *; lia|]. split; [lia|]. split; [|exact H4]. rewrite Hwe, H3, app_assoc. reflexivity. }
    specialize (IH (skipn (Z.to_nat n) data) s1 w (c ++ d) Hsl HW1 ltac:(rewrite zlen_app; lia) Hc).
    destruct (s3_write_loop E fuel (skipn (Z.to_nat n) data) (s1, w)) as ((s3 & w3) & [[]| | |]); auto. rewrite Hskip at 1. rewrite app_assoc. auto.
Qed.

Lemma write_cases tr0 data s w c : written tr0 c s w -> zlen c + zlen data < 2 ^ 64 -> (0 < w_conns w)%nat ->
  match s3_write E (zlen c) data (s, w) with
  | ((s', w'), Ok true) => written tr0 (c ++ data) s' w' /\ w_conns w' = w_conns w
  | ((s', w'), r) => failed w w' r
  end.
Proof.
  intros HW Hl Hc. unfold s3_write. destruct (Z.eqb_spec (zlen data) 0) as [Hz|Hz].
  { assert (data = []) as -> by (destruct data; auto; unfold zlen in Hz; cbn in Hz; lia). cbn. rewrite app_nil_r. auto. }
  rewrite (bind_ok getS _ _ (s, w) s) by reflexivity. pose proof HW as (ps & HS & H1 & H2 & H3 & H4). pose proof HS as (A1 & A2 & A3 & A4 & A5).
  assert (Hcl : zlen c = zlen (List.concat ps) + s_nbuf s) by (rewrite H3, zlen_app, slice_0_len by lia; auto).
  rewrite (proj2 (Z.ltb_ge (zlen c) (s_nflush s))) by lia. replace (zlen c - s_nflush s) with (s_nbuf s) by lia.
  replace (mks3 (s_bucket s) (s_key s) (s_buf s) (s_nbuf s) (s_nflush s) (s_mp s)) with s by (destruct s; reflexivity).
  rewrite (bind_ok (putS s) _ (s, w) (s, w) tt) by reflexivity.
  apply write_loop_cases; auto. lia.
Qed.

Lemma write_all_cases tr0 : forall ds s w c, written tr0 c s w -> zlen c + zlen (List.concat ds) < 2 ^ 64 -> (0 < w_conns w)%nat ->
  match write_all E (zlen c) ds (s, w) with
  | ((s', w'), Ok true) => written tr0 (c ++ List.concat ds) s' w' /\ w_conns w' = w_conns w
  | ((s', w'), r) => failed w w' r
  end.
Proof.
  induction ds as [|d ds IH]; intros s w c HW Hl Hc; cbn [write_all List.concat].
  - cbn. rewrite app_nil_r. auto.
  - cbn [List.concat] in Hl. rewrite zlen_app in Hl. pose proof (zlen_nonneg (List.concat ds)). pose proof (write_cases tr0 d s w c HW ltac:(lia) Hc) as X.
    unfold bind. destruct (s3_write E (zlen c) d (s, w)) as ((s1 & w1) & [[]| | |]); auto.
    destruct X as [X1 X2]. rewrite <- zlen_app. specialize (IH s1 w1 (c ++ d) X1 ltac:(rewrite zlen_app; lia) ltac:(lia)).
    destruct (write_all E (zlen (c ++ d)) ds (s1, w1)) as ((s2 & w2) & [[]| | |]); rewrite ?app_assoc; try (eapply failed_conns; [exact IH|congruence]).
    destruct IH. split; [auto|congruence].
Qed.

Lemma complete_cases tr0 id ps s w : s_bucket s = b -> s_key s = k -> s_mp s = Some (id, numbers (List.length ps)) -> ps <> [] -> id > 0 ->
  w_trace w = tr0 ++ EMpCreate b k id :: part_events b k id ps -> (0 < w_conns w)%nat ->
  match s3_finalize E (s, w) with
  | ((s', w'), Ok true) => s' = s /\ w_trace w' = tr0 ++ EMpCreate b k id :: part_events b k id ps ++ [EMpComplete b k id (numbers (List.length ps))] /\ w_conns w' = w_conns w
  | ((s', w'), r) => r = Ok false /\ w_conns w' = w_conns w /\ exists j, e_s3 E j = false
  end.
Proof.
  intros H1 H2 H3 H4 H5 H6 H7. destruct w as [tr tk [|cn] er]; cbn in H6, H7; [lia|]. unfold s3_finalize. cbv beta iota zeta delta [ret onW get_connection bind getS putS fst snd]. cbn [w_conns]. rewrite H3, H1, H2.
  unfold s3_complete. cbv beta iota zeta delta [catchM bind expectM ret throwM]. rewrite beq, keq, numbers_len. rewrite (proj2 (Z.eqb_neq id 0)) by lia.
  rewrite (proj2 (Z.eqb_neq (Z.of_nat (List.length ps)) 0)) by (destruct ps; [congruence|cbn; lia]). cbn [negb]. unfold s3_request, next_tick, bind, ret. cbn [w_tick w_trace w_conns w_err].
  destruct (e_s3 E tk) eqn:Ef; unfold emit, modM, return_connection, modM; cbv beta iota; cbn [w_trace w_conns w_tick w_err].
  - split; [reflexivity|]. split; [|reflexivity]. rewrite H6, <- app_assoc. reflexivity.
  - split; [reflexivity|]. split; [reflexivity|eauto].
Qed.

Lemma last_concat_pieces ps p : Forall (fun p => zlen p = part_size) ps -> 0 < zlen p <= part_size -> pieces (ps ++ [p]).
Proof.
  intros A B. unfold pieces. split; [destruct ps; discriminate|]. rewrite removelast_last, last_last. split; auto.
Qed.
Lemma full_pieces ps : ps <> [] -> Forall (fun p => zlen p = part_size) ps -> pieces ps.
Proof.
  intros H A. destruct (exists_last H) as (l & x & ->). apply Forall_app in A as [A B]. inversion B; subst. apply last_concat_pieces; auto. unfold part_size in *. lia.
Qed.

Lemma flush_cases tr0 c s w : written tr0 c s w -> zlen c < 2 ^ 64 -> (0 < w_conns w)%nat ->
  match s3_flush E (s, w) with
  | ((s', w'), Ok true) => (exists evs, w_trace w' = tr0 ++ evs /\ requests b k c evs) /\ w_conns w' = w_conns w
  | ((s', w'), r) => r = Ok false /\ w_conns w' = w_conns w /\ exists j, e_s3 E j = false
  end.
Proof.
  intros (ps & HS & H1 & H2 & H3 & H4) Hl Hc. pose proof HS as (A1 & A2 & A3 & A4 & A5).
  assert (Hcl : zlen c = zlen (List.concat ps) + s_nbuf s) by (rewrite H3, zlen_app, slice_0_len by lia; auto).
  unfold s3_flush. rewrite (bind_ok getS _ _ (s, w) s) by reflexivity. unfold bind at 1.
  destruct (s_mp s) as [[id parts]|] eqn:Em.
  - destruct A5 as (I1 & I2 & I3). specialize (H4 ltac:(discriminate)). subst parts.
    assert (Hps : part_size <= zlen (List.concat ps)).
    { destruct ps as [|x ps]; [congruence|]. inversion A4 as [|? ? Hx A4']; subst. cbn [List.concat]. rewrite zlen_app. pose proof (zlen_nonneg (List.concat ps)). lia. }
    assert (RQ : forall ps', List.concat ps' = c -> pieces ps' -> requests b k c (EMpCreate b k id :: part_events b k id ps' ++ [EMpComplete b k id (numbers (List.length ps'))])).
    { intros ps' P1 P2. unfold requests. rewrite (proj2 (Z.eqb_neq (zlen c) 0)) by (unfold part_size in *; lia). rewrite (proj2 (Z.ltb_ge (zlen c) (5 * 2 ^ 20))) by (unfold part_size in *; lia). exists id, ps'. auto. }
    destruct (Z.ltb_spec 0 (s_nbuf s)) as [Hn|Hn].
    + pose proof (flush_part_cases tr0 ps s w HS ltac:(lia) ltac:(lia) Hc) as FP. cbv zeta in FP. unfold bind at 1.
      destruct (s3_flush_part E (s, w)) as ((s2 & w2) & [[]| | |]) eqn:R; try contradiction.
      * destruct FP as (id' & -> & T & Hid & C2 & FI). cbv beta iota.
        match goal with |- context [s3_finalize E (?x, w2)] => set (s2 := x) end.
        assert (LN : numbers (S (List.length ps)) = numbers (List.length (ps ++ [slice (s_buf s) 0 (s_nbuf s)]))) by (rewrite app_length; cbn [List.length]; rewrite Nat.add_1_r; reflexivity).
        assert (id' = id) as -> by (exact (FI _ _ Em)).
        pose proof (complete_cases tr0 id (ps ++ [slice (s_buf s) 0 (s_nbuf s)]) s2 w2 eq_refl eq_refl) as CC. cbn [s2 s_mp] in CC. rewrite LN in CC. specialize (CC eq_refl ltac:(destruct ps; discriminate) Hid T ltac:(lia)). 
        replace (mks3 b k (s_buf s) 0 (zlen (List.concat ps) + s_nbuf s) (Some (id, numbers (List.length (ps ++ [slice (s_buf s) 0 (s_nbuf s)]))))) with s2 in CC by (unfold s2; rewrite <- LN; reflexivity).
        destruct (s3_finalize E (s2, w2)) as ((s3 & w3) & [[]| | |]); cbv beta iota; try (destruct CC as (X & Y & Z0); solve [discriminate X | cbn; split; [reflexivity|split; [congruence|exact Z0]]]).
        destruct CC as (-> & T3 & C3). cbv beta iota. cbn. split; [|congruence]. eexists. split; [exact T3|]. apply RQ; [rewrite concat_app; cbn [List.concat]; rewrite app_nil_r; auto|].
        apply last_concat_pieces; auto. rewrite slice_0_len; lia.
      * destruct FP as [A B]. cbn. auto.
      * exfalso. destruct FP as (_ & X & _). rewrite Em in X. discriminate X.
    + assert (s_nbuf s = 0) as Z0 by lia. rewrite (bind_ok (ret true) _ (s, w) (s, w) true) by reflexivity. cbv beta iota.
      pose proof (complete_cases tr0 id ps s w A1 A2 Em H4 I1 I3 Hc) as CC.
      destruct (s3_finalize E (s, w)) as ((s3 & w3) & [[]| | |]); cbv beta iota; try (destruct CC as (X & Y & W0); solve [discriminate X | cbn; split; [reflexivity|split; [congruence|exact W0]]]).
      destruct CC as (-> & T3 & C3). cbn. split; [|congruence]. eexists. split; [exact T3|]. apply RQ; [rewrite H3, Z0; unfold slice; cbn; rewrite app_nil_r; reflexivity|apply full_pieces; auto].
  - destruct A5 as (-> & T). cbn [List.concat app] in H3, Hcl. change (zlen (@nil Z)) with 0 in Hcl.
    destruct (Z.ltb_spec 0 (s_nbuf s)) as [Hn|Hn].
    + unfold s3_put_object. destruct w as [tr tk [|cn] er]; cbn in T, Hc; [lia|]. cbv beta iota zeta delta [ret onW get_connection bind getS putS fst snd]. cbn [w_conns]. rewrite (proj2 (Z.eqb_neq (s_nbuf s) 0)) by lia. rewrite A1, A2, <- H3.
      unfold s3_put. cbv beta iota zeta delta [catchM bind expectM ret throwM]. rewrite beq, keq, (proj2 (Z.eqb_neq (zlen c) 0)) by lia. cbn [negb]. unfold s3_request, next_tick, bind, ret. cbn [w_tick w_trace w_conns w_err].
      destruct (e_s3 E tk) eqn:Ef; unfold emit, modM, return_connection, modM; cbv beta iota; cbn [w_trace w_conns w_tick w_err].
      * split; [|reflexivity]. exists [EPut b k c]. split; [congruence|]. unfold requests. rewrite (proj2 (Z.eqb_neq (zlen c) 0)) by lia. rewrite (proj2 (Z.ltb_lt (zlen c) (5 * 2 ^ 20))) by (unfold part_size in *; lia). reflexivity.
      * split; [reflexivity|]. split; [reflexivity|eauto].
    + cbn. split; [|reflexivity]. exists []. rewrite app_nil_r. split; [exact T|]. unfold requests. rewrite (proj2 (Z.eqb_eq (zlen c) 0)) by lia. reflexivity.
Qed.
End S.

(** ** Connections, for any state of the sink *)
Definition conns_ok {A} (w w' : world) (r : outcome A) : Prop :=
  match r with
  | Ok _ => w_conns w' = w_conns w
  | Throw _ => S (w_conns w') = w_conns w
  | Hang => w_conns w = O /\ w_conns w' = O
  | UB => True
  end.

(** the requests leave the pool alone *)
Definition keeps_conns {A} (m : M world A) : Prop := forall w, w_conns (fst (m w)) = w_conns w /\ match snd (m w) with UB | Hang => False | _ => True end.
Lemma put_keeps E b k d : keeps_conns (s3_put E b k d).
Proof.
  intros w. unfold s3_put, expectM, bind, ret, throwM, s3_request, next_tick, emit, modM, bind, ret. destruct (negb (String.eqb b "")); cbn; auto. destruct (negb (String.eqb k "")); cbn; auto. destruct (negb (zlen d =? 0)); cbn; auto. destruct (e_s3 E (w_tick w)); cbn; auto.
Qed.
Lemma create_keeps E b k : keeps_conns (s3_create_multipart E b k).
Proof.
  intros w. unfold s3_create_multipart, expectM, bind, ret, throwM, s3_request, next_tick, emit, modM, bind, ret. destruct (negb (String.eqb b "")); cbn; auto. destruct (negb (String.eqb k "")); cbn; auto. destruct (e_s3 E (w_tick w)); cbn; auto.
Qed.
Lemma part_keeps E b k id n d : keeps_conns (s3_upload_part E b k id n d).
Proof.
  intros w. unfold s3_upload_part, expectM, bind, ret, throwM, s3_request, next_tick, emit, modM, bind, ret. destruct (negb (String.eqb b "")); cbn; auto. destruct (negb (String.eqb k "")); cbn; auto. destruct (negb (zlen d =? 0)); cbn; auto. destruct (negb (n =? 0)); cbn; auto. destruct (e_s3 E (w_tick w)); cbn; auto.
Qed.
Lemma complete_keeps E b k id l : keeps_conns (s3_complete E b k id l).
Proof.
  intros w. unfold s3_complete, expectM, bind, ret, throwM, s3_request, next_tick, emit, modM, bind, ret. destruct (negb (String.eqb b "")); cbn; auto. destruct (negb (String.eqb k "")); cbn; auto. destruct (negb (id =? 0)); cbn; auto. destruct (negb (zlen l =? 0)); cbn; auto. destruct (e_s3 E (w_tick w)); cbn; auto.
Qed.

Lemma create_upload_conns E s w : let '((_, w'), r) := s3_create_upload E (s, w) in conns_ok w w' r /\ r <> UB.
Proof.
  destruct w as [tr tk [|cn] er]; unfold s3_create_upload; cbv beta iota zeta delta [ret onW get_connection bind getS putS fst snd]; cbn [w_conns]; [cbn; split; [auto|discriminate]|].
  match goal with |- context [s3_create_multipart E ?b ?k ?w0] => pose proof (create_keeps E b k w0) as K; destruct (s3_create_multipart E b k w0) as (w1 & [id|m| |]) end; cbn [fst snd w_conns] in K; destruct K as [K1 K2]; try contradiction.
  - cbn. split; [lia|discriminate].
  - cbn. split; [lia|discriminate].
Qed.
Lemma flush_part_conns E s w : let '((_, w'), r) := s3_flush_part E (s, w) in conns_ok w w' r.
Proof.
  unfold s3_flush_part. rewrite (bind_ok getS _ _ (s, w) s) by reflexivity. destruct (s_nbuf s =? 0); [cbn; auto|].
  assert (G : forall s1 w1 f, w_conns w1 = w_conns w -> s_mp s1 = Some f ->
    let '((_, w'), r) := (onW get_connection ;;; (s <- getS ;; match s_mp s with None => ubM | Some (id, parts) =>
        let n := zlen parts + 1 in
        ok <- onW (catchM (s3_upload_part E (s_bucket s) (s_key s) id n (slice (s_buf s) 0 (s_nbuf s))) (fun _ => ret false)) ;;
        onW return_connection ;;;
        putS (mks3 (s_bucket s) (s_key s) (s_buf s) 0 (u64 (s_nflush s + s_nbuf s)) (Some (id, if ok then (parts ++ [n])%list else parts))) ;;;
        ret ok end)) (s1, w1) in conns_ok w w' r).
  { intros s1 w1 [id parts] Hc Hm. destruct w1 as [tr tk [|cn] er]; cbv beta iota zeta delta [ret onW get_connection bind getS putS fst snd]; cbn [w_conns] in *; [cbn; auto|]. rewrite Hm. unfold catchM.
    match goal with |- context [s3_upload_part E ?b ?k ?i ?n ?d ?w0] => pose proof (part_keeps E b k i n d w0) as K; destruct (s3_upload_part E b k i n d w0) as (w2 & [ok|m| |]) end; cbn [fst snd w_conns] in K; destruct K as [K1 K2]; try contradiction; cbn; lia. }
  destruct (s_mp s) as [f|] eqn:Em.
  - rewrite (bind_ok (ret tt) _ (s, w) (s, w) tt) by reflexivity. apply (G s w f); auto.
  - unfold bind at 1. pose proof (create_upload_conns E s w) as X. destruct (s3_create_upload E (s, w)) as ((s1 & w1) & [u|m| |]) eqn:R; try (cbn in *; tauto).
    destruct X as [X _]. assert (exists f, s_mp s1 = Some f) as [f Hf].
    { revert R. unfold s3_create_upload. cbv beta iota zeta delta [bind getS putS fst snd]. destruct (onW get_connection _) as ((a & b0) & [?| | |]); try discriminate. destruct (onW (s3_create_multipart _ _ _) _) as ((a1 & b1) & [?| | |]); try discriminate.
      cbv beta iota delta [onW return_connection modM]. intros R. injection R as <- _ _. cbn. eauto. }
    apply (G s1 w1 f); auto.
Qed.
Lemma put_object_conns E s w : let '((_, w'), r) := s3_put_object E (s, w) in conns_ok w w' r.
Proof.
  unfold s3_put_object. rewrite (bind_ok getS _ _ (s, w) s) by reflexivity. destruct (s_nbuf s =? 0); [cbn; auto|].
  destruct w as [tr tk [|cn] er]; cbv beta iota zeta delta [ret onW get_connection bind getS putS fst snd]; cbn [w_conns] in *; [cbn; auto|]. unfold catchM.
  match goal with |- context [s3_put E ?b ?k ?d ?w0] => pose proof (put_keeps E b k d w0) as K; destruct (s3_put E b k d w0) as (w2 & [ok|m| |]) end; cbn [fst snd w_conns] in K; destruct K as [K1 K2]; try contradiction; [destruct ok; cbn; lia|cbn; lia].
Qed.
Lemma finalize_conns E s w : let '((_, w'), r) := s3_finalize E (s, w) in conns_ok w w' r.
Proof.
  unfold s3_finalize. destruct w as [tr tk [|cn] er]; cbv beta iota zeta delta [ret onW get_connection bind getS putS fst snd]; cbn [w_conns] in *; [cbn; auto|].
  destruct (s_mp s) as [[id parts]|]; [|cbn; auto].
  match goal with |- context [s3_complete E ?b ?k ?i ?d ?w0] => pose proof (complete_keeps E b k i d w0) as K; destruct (s3_complete E b k i d w0) as (w2 & [ok|m| |]) end; cbn [fst snd w_conns] in K; destruct K as [K1 K2]; try contradiction; cbn; lia.
Qed.
Lemma flush_conns E s w : let '((_, w'), r) := s3_flush E (s, w) in conns_ok w w' r.
Proof.
  unfold s3_flush. rewrite (bind_ok getS _ _ (s, w) s) by reflexivity. unfold bind at 1.
  assert (G : forall (x : M SW bool), (let '((_, w'), r) := x (s, w) in conns_ok w w' r) ->
     let '((_, w'), r) := match x (s, w) with (s', Ok a) => (if a then s' <- getS ;; putS (mks3 (s_bucket s') (s_key s') (s_buf s') 0 (s_nflush s') (s_mp s')) ;;; ret true else ret false) s' | (s', Throw e) => (s', Throw e) | (s', UB) => (s', UB) | (s', Hang) => (s', Hang) end in conns_ok w w' r).
  { intros x H. destruct (x (s, w)) as ((s1 & w1) & [[]|m| |]); cbn in *; auto. }
  apply G. destruct (s_mp s).
  - unfold bind. destruct (0 <? s_nbuf s).
    + pose proof (flush_part_conns E s w) as X. destruct (s3_flush_part E (s, w)) as ((s1 & w1) & [[]|m| |]); cbn in *; auto.
      pose proof (finalize_conns E s1 w1) as Y. destruct (s3_finalize E (s1, w1)) as ((s2 & w2) & [[]|m| |]); cbn in *; congruence.
    + cbn. apply finalize_conns.
  - destruct (0 <? s_nbuf s); [apply put_object_conns|cbn; auto].
Qed.
Lemma flush_part_nbuf E s w s' w' ok : s3_flush_part E (s, w) = ((s', w'), Ok ok) -> s_nbuf s' = 0.
Proof.
  unfold s3_flush_part. rewrite (bind_ok getS _ _ (s, w) s) by reflexivity. destruct (Z.eqb_spec (s_nbuf s) 0) as [Z0|_].
  { cbn. intros X. injection X as <- _ _. exact Z0. }
  unfold bind at 1. destruct (match s_mp s with Some _ => ret tt | None => s3_create_upload E end (s, w)) as ((s1 & w1) & [u|m| |]); try discriminate.
  unfold bind at 1. destruct (onW get_connection (s1, w1)) as ((s2 & w2) & [u2|m| |]); try discriminate. unfold bind at 1, getS. cbn [fst].
  destruct (s_mp s2) as [[id parts]|]; [|discriminate]. cbv zeta. unfold bind at 1. destruct (onW (catchM _ _) _) as ((s3 & w3) & [ok3|m| |]); try discriminate.
  unfold bind at 1. destruct (onW return_connection _) as ((s4 & w4) & [u4|m| |]); try discriminate.
  cbn. intros X. injection X as <- _ _. reflexivity.
Qed.
Lemma write_loop_conns E : forall fuel data s w,
  (List.length data + (if (s_nbuf s =? part_size)%Z then 1 else 0) < fuel)%nat ->
  let '((_, w'), r) := s3_write_loop E fuel data (s, w) in conns_ok w w' r.
Proof.
  induction fuel as [|fuel IH]; intros data s w Hf; cbn [s3_write_loop]; [lia|]. destruct (Z.eqb_spec (zlen data) 0) as [Hz|Hz]; [cbn; auto|].
  rewrite (bind_ok getS _ _ (s, w) s) by reflexivity. destruct (Z.ltb_spec part_size (s_nbuf s)) as [Hp|Hp]; [cbn; auto|].
  set (n := Z.min (zlen data) (part_size - s_nbuf s)).
  match goal with |- context [putS ?x] => set (s1 := x) end. rewrite (bind_ok (putS s1) _ (s, w) (s1, w) tt) by reflexivity.
  assert (HD : 0 < zlen data) by (unfold zlen in *; lia).
  destruct (Z.eqb_spec (s_nbuf s + n) part_size) as [Hn|Hn].
  - unfold bind. pose proof (flush_part_conns E s1 w) as X. destruct (s3_flush_part E (s1, w)) as ((s2 & w2) & [[]|m| |]) eqn:R; cbn in X |- *; auto.
    apply flush_part_nbuf in R.
    assert (Hf2 : (List.length (skipn (Z.to_nat n) data) + (if (s_nbuf s2 =? part_size)%Z then 1 else 0) < fuel)%nat).
    { rewrite R. change (0 =? part_size) with false. rewrite skipn_length. destruct (Z.eqb_spec (s_nbuf s) part_size); unfold n, zlen in *; lia. }
    specialize (IH _ s2 w2 Hf2). destruct (s3_write_loop E fuel _ (s2, w2)) as ((s3 & w3) & [[]|m| |]); cbn in *; congruence.
  - rewrite (bind_ok (ret true) _ (s1, w) (s1, w) true) by reflexivity. apply IH. cbn [s1 s_nbuf]. rewrite (proj2 (Z.eqb_neq _ _) Hn). rewrite skipn_length. destruct (Z.eqb_spec (s_nbuf s) part_size); unfold n, zlen in *; lia.
Qed.
Lemma write_conns E off data s w : let '((_, w'), r) := s3_write E off data (s, w) in conns_ok w w' r.
Proof.
  unfold s3_write. destruct (zlen data =? 0) eqn:Z0; [cbn; auto|]. rewrite (bind_ok getS _ _ (s, w) s) by reflexivity. destruct (off <? s_nflush s); [cbn; auto|].
  match goal with |- context [putS ?x] => set (s1 := x) end. rewrite (bind_ok (putS s1) _ (s, w) (s1, w) tt) by reflexivity. apply write_loop_conns. unfold zlen in Z0. destruct (s_nbuf s1 =? part_size); lia.
Qed.
Lemma bucket_conns E b w : b <> "" -> let '(w', r) := bucket_exists E b w in conns_ok w w' r.
Proof.
  intros Hb. unfold bucket_exists, expectM. rewrite (proj2 (String.eqb_neq _ _) Hb). cbn [negb]. destruct w as [tr tk [|cn] er]; cbn; auto.
Qed.

(** ** Objects below one part: no request throws *)
Definition small (s : s3sink) : Prop := s_mp s = None /\ 0 <= s_nflush s.
Lemma write_small E off data s w : small s -> 0 <= off -> off + zlen data < part_size ->
  exists s' ok, s3_write E off data (s, w) = ((s', w), Ok ok) /\ small s'.
Proof.
  intros [Hm Hf] H0 Hl. unfold s3_write. destruct (Z.eqb_spec (zlen data) 0) as [Z0|Z0]; [exists s, true; split; [reflexivity|split; auto]|].
  rewrite (bind_ok getS _ _ (s, w) s) by reflexivity. destruct (Z.ltb_spec off (s_nflush s)) as [Ho|Ho]; [exists s, false; split; [reflexivity|split; auto]|].
  match goal with |- context [putS ?x] => set (s1 := x) end. rewrite (bind_ok (putS s1) _ (s, w) (s1, w) tt) by reflexivity.
  assert (HD : 0 < zlen data) by (unfold zlen in *; lia).
  replace (2 * List.length data + 2)%nat with (S (S (2 * List.length data))) by lia. cbn [s3_write_loop]. rewrite (proj2 (Z.eqb_neq _ _) Z0).
  rewrite (bind_ok getS _ _ (s1, w) s1) by reflexivity. cbn [s1 s_nbuf s_buf s_nflush s_mp s_bucket s_key].
  rewrite (proj2 (Z.ltb_ge part_size (off - s_nflush s))) by lia. replace (Z.min (zlen data) (part_size - (off - s_nflush s))) with (zlen data) by lia.
  match goal with |- context [putS ?x] => set (s2 := x) end. rewrite (bind_ok (putS s2) _ _ (s2, w) tt) by reflexivity.
  rewrite (proj2 (Z.eqb_neq (off - s_nflush s + zlen data) part_size)) by lia. rewrite (bind_ok (ret true) _ (s2, w) (s2, w) true) by reflexivity.
  replace (skipn (Z.to_nat (zlen data)) data) with (@nil Z) by (unfold zlen; rewrite Nat2Z.id, skipn_all; reflexivity). cbn. exists s2, true. split; [reflexivity|]. split; auto.
Qed.
Lemma flush_small E s w : small s -> (0 < w_conns w)%nat -> exists s' w' ok, s3_flush E (s, w) = ((s', w'), Ok ok) /\ small s' /\ w_conns w' = w_conns w.
Proof.
  intros [Hm Hf] Hc. unfold s3_flush. rewrite (bind_ok getS _ _ (s, w) s) by reflexivity. rewrite Hm. destruct (Z.ltb_spec 0 (s_nbuf s)) as [Hn|Hn].
  - unfold bind at 1. unfold s3_put_object. rewrite (bind_ok getS _ _ (s, w) s) by reflexivity. rewrite (proj2 (Z.eqb_neq (s_nbuf s) 0)) by lia.
    destruct w as [tr tk [|cn] er]; cbn [w_conns] in Hc; [lia|]. cbv beta iota zeta delta [ret onW get_connection bind getS putS fst snd]; cbn [w_conns]. unfold catchM.
    match goal with |- context [s3_put E ?b ?k ?d ?w0] => pose proof (put_keeps E b k d w0) as K; destruct (s3_put E b k d w0) as (w2 & [ok|m| |]) end; cbn [fst snd w_conns] in K; destruct K as [K1 K2]; try contradiction.
    + destruct ok; cbn; eexists; eexists; eexists; (split; [reflexivity|]); split; [split; cbn; auto; lia|cbn; lia|split; auto|cbn; lia].
    + cbn. eexists; eexists; eexists; (split; [reflexivity|]); split; [split; cbn; auto; lia|cbn; lia].
  - cbn. eexists; eexists; eexists; (split; [reflexivity|]). split; [split; auto|auto].
Qed.
