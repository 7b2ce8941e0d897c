(** C42, C43, C47, C49: the Python binding and the vectorized file writer. *)
Require Import ZArith List Bool String Ascii Lia.
Require Import Verif.Base Verif.Spec Verif.Radix Verif.Dim Verif.World Verif.Stream Verif.Api Verif.SinkProofs Verif.Vfw Verif.Py.
Import ListNotations.
Open Scope string_scope.
Open Scope list_scope.
Open Scope Z_scope.

(** *** C42 *)
(** byte offset of the element at [idx] *)
Fixpoint dot (idx strides : list Z) : Z := match idx, strides with i :: ix, s :: st => i * s + dot ix st | _, _ => 0 end.
(** [bytes] are the elements of [a] in C order (last index fastest) *)
Definition c_order (m : mem) (a : ndarray) (bytes : list Z) : Prop :=
  zlen bytes = a_item a * prodZ (a_shape a) /\
  forall idx j, in_bounds (a_shape a) idx -> 0 <= j < a_item a ->
    m (a_ptr a + dot idx (a_strides a) + j) = Some (getb bytes (ravel (a_shape a) idx * a_item a + j)).
(** numpy's C-contiguous: the stride of every dimension longer than 1 is the size of what lies behind it *)
Fixpoint c_contiguous (item : Z) (shape strides : list Z) : Prop :=
  match shape, strides with
  | [], [] => True
  | n :: sh, s :: st => (n <= 1 \/ s = item * prodZ sh) /\ c_contiguous item sh st
  | _, _ => False
  end.

Lemma dot_contiguous item : forall shape strides idx, c_contiguous item shape strides -> in_bounds shape idx -> dot idx strides = item * ravel shape idx.
Proof.
  induction shape as [|n sh IH]; intros [|s st] [|i ix] HC HB; cbn in *; try contradiction; try lia.
  destruct HC as [HC HC'], HB as [HB HB']. rewrite (IH st ix HC' HB'). destruct HC as [Hn| ->]; [|lia]. assert (i = 0) by lia. subst i. lia.
Qed.
Lemma skipn_tl {A} : forall k (l : list A), skipn (S k) l = tl (skipn k l).
Proof. induction k as [|k IH]; intros [|x l]; cbn in *; auto. Qed.
Lemma read_mem_all m p : forall bytes, (forall i, 0 <= i < zlen bytes -> m (p + i) = Some (getb bytes i)) -> read_mem m p (zlen bytes) = Some bytes.
Proof.
  intros bytes H. unfold read_mem, zseq. unfold zlen in *. rewrite Nat2Z.id.
  assert (G : forall l k, (k + List.length l = List.length bytes)%nat -> skipn k bytes = l ->
    fold_right (fun i acc => match m (p + i), acc with Some b, Some l => Some (b :: l) | _, _ => None end) (Some []) (map Z.of_nat (seq k (List.length l))) = Some l).
  { induction l as [|x l IH]; intros k Hk Hs; cbn; [reflexivity|]. cbn in Hk. rewrite H by lia.
    assert (nth k bytes 0 = x). { replace bytes with (firstn k bytes ++ skipn k bytes) by apply firstn_skipn. rewrite app_nth2; rewrite firstn_length; [|lia]. rewrite Hs. replace (k - Nat.min k (List.length bytes))%nat with O by lia. reflexivity. }
    unfold getb. rewrite Nat2Z.id, H0. rewrite IH; [reflexivity|lia|]. rewrite skipn_tl, Hs. reflexivity. }
  apply (G bytes 0%nat); auto.
Qed.
Lemma size_prod a : a_size a = prodZ (a_shape a).
Proof. unfold a_size. induction (a_shape a); cbn; congruence. Qed.

(** A C-contiguous array is passed to ZarrStream_append as its elements in C order.
    Full statement (C42): for every array. False: C42_refuted (strides are ignored), C42_reads_outside. *)
Theorem C42_contiguous_partial : forall E m a bytes sw,
  0 < a_item a -> Forall (fun n => 0 <= n) (a_shape a) -> c_contiguous (a_item a) (a_shape a) (a_strides a) -> c_order m a bytes ->
  py_append E m a sw =
    match api_append E (Some bytes) true sw with
    | (sw', Ok (status, _)) => (sw', if status =? st_success then Ok tt else Throw ("Failed to append data to Zarr stream: " ++ status_message status)%string)
    | (sw', Throw e) => (sw', Throw e)
    | (sw', UB) => (sw', UB)
    | (sw', Hang) => (sw', Hang)
    end.
Proof.
  intros E m a bytes sw Hi HP HC [HL HO]. unfold py_append. rewrite size_prod, <- HL. rewrite read_mem_all.
  - unfold bind. destruct (api_append E (Some bytes) true sw) as (sw' & [[st o]|e| |]); auto. cbn [fst]. destruct (st =? st_success); reflexivity.
  - intros i Hb. assert (P : 0 <= prodZ (a_shape a)) by (clear - HP; induction HP; cbn; nia). rewrite HL in Hb.
    assert (PP : allpos (a_shape a)).
    { assert (Q : 0 < prodZ (a_shape a)) by nia. clear - HP Q. induction HP as [|x l Hx HP IH]; [constructor|]. cbn in Q. assert (0 <= prodZ l) by (clear - HP; induction HP; cbn; nia). constructor; [nia|]. apply IH. nia. }
    set (q := i / a_item a). assert (Hq : 0 <= q < prodZ (a_shape a)) by (unfold q; split; [apply Z.div_pos; lia|apply Z.div_lt_upper_bound; lia]).
    pose proof (Z.mod_pos_bound i (a_item a) Hi) as Hr.
    specialize (HO (unravel (a_shape a) q) (i mod a_item a) (unravel_in_bounds _ _ PP Hq) Hr).
    rewrite (dot_contiguous _ _ _ _ HC (unravel_in_bounds _ _ PP Hq)), ravel_unravel in HO by auto.
    replace (a_ptr a + a_item a * q + i mod a_item a) with (a_ptr a + i) in HO by (unfold q; rewrite (Z.div_mod i (a_item a)) at 1 by lia; lia).
    rewrite HO. f_equal. f_equal. unfold q. rewrite (Z.div_mod i (a_item a)) at 3 by lia. lia.
Qed.
(** The transpose of a 2 x 2 array of bytes has the elements 1, 3, 2, 4 in C order; append gets 1, 2, 3, 4. *)
Theorem C42_refuted : exists m a bytes other, c_order m a bytes /\ other <> bytes /\
  forall E sw, py_append E m a sw = (r <- api_append E (Some other) true ;; if fst r =? st_success then ret tt else throwM ("Failed to append data to Zarr stream: " ++ status_message (fst r))%string) sw.
Proof.
  exists (fun p => if (0 <=? p) && (p <? 4) then Some (p + 1) else None), (mknd 0 1 [2; 2] [1; 2]), [1; 3; 2; 4], [1; 2; 3; 4].
  split; [|split; [discriminate|reflexivity]].
  split; [reflexivity|]. intros idx j Hb Hj. cbn in Hb, Hj. destruct idx as [|a [|b [|c r]]]; cbn in Hb; try tauto.
  assert (a = 0 \/ a = 1) as [->| ->] by lia; assert (b = 0 \/ b = 1) as [->| ->] by lia; assert (j = 0) as -> by lia; reflexivity.
Qed.
(** Four elements that are all one byte in memory (stride 0, as numpy.broadcast_to gives): append reads memory that is not the array's. *)
Theorem C42_reads_outside : exists m a bytes, c_order m a bytes /\ forall E sw, snd (py_append E m a sw) = UB.
Proof.
  exists (fun p => if p =? 0 then Some 7 else None), (mknd 0 1 [4] [0]), [7; 7; 7; 7]. split; [|reflexivity].
  split; [reflexivity|]. intros idx j Hb Hj. cbn in Hb, Hj. destruct idx as [|a [|b r]]; cbn in Hb; try tauto. assert (j = 0) as -> by lia. cbn [dot a_ptr a_strides]. replace (0 + (a * 0 + 0) + 0) with 0 by lia. cbn.
  assert (a = 0 \/ a = 1 \/ a = 2 \/ a = 3) as [->|[->|[->| ->]]] by lia; reflexivity.
Qed.
Example C42_hypotheses : let a := mknd 100 2 [1; 3; 2] [999; 4; 2] in let m := fun p => if (100 <=? p) && (p <? 112) then Some p else None in
  0 < a_item a /\ Forall (fun n => 0 <= n) (a_shape a) /\ c_contiguous (a_item a) (a_shape a) (a_strides a) /\ c_order m a (map (fun i => 100 + i) (zseq 12)).
Proof.
  cbv zeta. split; [cbn; lia|]. split; [repeat constructor; lia|]. split; [cbn; repeat split; (left; lia) || (right; reflexivity)|].
  split; [reflexivity|]. intros idx j Hb Hj. cbn in Hb, Hj. destruct idx as [|a [|b [|c [|d r]]]]; cbn in Hb; try tauto.
  assert (a = 0) as -> by lia. assert (b = 0 \/ b = 1 \/ b = 2) as [->|[->| ->]] by lia; assert (c = 0 \/ c = 1) as [->| ->] by lia; assert (j = 0 \/ j = 1) as [->| ->] by lia; reflexivity.
Qed.

(** *** C47 *)
(** what is shown depends on the secret only by its first five characters and whether there are more *)
Lemma substring_prefix : forall n s, (n <= String.length s)%nat -> exists t, s = (String.substring 0 n s ++ t)%string /\ String.length (String.substring 0 n s) = n.
Proof.
  induction n as [|n IH]; intros s H; [exists s; destruct s; auto|]. destruct s as [|c s]; [cbn in H; lia|]. cbn in H. destruct (IH s ltac:(lia)) as (t & A & B). exists t. cbn. rewrite <- A, B. auto.
Qed.
Theorem C47_repr_shows_at_most_five : forall e b k p rest rest',
  String.length p = 5%nat -> rest <> "" -> rest' <> "" ->
  s3_repr (mkpys3 e b k (p ++ rest)%string) = s3_repr (mkpys3 e b k (p ++ rest')%string) /\
  s3_repr (mkpys3 e b k (p ++ rest)%string) = ("S3Settings(endpoint='" ++ e ++ "', bucket_name='" ++ b ++ "', access_key_id='" ++ k ++ "', secret_access_key='" ++ p ++ "...')")%string.
Proof.
  intros e b k p rest rest' Hp H1 H2.
  assert (G : forall r, r <> "" -> s3_repr (mkpys3 e b k (p ++ r)%string) = ("S3Settings(endpoint='" ++ e ++ "', bucket_name='" ++ b ++ "', access_key_id='" ++ k ++ "', secret_access_key='" ++ p ++ "...')")%string).
  { intros r Hr. destruct p as [|c1 [|c2 [|c3 [|c4 [|c5 [|c6 p]]]]]]; cbn in Hp; try lia. destruct r as [|c r]; [congruence|]. cbn [String.length String.append]. unfold s3_repr. cbn [p_secret p_endpoint p_bucket p_key]. reflexivity. }
  split; [|apply G; auto]. rewrite !G; auto.
Qed.
(** a secret of at most five characters is shown whole: never more than five *)
Theorem C47_short : forall e b k s, (String.length s < 6)%nat ->
  s3_repr (mkpys3 e b k s) = ("S3Settings(endpoint='" ++ e ++ "', bucket_name='" ++ b ++ "', access_key_id='" ++ k ++ "', secret_access_key='" ++ s ++ "')")%string.
Proof. intros e b k s H. unfold s3_repr. cbn [p_secret p_endpoint p_bucket p_key]. rewrite (proj2 (Nat.ltb_lt _ _) H). reflexivity. Qed.
Example C47_hypotheses : s3_repr (mkpys3 "e" "b" "k" "secret-key") = "S3Settings(endpoint='e', bucket_name='b', access_key_id='k', secret_access_key='secre...')".
Proof. reflexivity. Qed.

(** *** C49: the settings given in Python are those the library gets *)
Fixpoint no_nul (s : string) : Prop := match s with EmptyString => True | String c r => c <> Ascii.zero /\ no_nul r end.
Lemma c_str_id : forall s, no_nul s -> c_str s = s.
Proof. induction s as [|c s IH]; cbn; auto. intros [A B]. rewrite (proj2 (Ascii.eqb_neq _ _) A), IH by auto. reflexivity. Qed.
Definition py_strings (p : py_settings) : list string :=
  q_path p :: match q_meta p with Some s => [s] | None => [] end
  ++ match q_s3 p with Some s => [p_endpoint s; p_bucket s; p_key s; p_secret s] | None => [] end
  ++ map q_name (q_dims p).
(** Full statement: for all strings. False: C49_refuted. *)
Theorem C49_settings_unchanged_partial : forall p, Forall no_nul (py_strings p) ->
  let st := py_create_settings p in
  st_path st = Some (q_path p) /\ st_meta st = q_meta p /\ st_multi st = q_multi p /\ st_dtype st = q_dtype p /\ st_version st = q_version p /\
  st_s3 st = option_map (fun s => mks3set (Some (p_endpoint s)) (Some (p_bucket s)) (Some (p_key s)) (Some (p_secret s))) (q_s3 p) /\
  st_comp st = option_map (fun c => mkcompset (q_compressor c) (q_codec c) (q_level c) (q_shuffle c)) (q_comp p) /\
  (q_dims p <> [] -> st_dims st = Some (map (fun d => mkudim (Some (q_name d)) (q_type d) (q_array d) (q_chunk d) (q_shard d)) (q_dims p))).
Proof.
  intros p H. unfold py_strings in H. inversion H as [|? ? H1 H2]; subst. apply Forall_app in H2 as [H2 H3]. apply Forall_app in H3 as [H3 H4]. unfold py_create_settings. cbn [st_path st_meta st_multi st_dtype st_version st_s3 st_comp st_dims].
  split; [rewrite c_str_id by auto; reflexivity|]. split; [destruct (q_meta p) as [m|]; cbn; auto; inversion H2; rewrite c_str_id by auto; reflexivity|]. split; auto. split; auto. split; auto.
  split; [destruct (q_s3 p) as [s|]; cbn; auto; inversion H3 as [|? ? A B]; subst; inversion B as [|? ? A2 B2]; subst; inversion B2 as [|? ? A3 B3]; subst; inversion B3 as [|? ? A4 B4]; subst; rewrite !c_str_id by auto; reflexivity|].
  split; [reflexivity|]. intros HD. assert (X : map (fun d => mkudim (Some (c_str (q_name d))) (q_type d) (q_array d) (q_chunk d) (q_shard d)) (q_dims p) = map (fun d => mkudim (Some (q_name d)) (q_type d) (q_array d) (q_chunk d) (q_shard d)) (q_dims p)).
  { apply map_ext_in. intros d Hd. rewrite c_str_id; auto. rewrite Forall_forall in H4. apply H4. apply in_map. exact Hd. }
  rewrite <- X. destruct (q_dims p); [congruence|reflexivity].
Qed.
(** a NUL character ends the path *)
Theorem C49_refuted : exists p, q_path p <> "out" /\ st_path (py_create_settings p) = Some "out".
Proof. exists (mkpyset ("out" ++ String Ascii.zero "put.zarr")%string None None None [] false 0 2). split; [discriminate|reflexivity]. Qed.
Example C49_hypotheses : Forall no_nul (py_strings (mkpyset "out.zarr" (Some "{}") (Some (mkpys3 "e" "b" "k" "s")) None [mkpydim "t" 2 0 1 1; mkpydim "y" 0 4 2 1; mkpydim "x" 0 4 2 1] false 0 2)).
Proof. repeat constructor; discriminate. Qed.

(** *** C43 *)
Lemma concat_total (bufs : list (list Z)) : forall t, fold_left (fun t b => t + zlen b) bufs t = t + zlen (List.concat bufs).
Proof. induction bufs as [|b l IH]; intros t; cbn; [change (zlen (@nil Z)) with 0; lia|]. rewrite IH, zlen_app. lia. Qed.
Lemma s32_small x : 0 <= x < 2 ^ 31 -> s32 x = x.
Proof. intros H. unfold s32. rewrite Z.mod_small by lia. rewrite (proj2 (Z.ltb_lt x (2 ^ 31))) by lia. reflexivity. Qed.
(** Offsets below 2 GiB, at most 1024 buffers: the file gets some prefix of the concatenation of the buffers at [offset], and success is
    reported exactly if this is all of it. [n] is the number of bytes the system accepts. Full statement: for all offsets and numbers of
    buffers; false: C43_refuted. *)
Theorem C43_offset_partial : forall file bufs offset n,
  0 <= offset < 2 ^ 31 -> zlen bufs <= 1024 -> 0 <= n <= zlen (List.concat bufs) ->
  let '(file', ok) := write_vectors file bufs offset (Some n) in
  (0 < n -> file' = write_at file offset (firstn (Z.to_nat n) (List.concat bufs))) /\ (n = 0 -> file' = file) /\
  (ok = true <-> n = zlen (List.concat bufs)).
Proof.
  intros file bufs offset n Ho Hb Hn. unfold write_vectors, pwritev. pose proof (zlen_nonneg bufs). rewrite !s32_small by lia.
  rewrite (proj2 (Z.ltb_ge offset 0)) by lia. rewrite (proj2 (Z.ltb_ge (zlen bufs) 0)) by lia. rewrite (proj2 (Z.ltb_ge iov_max (zlen bufs))) by (unfold iov_max; lia). cbn [orb].
  assert (F : firstn (Z.to_nat (zlen bufs)) bufs = bufs) by (unfold zlen; rewrite Nat2Z.id; apply firstn_all). rewrite F.
  replace (Z.max 0 (Z.min n (zlen (List.concat bufs)))) with n by lia. rewrite concat_total, Z.add_0_l. split; [|split].
  - intros H1. rewrite (proj2 (Z.eqb_neq n 0)) by lia. reflexivity.
  - intros ->. reflexivity.
  - apply Z.eqb_eq.
Qed.
(** a failing call changes nothing, and is reported if there is something to write (here with no buffers too, as -1 <> 0) *)
Theorem C43_failure : forall file bufs offset, write_vectors file bufs offset None = (file, false).
Proof.
  intros file bufs offset. unfold write_vectors, pwritev. destruct (_ || _); rewrite concat_total, Z.add_0_l; pose proof (zlen_nonneg (List.concat bufs)); rewrite (proj2 (Z.eqb_neq (-1) (zlen (List.concat bufs)))) by lia; reflexivity.
Qed.
(** At offset 4 GiB everything is reported as written, and the data are at offset 0. *)
Theorem C43_refuted : exists file bufs offset, write_vectors file bufs offset (Some (zlen (List.concat bufs))) = ([9; 9; 1], true) /\ bufs = [[9]; [9]] /\ file = [1; 1; 1] /\ offset = 2 ^ 32.
Proof. exists [1; 1; 1], [[9]; [9]], (2 ^ 32). repeat split. Qed.
(** What happens for every offset and up to 2^31 buffers: only the low 32 bits of the offset count. In the upper half of them, and with more than
    1024 buffers, nothing is written and a failure is reported; otherwise the data go to the offset modulo 2^32. *)
Theorem C43_every_offset : forall file bufs offset n,
  0 <= offset -> zlen bufs < 2 ^ 31 -> 0 <= n <= zlen (List.concat bufs) ->
  (1024 < zlen bufs \/ 2 ^ 31 <= offset mod 2 ^ 32 -> write_vectors file bufs offset (Some n) = (file, false)) /\
  (zlen bufs <= 1024 -> offset mod 2 ^ 32 < 2 ^ 31 -> write_vectors file bufs offset (Some n) = write_vectors file bufs (offset mod 2 ^ 32) (Some n)).
Proof.
  intros file bufs offset n Ho Hb Hn. pose proof (zlen_nonneg bufs). pose proof (zlen_nonneg (List.concat bufs)). pose proof (Z.mod_pos_bound offset (2 ^ 32) ltac:(lia)) as B.
  assert (S : s32 offset = if offset mod 2 ^ 32 <? 2 ^ 31 then offset mod 2 ^ 32 else offset mod 2 ^ 32 - 2 ^ 32) by reflexivity. split.
  - intros C. unfold write_vectors, pwritev. rewrite (s32_small (zlen bufs)) by lia. rewrite concat_total, Z.add_0_l.
    assert (X : (s32 offset <? 0) || (zlen bufs <? 0) || (iov_max <? zlen bufs) = true).
    { destruct C as [C|C]; [rewrite (proj2 (Z.ltb_lt iov_max (zlen bufs))) by (unfold iov_max; lia); apply orb_true_r|]. rewrite S, (proj2 (Z.ltb_ge _ _) C), (proj2 (Z.ltb_lt _ _)); [reflexivity|lia]. }
    rewrite X. rewrite (proj2 (Z.eqb_neq (-1) _)) by lia. reflexivity.
  - intros C1 C2. unfold write_vectors. rewrite S, (proj2 (Z.ltb_lt _ _) C2), (s32_small (offset mod 2 ^ 32)) by lia. reflexivity.
Qed.
Example C43_every_offset_hypotheses : write_vectors [1; 1] [[9]; [8]] (3 * 2 ^ 32 + 1) (Some 2) = ([1; 9; 8], true) /\
  write_vectors [1; 1] [[9]; [8]] (2 ^ 31) (Some 2) = ([1; 1], false) /\ snd (write_vectors [1; 1] (repeat [9] 1025) 0 (Some 1025)) = false.
Proof. repeat split. Qed.
(** the rounding: the least multiple of the page size that is not below [size] *)
Theorem C43_align : forall k size, 0 <= k < 64 -> 0 <= size -> size + 2 ^ k - 1 < 2 ^ 64 ->
  let r := align_size (2 ^ k) size in r mod 2 ^ k = 0 /\ size <= r < size + 2 ^ k.
Proof.
  intros k size Hk Hs Hb. cbv zeta. unfold align_size, align_to_page. assert (P : 0 < 2 ^ k) by (apply Z.pow_pos_nonneg; lia). unfold u64. rewrite (Z.mod_small (size + 2 ^ k - 1)) by lia.
  set (x := size + 2 ^ k - 1) in *. assert (Hx : 0 <= x < 2 ^ 64) by (unfold x; lia).
  assert (R : Z.land x (Z.lnot (2 ^ k - 1) mod 2 ^ 64) = x / 2 ^ k * 2 ^ k).
  { rewrite <- (Z.land_ones (Z.lnot (2 ^ k - 1)) 64) by lia. rewrite (Z.land_comm (Z.lnot _)), Z.land_assoc, Z.land_ones, Z.mod_small by lia.
    replace (2 ^ k - 1) with (Z.ones k) by (rewrite Z.ones_equiv; lia). change (Z.land x (Z.lnot (Z.ones k))) with (Z.land x (Z.lnot (Z.ones k))). rewrite <- Z.ldiff_land, Z.ldiff_ones_r by lia. rewrite Z.shiftl_mul_pow2, Z.shiftr_div_pow2 by lia. reflexivity. }
  rewrite R. split; [apply Z.mod_mul; lia|]. pose proof (Z.div_mod x (2 ^ k) ltac:(lia)) as D. pose proof (Z.mod_pos_bound x (2 ^ k) P). unfold x in *. lia.
Qed.
Example C43_hypotheses : write_vectors [1; 1; 1] [[9]; [8; 7]] 2 (Some 3) = ([1; 1; 9; 8; 7], true) /\ write_vectors [] [[9]; [8; 7]] 0 (Some 2) = ([9; 8], false) /\ align_size (2 ^ 12) 4097 = 8192.
Proof. repeat split. Qed.

Print Assumptions C42_contiguous_partial.
Print Assumptions C42_refuted.
Print Assumptions C42_reads_outside.
Print Assumptions C47_repr_shows_at_most_five.
Print Assumptions C47_short.
Print Assumptions C49_settings_unchanged_partial.
Print Assumptions C49_refuted.
Print Assumptions C43_offset_partial.
Print Assumptions C43_failure.
Print Assumptions C43_refuted.
Print Assumptions C43_every_offset.
Print Assumptions C43_align.
