(** C56: the image data a stream keeps in memory does not grow with the number of frames. Vocabulary: MemSpec.v. (The images of a multiscale
    stream that wait for their neighbour, and the lost ones, are C30.) *)
Require Import ZArith List Bool String Ascii Lia.
Require Import Verif.Base Verif.Spec Verif.Radix Verif.Dim Verif.Json Verif.World Verif.Writer Verif.FrameProofs Verif.Stream Verif.Api Verif.OpenSpec Verif.OpenProofs Verif.BoundProofs Verif.PropsReport Verif.PropsOpen Verif.MemSpec Verif.MemProofs.
Import ListNotations.
Open Scope string_scope. Open Scope list_scope. Open Scope Z_scope.

(** *** Without compression *)
Definition plan (st : settings) : Z * list config :=
  match commit st with
  | Ok s0 => match bytes_of_frame (s_dims s0) (s_dtype s0) with
             | Ok n => match create_writers (set_fbuf s0 (zrep 0 n) 0) with Ok ws => (zlen (zrep 0 n), map a_cfg ws) | _ => (0, []) end
             | _ => (0, []) end
  | _ => (0, []) end.
Lemma plan_ok E st w w1 s : api_create E (Some st) w = (w1, Ok (Some s)) -> plan st = (zlen (s_fbuf s), map a_cfg (s_writers s)) /\ Forall (fun c => c_comp c = option_map blosc_of (st_comp st)) (map a_cfg (s_writers s)).
Proof.
  intros C. destruct (create_mem _ _ _ _ _ C) as (s0 & n & D1 & D2 & D3 & D4). unfold plan. rewrite D1, D2, D3, D4. split; [reflexivity|].
  apply writers_comp in D3. assert (X : s_comp s0 = option_map blosc_of (st_comp st)) by (unfold commit in D1; destruct (make_dimensions _); try discriminate; cbn [obind] in D1; injection D1 as <-; reflexivity).
  apply Forall_forall. intros c Hc. apply in_map_iff in Hc as (a & <- & Ha). rewrite Forall_forall in D3. rewrite <- X. apply (D3 a Ha).
Qed.
Lemma room_split F f shape : room F f shape = room F 0 shape + f * total (map (fun c => count0 c * grow c) shape).
Proof. unfold room. induction shape as [|c l IH]; cbn [map total fold_right] in *; [lia|]. fold (total (map (fun c => count0 c * (size0 c + grow c * f)) l)) in *. fold (total (map (fun c => count0 c * (size0 c + grow c * 0)) l)) in *. fold (total (map (fun c => count0 c * grow c) l)) in *. lia. Qed.
Lemma no_growth shape : Forall (fun c => c_comp c = None) shape -> total (map (fun c => count0 c * grow c) shape) = 0.
Proof. induction 1 as [|c l X _ IH]; [reflexivity|]. cbn [map total fold_right]. unfold total in IH. rewrite IH. unfold grow. rewrite X. lia. Qed.
(** For all settings without compression there is a bound on the image data a stream keeps in memory between two calls: whatever is appended, in
    however many calls and frames, and whatever fails. *)
Theorem C56_uncompressed : forall st, st_comp st = None -> exists B, forall E w w1 s calls w2 s2 rs,
  api_create E (Some st) w = (w1, Ok (Some s)) -> api_appends E calls (s, w1) = ((s2, w2), Ok rs) -> waiting s2 <= B.
Proof.
  intros st N. exists (room (fst (plan st)) 0 (snd (plan st))). intros E w w1 s calls w2 s2 rs C A. destruct (plan_ok _ _ _ _ _ C) as [P Q]. rewrite N in Q. cbn [option_map] in Q. rewrite P. cbn [fst snd].
  pose proof (run_room E st w w1 s calls w2 s2 rs (or_intror Q) C A) as R. rewrite room_split, no_growth in R by exact Q. lia.
Qed.
(** *** With compression *)
(** The bound grows by a fixed amount with each append call that reports a failure (a failed flush leaves its compressed data in the buffers,
    where the next flush compresses it again). *)
Theorem C56_compressed_partial : forall st, exists B K, forall E w w1 s calls w2 s2 rs,
  honest_compressor E -> api_create E (Some st) w = (w1, Ok (Some s)) -> api_appends E calls (s, w1) = ((s2, w2), Ok rs) ->
  waiting s2 <= B + K * failed rs.
Proof.
  intros st. exists (room (fst (plan st)) 0 (snd (plan st))), (total (map (fun c => count0 c * grow c) (snd (plan st)))). intros E w w1 s calls w2 s2 rs H C A. destruct (plan_ok _ _ _ _ _ C) as [P Q]. rewrite P. cbn [fst snd].
  pose proof (run_room E st w w1 s calls w2 s2 rs (or_introl H) C A) as R. rewrite room_split in R. lia.
Qed.

(** *** The bound for a stream of one resolution *)
Lemma mul_fold_le (l : list dim) : forall n m, 0 <= n <= m -> Forall (fun d => 0 < d_chunk d) l ->
  0 <= fold_left (fun acc d => u64 (acc * d_chunk d)) l n <= m * fold_right (fun d k => d_chunk d * k) 1 l.
Proof.
  induction l as [|d l IH]; intros n m H F; cbn [fold_left fold_right]; [lia|]. inversion F as [|? ? F1 F2]; subst.
  assert (X : 0 <= u64 (n * d_chunk d) <= m * d_chunk d). { unfold u64. split; [apply Z.mod_pos_bound; lia|]. etransitivity; [apply Z.mod_le; nia|]. nia. }
  specialize (IH _ _ X F2). rewrite Z.mul_assoc. exact IH.
Qed.
Lemma size_le ds dt bpp : bytes_of_type dt = Ok bpp -> Forall (fun d => 0 < d_chunk d) ds -> 
  match bytes_per_chunk ds dt with Ok n => Z.max 0 n | _ => 0 end <= bpp * fold_right (fun d k => d_chunk d * k) 1 ds.
Proof.
  intros H F. unfold bytes_per_chunk. rewrite H. cbn [obind]. assert (B : 0 <= bpp) by (unfold bytes_of_type in H; repeat (destruct (_ || _) in H; [injection H as <-; lia|]); discriminate).
  pose proof (mul_fold_le ds bpp bpp ltac:(lia) F). lia.
Qed.
Lemma count_le (l : list udim) : forall n m, 0 <= n <= m -> Forall (fun d => 0 <= u_array d /\ 0 < u_chunk d) l -> 
  match ofold (fun acc d => let? n := chunks_along_dimension d in Ok (u32 (acc * n))) (map dim_of l) n with Ok k => 0 <= k <= m * fold_right (fun d n => ceil_div (u_array d) (u_chunk d) * n) 1 l | _ => False end.
Proof.
  induction l as [|d l IH]; intros n m H F; cbn [map ofold fold_right]; [lia|]. inversion F as [|? ? [F0 F1] F2]; subst.
  unfold chunks_along_dimension at 1. change (d_chunk (dim_of d)) with (u_chunk d). change (d_array (dim_of d)) with (u_array d). rewrite (proj2 (Z.ltb_lt 0 _)) by lia. cbn [obind].
  assert (N : 0 <= u32 (u_array d + u_chunk d - 1) / u_chunk d <= ceil_div (u_array d) (u_chunk d)).
  { unfold ceil_div. split; [apply Z.div_pos; [unfold u32; apply Z.mod_pos_bound; lia|lia]|]. apply Z.div_le_mono; [lia|]. apply u32_le. lia. }
  set (q := u32 _ / _) in *. set (c := ceil_div _ _) in *. assert (X : 0 <= u32 (n * q) <= m * c). { unfold u32. split; [apply Z.mod_pos_bound; lia|]. etransitivity; [apply Z.mod_le; nia|]. nia. }
  specialize (IH _ _ X F2). rewrite Z.mul_assoc. exact IH.
Qed.
(** A stream of one resolution keeps at most one frame, and the chunks (with their padding) of one row: those that have one index along the append
    dimension; with compression 16 bytes more for each of these chunks and each append call that failed. *)
Theorem C56_bound : forall E st ds bpp w w1 s calls w2 s2 rs,
  st_multi st = false -> st_dims st = Some ds -> bytes_of_type (st_dtype st) = Ok bpp ->
  Forall (fun d => 0 <= u_array d /\ 0 < u_chunk d) ds ->
  st_comp st = None \/ honest_compressor E ->
  api_create E (Some st) w = (w1, Ok (Some s)) -> api_appends E calls (s, w1) = ((s2, w2), Ok rs) ->
  waiting s2 <= frame_bytes bpp ds + row_bytes bpp ds + match st_comp st with None => 0 | Some _ => 16 * row_chunks ds * failed rs end.
Proof.
  intros E st ds bpp w w1 s calls w2 s2 rs M D T R HC C A. destruct (plan_ok _ _ _ _ _ C) as [_ Q]. destruct (create_mem _ _ _ _ _ C) as (s0 & n & D1 & D2 & D3 & D4).
  assert (RR : waiting s2 <= room (zlen (s_fbuf s)) (failed rs) (map a_cfg (s_writers s))).
  { eapply run_room; [|exact C|exact A]. destruct HC as [HC|HC]; [right; rewrite HC in Q; exact Q|left; exact HC]. }
  unfold commit in D1. rewrite D in D1. destruct (make_dimensions (map dim_of ds)) as [ds'| | |] eqn:MD; try discriminate. cbn [obind] in D1. injection D1 as <-.
  unfold make_dimensions in MD. destruct (Nat.ltb 2 (List.length (map dim_of ds))) eqn:L; [|discriminate]. apply Nat.ltb_lt in L. rewrite map_length in L. injection MD as <-.
  unfold create_writers in D3. cbn [s_v3 set_fbuf base_config s_dims s_dtype s_bucket s_root s_comp s_multi] in D3, D2. rewrite M in D3. set (c := base_config _) in D3. set (v := st_version st =? 3) in *.
  destruct (make_writer v c) as [a| | |] eqn:MW; try discriminate. cbn [obind] in D3. injection D3 as D3. rewrite <- D3 in *. cbn [map] in *. apply Forall_inv in Q.
  assert (X : c_dims (a_cfg a) = map dim_of ds /\ c_dtype (a_cfg a) = st_dtype st) by (unfold make_writer in MW; destruct v; [destruct (number_of_shards _); try discriminate; cbn [obind] in MW|]; injection MW as <-; split; reflexivity).
  destruct X as [X1 X2]. unfold room in RR. cbn [map total fold_right] in RR. rewrite Z.add_0_r in RR.
  assert (B0 : 0 < bpp) by (unfold bytes_of_type in T; repeat (destruct (_ || _) in T; [injection T as <-; lia|]); discriminate).
  assert (FB : zlen (s_fbuf s) <= frame_bytes bpp ds).
  { rewrite D4. unfold zlen, zrep. rewrite repeat_length. unfold bytes_of_frame in D2. rewrite T in D2. cbn [obind] in D2. injection D2 as <-. unfold frame_bytes.
    destruct (rev ds) as [|x [|y l]] eqn:RV; [apply (f_equal (@List.length _)) in RV; rewrite rev_length in RV; cbn in RV; lia|apply (f_equal (@List.length _)) in RV; rewrite rev_length in RV; cbn in RV; lia|].
    assert (DS : ds = rev l ++ [y; x]). { rewrite <- (rev_involutive ds), RV. cbn [rev]. rewrite <- app_assoc. reflexivity. } clear RV.
    assert (HY : height_dim (map dim_of ds) = dim_of y /\ width_dim (map dim_of ds) = dim_of x).
    { rewrite DS, map_app. unfold height_dim, width_dim, at_dim. rewrite !app_length. cbn [map List.length]. split.
      - replace (List.length (map dim_of (rev l)) + 2 - 2)%nat with (List.length (map dim_of (rev l)) + 0)%nat by lia. rewrite app_nth2_plus. reflexivity.
      - replace (List.length (map dim_of (rev l)) + 2 - 1)%nat with (List.length (map dim_of (rev l)) + 1)%nat by lia. rewrite app_nth2_plus. reflexivity. }
    destruct HY as [HY HX]. rewrite HY, HX. change (d_array (dim_of y)) with (u_array y). change (d_array (dim_of x)) with (u_array x).
    rewrite DS in R. apply Forall_app in R as [_ R]. inversion R as [|? ? [R1 _] R2]; subst. inversion R2 as [|? ? [R3 _] _]; subst.
    assert (V1 : 0 <= u64 (bpp * u_array y) <= bpp * u_array y) by (unfold u64; split; [apply Z.mod_pos_bound; lia|apply Z.mod_le; nia]).
    assert (V2 : 0 <= u64 (u64 (bpp * u_array y) * u_array x) <= bpp * u_array y * u_array x). { unfold u64 at 1 3. split; [apply Z.mod_pos_bound; lia|]. etransitivity; [apply Z.mod_le; nia|]. nia. }
    rewrite Z2Nat.id by lia. nia. }
  assert (SZ : 0 <= size0 (a_cfg a) <= bpp * fold_right (fun d n => u_chunk d * n) 1 ds).
  { unfold size0. rewrite X1, X2. assert (F : Forall (fun d => 0 < d_chunk d) (map dim_of ds)). { apply Forall_forall. intros d Hd. apply in_map_iff in Hd as (u & <- & Hu). rewrite Forall_forall in R. apply (R u Hu). }
    split; [destruct (bytes_per_chunk _ _); lia|]. etransitivity; [apply (size_le _ _ _ T F)|]. apply Z.eq_le_incl. f_equal. clear. induction ds as [|d l IH]; [reflexivity|]. cbn [map fold_right]. rewrite IH. reflexivity. }
  assert (CT : 0 <= count0 (a_cfg a) <= row_chunks ds).
  { unfold count0. rewrite X1. unfold number_of_chunks_in_memory, row_chunks. assert (TL : tl (map dim_of ds) = map dim_of (tl ds)) by (destruct ds; reflexivity). rewrite TL.
    assert (F : Forall (fun d => 0 <= u_array d /\ 0 < u_chunk d) (tl ds)) by (destruct ds; [constructor|inversion R; assumption]).
    pose proof (count_le (tl ds) 1 1 ltac:(lia) F) as G. destruct (ofold _ _ _); [|contradiction..]. lia. }
  assert (FN : 0 <= failed rs) by (unfold failed, zlen; lia).
  unfold row_bytes. unfold grow in RR. rewrite Q in RR. destruct (st_comp st) as [cs|]; cbn [option_map] in RR.
  - transitivity (frame_bytes bpp ds + row_chunks ds * (bpp * fold_right (fun d n => u_chunk d * n) 1 ds + 16 * failed rs)); [|lia]. etransitivity; [exact RR|]. apply Z.add_le_mono; [exact FB|]. apply Z.mul_le_mono_nonneg; lia.
  - transitivity (frame_bytes bpp ds + row_chunks ds * (bpp * fold_right (fun d n => u_chunk d * n) 1 ds)); [|lia]. etransitivity; [exact RR|]. apply Z.add_le_mono; [exact FB|]. apply Z.mul_le_mono_nonneg; lia.
Qed.

(** *** Buffers of objects *)
Lemma filter_le {A} (p : A -> bool) l : zlen (filter p l) <= zlen l.
Proof. unfold zlen. induction l as [|a l IH]; cbn [filter List.length]; [lia|]. destruct (p a); cbn [List.length]; lia. Qed.
Lemma objects_le shape s w : Ft shape (s, w) -> object_buffers s <= bound shape.
Proof.
  intros [X Y]. cbn [fst] in *. unfold object_buffers, bound. etransitivity; [apply filter_le|]. unfold zlen. rewrite app_length, map_length.
  assert (G : Z.of_nat (List.length (flat_map (fun a => a_meta a :: a_sinks a) (s_writers s))) <= fold_right (fun (x : config * bool) n => Z.of_nat (plen (c_dims (fst x)) (if snd x then shards_along_dimension else chunks_along_dimension)) + 1 + n) 0 shape); [|lia].
  clear -X. unfold few_all in X. induction X as [|[c v] a l1 l2 F G IH]; cbn [flat_map fold_right List.length fst snd]; [lia|]. destruct F as (F1 & F2 & F3). rewrite app_length. cbn [List.length]. unfold slots_of, parts_along in F3. rewrite F1, F2 in F3. cbn [fst snd] in *. lia.
Qed.
(** The number of buffers for parts of objects, of 5 MiB each, is bounded too: by a number that depends on the settings only. *)
Theorem C56_object_buffers : forall st, exists B, forall E w w1 s calls w2 s2 r,
  api_create E (Some st) w = (w1, Ok (Some s)) -> api_appends E calls (s, w1) = ((s2, w2), r) -> object_buffers s2 <= B.
Proof.
  intros st. set (o := match commit st with Ok s0 => match bytes_of_frame (s_dims s0) (s_dtype s0) with Ok n => create_writers (set_fbuf s0 (zrep 0 n) 0) | _ => UB end | _ => UB end).
  exists (match o with Ok ws => bound (shape_of ws) | _ => 0 end). intros E w w1 s calls w2 s2 r C A. destruct (create_few _ _ _ _ _ C) as [F (s0 & n & D1 & D2 & D3)].
  assert (X : o = Ok (s_writers s)) by (unfold o; rewrite D1, D3, D2; reflexivity). rewrite X. destruct (ft_appends E _ calls (s, w1) F) as [G _]. rewrite A in G. eapply objects_le; eauto.
Qed.

(** *** What the code does not do *)
(** Full statement: with compression, too, the memory is bounded by a number that depends on the settings only. False: the server refuses every
    request after the stream has been created; incompressible data. Every append call fails, and each one makes the stream 16 bytes larger. *)
Definition gx_env : env := mkenv (fun _ => None) (fun _ => false) (fun _ _ => None) (fun _ => false) (fun k => Nat.ltb k 3) 1 (fun _ _ d => Some (d ++ repeat 0 16)) (fun _ => true) (fun s => if String.eqb s "{}" then Some "{}" else None) (fun _ _ => true).
Definition gx_set : settings :=
  mksettings (Some "out") None (Some (mks3set (Some "http://host") (Some "bucket") (Some "key") (Some "secret"))) (Some (mkcompset 1 1 1 0))
    (Some [mkudim (Some "t") ty_time 0 1 1; mkudim (Some "y") ty_space 1 1 1; mkudim (Some "x") ty_space 1 1 1]) false dt_uint8 2.
Lemma gx_honest : honest_compressor gx_env.
Proof. intros p n d out X. injection X as <-. unfold zlen. rewrite app_length. cbn [List.length]. lia. Qed.
Definition gx_1 : TW := Eval vm_compute in match api_create gx_env (Some gx_set) (mkworld [] 0 0 "") with (w1, Ok (Some s)) => fst (api_appends gx_env [[1]] (s, w1)) | (w1, _) => (mkstream false "" None None "" 0 [] false [] 0 [] [] [] 0, w1) end.
Definition gx_a (r : list Z) (k : Z) : writer := match s_writers (fst gx_1) with a :: _ => set_frames (set_toflush (set_bufs a [1 :: r]) k) k | [] => mkwriter rx_cfg true [] 0 0 0 false [] None [] [] end.
Definition gx_s (r : list Z) (k : Z) : stream := set_writers (fst gx_1) [gx_a r k].
Lemma gx_frame r k : 0 < k < 2 ^ 31 -> exists m, write_frame gx_env [1] (gx_a r k, snd gx_1) = ((gx_a (r ++ repeat 0 16) (k + 1), snd gx_1), Throw m).
Proof.
  intros K. set (ds := [mkdim "t" ty_time 0 1 1; mkdim "y" ty_space 1 1 1; mkdim "x" ty_space 1 1 1]).
  assert (D : c_dims (a_cfg (gx_a r k)) = ds) by (vm_compute; reflexivity).
  assert (T : tile_group_offset ds k = Ok 0) by reflexivity.
  assert (C : chunk_internal_offset ds 0 k = Ok 0).
  { transitivity (@Ok Z (u64 (u64 (0 + u64 ((k / 1) mod 1 * 1)) * u64 (u64 (1 * 1) * 1)))); [reflexivity|]. rewrite Z.mod_1_r. reflexivity. }
  assert (WF : write_frame_to_chunks (gx_a r k) [1] = Ok ([1 :: r], 1)).
  { unfold write_frame_to_chunks. rewrite D. change (a_frames (gx_a r k)) with k. change (c_dtype (a_cfg (gx_a r k))) with 0. change (a_bufs (gx_a r k)) with [1 :: r]. rewrite T, C. cbn [obind].
    change (bytes_of_type 0) with (@Ok Z 1). cbn [obind]. change (d_array (width_dim ds)) with 1. change (d_array (height_dim ds)) with 1. change (d_chunk (width_dim ds)) with 1. change (d_chunk (height_dim ds)) with 1.
    change ((1 =? 0) || (1 =? 0)) with false. cbv iota zeta. change (int_range (u32 (1 + 1 - 1) / 1)) with (@Ok (list Z) [0]). change (int_range 1) with (@Ok (list Z) [0]). cbn [obind].
    assert (CR : copy_row [1] 1 1 1 1 1 (s64 0) 0 0 (1 :: r, 0) 0 = Ok ((1 :: r, 1), false)).
    { assert (Z1 : (zlen (1 :: r) - 0 <? 1) = false) by (apply Z.ltb_ge; unfold zlen; cbn [List.length]; lia).
      unfold copy_row. cbv iota zeta. change (s64 0 + 0 * u64 (1 * 1)) with 0. change (s64 (u64 (u32 (Z.min (u32 (u32 (0 * 1) + 1)) 1 - u32 (0 * 1)) * 1))) with 1. rewrite Z1. reflexivity. }
    cbn [floop]. change (Z.to_nat (u32 (u32 (0 + u32 (0 * (u32 (1 + 1 - 1) / 1))) + 0))) with 0%nat. cbn [nth_error]. rewrite CR. reflexivity. }
  unfold write_frame. unfold bind at 1, getA. cbn [fst]. unfold bind at 1, liftM. change (bytes_of_frame _ _) with (@Ok Z 1). cbv iota beta. change (negb (1 =? zlen [1])) with false. cbv iota. unfold bind at 1. change (a_bufs (gx_a r k)) with [1 :: r]. cbv iota. unfold ret at 1. cbv iota beta.
  unfold bind at 1. cbn [fst]. unfold bind at 1. rewrite WF. cbv iota beta. unfold bind at 1, modA at 1. cbn [fst snd]. unfold bind at 1. change (1 =? zlen [1]) with true. unfold expectM at 1. cbv iota beta. unfold bind at 1, modA at 1. cbn [fst snd].
  unfold ret at 1. cbv iota beta. cbn [fst snd]. match goal with |- context [set_frames ?x ?y] => set (a1 := set_frames x y) end. assert (A1 : a1 = gx_a r (k + 1)).
  { unfold a1. change (a_toflush (set_bufs (gx_a r k) [1 :: r])) with k. change (a_frames (set_bufs (gx_a r k) [1 :: r])) with k. rewrite u64_id, u32_id by lia. reflexivity. }
  clearbody a1. subst a1. unfold bind at 1. cbn [fst]. unfold bind at 1.
  assert (SF : should_flush (gx_a r (k + 1)) = Ok true). { unfold should_flush. change (c_dims _) with ds. change (frames_before_flush ds (d_chunk (final_dim ds))) with 1. change (0 <? 1) with true. cbv iota. change (a_frames _) with (k + 1). rewrite Z.mod_1_r. reflexivity. }
  rewrite SF. cbv iota beta. unfold bind at 1. unfold flush. unfold bind at 1, getA at 1. cbn [fst]. change (a_toflush (gx_a r (k + 1))) with (k + 1). rewrite (proj2 (Z.eqb_neq (k + 1) 0)) by lia.
  unfold bind at 1. 
  assert (CB : compress_buffers gx_env (gx_a r (k + 1), snd gx_1) = ((gx_a (r ++ repeat 0 16) (k + 1), snd gx_1), Ok tt)) by reflexivity. rewrite CB. cbv iota beta. unfold bind at 1.
  assert (FL : flush_impl gx_env (gx_a (r ++ repeat 0 16) (k + 1), snd gx_1) = ((gx_a (r ++ repeat 0 16) (k + 1), snd gx_1), Throw "CHECK(data_sinks_.empty())")) by reflexivity. rewrite FL. eauto.
Qed.
Lemma gx_append r k : 0 < k < 2 ^ 31 -> api_append gx_env (Some [1]) true (gx_s r k, snd gx_1) = ((gx_s (r ++ repeat 0 16) (k + 1), snd gx_1), Ok (st_internal_error, None)).
Proof.
  intros K. destruct (gx_frame r k K) as [m H]. unfold api_append, catchM. unfold bind at 1. unfold append. unfold bind at 1, onT, getM. cbn [fst snd]. unfold bind at 1. change (String.eqb (World.w_err (snd gx_1)) "") with true. unfold expectM. cbv iota beta.
  assert (X : append_loop gx_env 2 [1] 0 0 (gx_s r k, snd gx_1) = ((gx_s (r ++ repeat 0 16) (k + 1), snd gx_1), Throw m)).
  { cbn [append_loop]. change (0 <? zlen [1]) with true. cbv iota. unfold bind at 1, getT. cbn [fst]. cbv zeta. change (s_foff (gx_s r k)) with 0. change (zlen (s_fbuf (gx_s r k))) with 1. change (0 <? 0) with false. change (zlen [1] - 0 <? 1) with false. change (zlen [1] <? 0 + 1) with false. cbv iota.
    change (slice [1] 0 1) with [1]. unfold bind at 1, on_writer at 1. change (nth_error (s_writers (gx_s r k)) 0) with (Some (gx_a r k)). cbv iota. rewrite H. reflexivity. }
  unfold ret at 1. cbv iota beta. change (S (List.length [1])) with 2%nat. rewrite X. reflexivity.
Qed.
Lemma gx_run : forall n r k, 0 < k -> k + Z.of_nat n < 2 ^ 31 -> exists rs, api_appends gx_env (repeat [1] n) (gx_s r k, snd gx_1) = ((gx_s (r ++ repeat 0 (16 * n)) (k + Z.of_nat n), snd gx_1), Ok rs) /\ Forall (fun x => fst x = st_internal_error) rs.
Proof.
  induction n as [|n IH]; intros r k K L.
  - exists []. cbn [repeat api_appends]. rewrite app_nil_r, Z.add_0_r. split; [reflexivity|constructor].
  - cbn [repeat api_appends]. unfold bind at 1. rewrite gx_append by lia. destruct (IH (r ++ repeat 0 16) (k + 1) ltac:(lia) ltac:(lia)) as (rs & A & B). unfold bind. rewrite A. exists ((st_internal_error, None) :: rs). split; [|constructor; [reflexivity|exact B]].
    rewrite <- app_assoc, <- repeat_app. replace (16 + 16 * n)%nat with (16 * S n)%nat by lia. replace (k + 1 + Z.of_nat n) with (k + Z.of_nat (S n)) by lia. reflexivity.
Qed.
Theorem C56_refuted : exists E st, honest_compressor E /\ forall B, 0 <= B < 2 ^ 30 ->
  exists w1 s calls w2 s2 rs, api_create E (Some st) (mkworld [] 0 0 "") = (w1, Ok (Some s)) /\ api_appends E calls (s, w1) = ((s2, w2), Ok rs) /\
    Forall (fun r => fst r = st_internal_error) rs /\ B < waiting s2.
Proof.
  exists gx_env, gx_set. split; [exact gx_honest|]. intros B HB.
  assert (X : match api_create gx_env (Some gx_set) (mkworld [] 0 0 "") with (w1, Ok (Some s)) => match api_append gx_env (Some [1]) true (s, w1) with (tw, Ok r) => tw = (gx_s (repeat 0 16) 1, snd gx_1) /\ fst r = st_internal_error | _ => False end | _ => False end) by (vm_compute; auto).
  destruct (api_create gx_env (Some gx_set) (mkworld [] 0 0 "")) as [w1 [[s|]|m| |]]; try contradiction. destruct (api_append gx_env (Some [1]) true (s, w1)) as [tw [r|m| |]] eqn:A; try contradiction. destruct X as [-> R].
  destruct (gx_run (Z.to_nat B) (repeat 0 16) 1 ltac:(lia) ltac:(lia)) as (rs & A2 & F). exists w1, s, ([1] :: repeat [1] (Z.to_nat B)). eexists _, _, (r :: rs).
  split; [reflexivity|]. split; [cbn [api_appends]; unfold bind; rewrite A, A2; reflexivity|]. split; [constructor; auto|].
  set (r' := repeat 0 16 ++ _). change (waiting (gx_s r' (1 + Z.of_nat (Z.to_nat B)))) with (1 + (zlen (1 :: r') + 0 + 0)). unfold zlen, r'. cbn [List.length]. rewrite app_length, !repeat_length. lia.
Qed.

(** *** The hypotheses can be met *)
(** three frames into chunks of two frames on the file system: after the first and third the frame waits in its chunk *)
Example C56_uncompressed_hypotheses : st_comp (fx_set 2 None) = None /\ exists w1 s w2 s2 rs,
  api_create (fx_env (fun _ => false)) (Some (fx_set 2 None)) (mkworld [] 0 0 "") = (w1, Ok (Some s)) /\
  api_appends (fx_env (fun _ => false)) [[1; 2; 3; 4]; [5; 6; 7; 8]; [9; 10; 11; 12]] (s, w1) = ((s2, w2), Ok rs) /\ failed rs = 0 /\ waiting s2 = 12.
Proof.
  split; [reflexivity|]. assert (X : match api_create (fx_env (fun _ => false)) (Some (fx_set 2 None)) (mkworld [] 0 0 "") with
    | (w1, Ok (Some s)) => match api_appends (fx_env (fun _ => false)) [[1; 2; 3; 4]; [5; 6; 7; 8]; [9; 10; 11; 12]] (s, w1) with ((s2, w2), Ok rs) => failed rs = 0 /\ waiting s2 = 12 | _ => False end | _ => False end) by (vm_compute; auto).
  destruct (api_create _ _ _) as [w1 [[s|]|m| |]] eqn:C; try contradiction. destruct (api_appends _ _ _) as [[s2 w2] [rs|m| |]] eqn:A; try contradiction. exists w1, s, w2, s2, rs. auto.
Qed.
(** the bound of C56_bound is met exactly: 4 bytes for a frame and 8 for the only chunk of a row *)
Example C56_bound_exact : exists ds, st_dims (fx_set 2 None) = Some ds /\ bytes_of_type (st_dtype (fx_set 2 None)) = Ok 1 /\ Forall (fun d => 0 <= u_array d /\ 0 < u_chunk d) ds /\ frame_bytes 1 ds + row_bytes 1 ds = 12.
Proof. eexists. split; [reflexivity|]. split; [reflexivity|]. split; [repeat constructor; cbn; lia|reflexivity]. Qed.
(** buffers of objects are in use while a stream to S3 is appended to *)
Example C56_object_buffers_hypotheses : exists w1 s, api_create gx_env (Some gx_set) (mkworld [] 0 0 "") = (w1, Ok (Some s)) /\ 0 < object_buffers s.
Proof.
  assert (X : match api_create gx_env (Some gx_set) (mkworld [] 0 0 "") with (w1, Ok (Some s)) => (0 <? object_buffers s) = true | _ => False end) by (vm_compute; reflexivity).
  destruct (api_create _ _ _) as [w1 [[s|]|m| |]] eqn:C; try contradiction. exists w1, s. split; [reflexivity|]. apply Z.ltb_lt. exact X.
Qed.
Print Assumptions C56_uncompressed.
Print Assumptions C56_compressed_partial.
Print Assumptions C56_bound.
Print Assumptions C56_object_buffers.
Print Assumptions C56_refuted.
