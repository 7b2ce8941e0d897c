(** The write jobs of a flush to S3: each works on its own sink, its own upload and its own shard table. *)
Require Import ZArith List Bool String Lia.
Require Import Verif.Base Verif.Dim Verif.World Verif.Writer Verif.Radix Verif.SinkProofs Verif.S3Spec Verif.S3Proofs Verif.Pool Verif.PoolSpec Verif.PoolProofs Verif.PoolBatch Verif.Jobs Verif.JobProofs Verif.ShardFile Verif.UploadSpec.
Import ListNotations.
Open Scope string_scope. Open Scope list_scope. Open Scope Z_scope.

(** *** events of uploads of one object *)
Definition own_ev (b k : string) (e : event) : Prop :=
  match e with EMpCreate b' k' _ => b' = b /\ k' = k | EMpPart b' k' _ _ _ => b' = b /\ k' = k | _ => False end.
Definition mine (b k : string) (w w' : world) : Prop :=
  (exists evs, w_trace w' = w_trace w ++ evs /\ Forall (own_ev b k) evs) /\ w_conns w' = w_conns w /\ w_err w' = w_err w.
Lemma mine_refl b k w : mine b k w w.
Proof. split; auto. exists []. rewrite app_nil_r. auto. Qed.
Lemma mine_trans b k w1 w2 w3 : mine b k w1 w2 -> mine b k w2 w3 -> mine b k w1 w3.
Proof. intros ((e1 & A1 & B1) & C1 & D1) ((e2 & A2 & B2) & C2 & D2). split; [|split; congruence]. exists (e1 ++ e2). rewrite A2, A1, app_assoc. split; auto. apply Forall_app; auto. Qed.

Lemma part_of_other b k evs : Forall (own_ev b k) evs -> forall tr b' k' id n, (b', k') <> (b, k) -> part_of (rev (tr ++ evs)) b' k' id n = part_of (rev tr) b' k' id n.
Proof.
  intros H tr b' k' id n N. rewrite rev_app_distr. apply Forall_rev in H. induction H as [|e l He H IH]; [reflexivity|]. cbn [app]. destruct e; cbn [own_ev] in He; try contradiction; destruct He as [-> ->]; cbn [part_of]; auto.
  destruct (String.eqb_spec b' b) as [->|]; cbn [andb]; auto. destruct (String.eqb_spec k' k) as [->|]; cbn [andb]; auto. contradiction.
Qed.
Lemma object_of_own E b k evs : Forall (own_ev b k) evs -> forall tr b' k', object_of E (tr ++ evs) b' k' = object_of E tr b' k'.
Proof.
  intros H tr b' k'. unfold object_of. rewrite rev_app_distr. apply Forall_rev in H. induction H as [|e l He H IH]; [reflexivity|]. cbn [app]. destruct e; cbn [own_ev] in He; try contradiction; cbn [object_rev]; auto.
Qed.
Lemma file_of_own E b k evs : Forall (own_ev b k) evs -> forall tr p, file_of E (tr ++ evs) p = file_of E tr p.
Proof. intros H tr p. rewrite file_of_app. induction H as [|e l He H IH] in tr |- *; [reflexivity|]. cbn [fold_left]. destruct e; cbn [own_ev] in He; try contradiction; cbn [file_step]; auto. Qed.
Lemma dir_of_own E b k evs : Forall (own_ev b k) evs -> forall tr p, dir_of E (tr ++ evs) p = dir_of E tr p.
Proof. intros H tr p. unfold dir_of. rewrite fold_left_app. f_equal. generalize (fold_left (dir_step p) tr (e_dir0 E p)) as c. induction H as [|e l He H IH]; intros c; [reflexivity|]. cbn [fold_left]. destruct e; cbn [own_ev] in He; try contradiction; cbn [dir_step]; auto. Qed.
Lemma part_of_new tr b k id n m d : n <> m -> part_of (rev (tr ++ [EMpPart b k id n d])) b k id m = part_of (rev tr) b k id m.
Proof. intros H. rewrite rev_app_distr. cbn. rewrite !String.eqb_refl, Z.eqb_refl. rewrite (proj2 (Z.eqb_neq m n)) by auto. reflexivity. Qed.
Lemma part_of_last tr b k id n d : part_of (rev (tr ++ [EMpPart b k id n d])) b k id n = d.
Proof. rewrite rev_app_distr. cbn. rewrite !String.eqb_refl, !Z.eqb_refl. reflexivity. Qed.
Lemma part_of_create tr b k id b' k' id' m : part_of (rev (tr ++ [EMpCreate b' k' id'])) b k id m = part_of (rev tr) b k id m.
Proof. rewrite rev_app_distr. reflexivity. Qed.

(** *** the sink without upload ids *)
Definition up_flush_part (u : upload) : upload * outcome bool :=
  if u_nbuf u =? 0 then (u, Ok false)
  else
    let l := match u_parts u with Some l => l | None => [] end in
    let d := slice (u_buf u) 0 (u_nbuf u) in
    let ok := negb (zlen d =? 0) in
    (mkup (u_bucket u) (u_key u) (u_buf u) 0 (u64 (u_nflush u + u_nbuf u)) (Some (if ok then l ++ [d] else l)), Ok ok).
Fixpoint up_loop (fuel : nat) (data : list Z) (u : upload) : upload * outcome bool :=
  match fuel with
  | O => (u, Hang)
  | S f =>
      if zlen data =? 0 then (u, Ok true)
      else if part_size <? u_nbuf u then (u, UB)
      else
        let n := Z.min (zlen data) (part_size - u_nbuf u) in
        let u1 := mkup (u_bucket u) (u_key u) (write_at (u_buf u) (u_nbuf u) (firstn (Z.to_nat n) data)) (u_nbuf u + n) (u_nflush u) (u_parts u) in
        let '(u2, r) := if u_nbuf u + n =? part_size then up_flush_part u1 else (u1, Ok true) in
        match r with Ok true => up_loop f (skipn (Z.to_nat n) data) u2 | _ => (u2, r) end
  end.
Definition up_write (off : Z) (data : list Z) (u : upload) : upload * outcome bool :=
  if zlen data =? 0 then (u, Ok true)
  else if off <? u_nflush u then (u, Ok false)
  else up_loop (2 * List.length data + 2) data (mkup (u_bucket u) (u_key u) (u_buf u) (off - u_nflush u) (u_nflush u) (u_parts u)).

Definition refines (m : M SW bool) (f : upload -> upload * outcome bool) : Prop := forall s w, sound_sink s -> (0 < w_conns w)%nat ->
  exists s1 w1, m (s, w) = ((s1, w1), snd (f (upload_of (w_trace w) s))) /\ upload_of (w_trace w1) s1 = fst (f (upload_of (w_trace w) s)) /\
    sound_sink s1 /\ World.s_bucket s1 = World.s_bucket s /\ s_key s1 = s_key s /\ mine (World.s_bucket s) (s_key s) w w1.

Section Up.
Variable E : env.
Hypothesis HE : forall n, e_s3 E n = true.

Lemma numbers_fresh n x : In x (map (fun i => Z.of_nat i + 1) (seq 0 n)) -> Z.of_nat n + 1 <> x.
Proof. intros H. apply in_map_iff in H as (i & <- & H). apply in_seq in H. lia. Qed.

Lemma upload_part_run b k id n d w : b <> "" -> k <> "" -> 0 < n -> s3_upload_part E b k id n d w =
  if zlen d =? 0 then (w, Throw "Number of bytes must be positive.") else (mkworld (w_trace w ++ [EMpPart b k id n d]) (S (w_tick w)) (w_conns w) (w_err w), Ok true).
Proof.
  intros Hb Hk Hn. unfold s3_upload_part, expectM, s3_request, bind, next_tick, ret, throwM, emit, modM. rewrite (proj2 (String.eqb_neq b ""%string) Hb), (proj2 (String.eqb_neq k ""%string) Hk). cbn [negb]. destruct (zlen d =? 0); cbn [negb]; auto. rewrite (proj2 (Z.eqb_neq n 0)) by lia. cbn [negb]. cbv beta iota. rewrite HE. reflexivity.
Qed.
Lemma create_run b k w : b <> "" -> k <> "" -> s3_create_multipart E b k w =
  (mkworld (w_trace w ++ [EMpCreate b k (Z.of_nat (w_tick w) + 1)]) (S (w_tick w)) (w_conns w) (w_err w), Ok (Z.of_nat (w_tick w) + 1)).
Proof.
  intros Hb Hk. unfold s3_create_multipart, expectM, s3_request, bind, next_tick, ret, throwM, emit, modM. rewrite (proj2 (String.eqb_neq b ""%string) Hb), (proj2 (String.eqb_neq k ""%string) Hk). cbn [negb]. cbv beta iota. rewrite HE. reflexivity.
Qed.

(** flush_part_ with an upload under way *)
Lemma flush_part_under id ns buf nbuf nfl b k w : b <> "" -> k <> "" -> (0 < w_conns w)%nat -> nbuf <> 0 -> id > 0 -> ns = map (fun i => Z.of_nat i + 1) (seq 0 (List.length ns)) ->
  let s := mks3 b k buf nbuf nfl (Some (id, ns)) in
  exists s1 w1, s3_flush_part E (s, w) = ((s1, w1), snd (up_flush_part (upload_of (w_trace w) s))) /\ upload_of (w_trace w1) s1 = fst (up_flush_part (upload_of (w_trace w) s)) /\
    sound_sink s1 /\ World.s_bucket s1 = b /\ s_key s1 = k /\ mine b k w w1.
Proof.
  intros Hb Hk HC HN HI HS s. destruct w as [tr tk [|cn] er]; [cbn in HC; lia|]. set (w := mkworld tr tk (S cn) er).
  unfold s3_flush_part, bind at 1, getS. unfold s. cbn [fst s_nbuf]. unfold up_flush_part, upload_of. cbn [u_nbuf s_nbuf World.s_bucket s_key s_mp s_buf s_nflush u_buf u_parts u_nflush u_bucket u_key]. rewrite (proj2 (Z.eqb_neq nbuf 0) HN).
  cbn [s_mp]. unfold bind at 1, ret at 1. unfold bind at 1, onW at 1, get_connection, w. cbn [w_conns w_trace w_tick w_err]. unfold bind at 1. cbn [fst s_mp World.s_bucket s_key s_buf s_nbuf s_nflush].
  unfold bind at 1, onW at 1, catchM. rewrite upload_part_run by (auto; unfold zlen; lia).
  assert (LN : zlen ns + 1 = Z.of_nat (List.length ns) + 1) by reflexivity.
  destruct (zlen (slice buf 0 nbuf) =? 0) eqn:EZ.
  - eexists _, _. split; [reflexivity|]. cbn [fst w_trace upload_of s_mp World.s_bucket s_key s_buf s_nbuf s_nflush]. split; [reflexivity|]. split; [split; [auto|split; [auto|cbn [s_mp]; auto]]|]. split; auto. split; auto. split; [exists []; split; [cbn [w_trace]; rewrite app_nil_r; reflexivity|constructor]|auto].
  - cbn [negb]. exists (mks3 b k buf 0 (u64 (nfl + nbuf)) (Some (id, ns ++ [zlen ns + 1]))), (mkworld (tr ++ [EMpPart b k id (zlen ns + 1) (slice buf 0 nbuf)]) (S tk) (S cn) er). split; [reflexivity|]. cbn [fst w_trace upload_of s_mp World.s_bucket s_key s_buf s_nbuf s_nflush negb]. split; [|split; [|split; [auto|split; [auto|]]]].
    + f_equal. f_equal. rewrite map_app. cbn [map]. rewrite part_of_last. f_equal. apply map_ext_in. intros x Hx. rewrite part_of_new; auto. rewrite LN. apply numbers_fresh. rewrite <- HS. exact Hx.
    + split; auto. split; auto. cbn [s_mp]. split; auto. rewrite app_length. cbn [List.length]. rewrite Nat.add_1_r, seq_S, map_app. cbn [map]. rewrite <- HS. reflexivity.
    + split; [|auto]. exists [EMpPart b k id (zlen ns + 1) (slice buf 0 nbuf)]. split; auto. constructor; [split; auto|constructor].
Qed.
Lemma flush_part_refines : refines (s3_flush_part E) up_flush_part.
Proof.
  intros s w (Hb & Hk & HM) HC. destruct s as [b k buf nbuf nfl mp]. cbn [World.s_bucket s_key s_mp] in *. destruct (Z.eq_dec nbuf 0) as [->|HN].
  { unfold s3_flush_part, bind at 1, getS. cbn [fst s_nbuf]. unfold up_flush_part, upload_of. cbn [u_nbuf s_nbuf World.s_bucket s_key s_mp s_buf s_nflush u_buf u_parts u_nflush u_bucket u_key Z.eqb].
    eexists _, _. split; [reflexivity|]. split; [reflexivity|]. split; [split; auto|]. split; auto. split; auto. apply mine_refl. }
  destruct mp as [[id ns]|]; [destruct HM as [HI HS]; apply flush_part_under; auto|].
  destruct w as [tr tk [|cn] er]; [cbn in HC; lia|]. set (w := mkworld tr tk (S cn) er) in *. set (id := Z.of_nat tk + 1). set (w' := mkworld (tr ++ [EMpCreate b k id]) (S tk) (S cn) er).
  assert (X : s3_flush_part E (mks3 b k buf nbuf nfl None, w) = s3_flush_part E (mks3 b k buf nbuf nfl (Some (id, [])), w')).
  { unfold s3_flush_part, bind at 1, getS at 1. cbn [fst s_nbuf]. symmetry. unfold bind at 1, getS at 1. cbn [fst s_nbuf]. rewrite (proj2 (Z.eqb_neq nbuf 0) HN). cbn [s_mp]. symmetry.
    unfold bind at 1. symmetry. unfold bind at 1, ret at 1. symmetry. replace (s3_create_upload E (mks3 b k buf nbuf nfl None, w)) with ((mks3 b k buf nbuf nfl (Some (id, [])), w'), Ok tt); [reflexivity|].
    unfold s3_create_upload, getS, putS, bind, onW. cbn [fst snd World.s_bucket s_key s_buf s_nbuf s_nflush]. unfold get_connection, w. cbn [w_conns w_trace w_tick w_err]. rewrite create_run by auto. reflexivity. }
  rewrite X. destruct (flush_part_under id [] buf nbuf nfl b k w' Hb Hk ltac:(cbn; lia) HN ltac:(unfold id; lia) eq_refl) as (s1 & w1 & A & B & C & D & F & G).
  exists s1, w1. assert (Y : up_flush_part (upload_of (w_trace w) (mks3 b k buf nbuf nfl None)) = up_flush_part (upload_of (w_trace w') (mks3 b k buf nbuf nfl (Some (id, []))))).
  { unfold up_flush_part, upload_of. cbn [u_nbuf s_nbuf World.s_bucket s_key s_mp s_buf s_nflush u_buf u_parts u_nflush u_bucket u_key map]. rewrite (proj2 (Z.eqb_neq nbuf 0) HN). reflexivity. }
  rewrite Y. split; auto. split; auto. split; auto. split; auto. split; auto. eapply mine_trans; [|exact G]. split; [|auto]. exists [EMpCreate b k id]. split; auto. constructor; [split; auto|constructor].
Qed.

Lemma write_loop_refines : forall fuel data, refines (s3_write_loop E fuel data) (up_loop fuel data).
Proof.
  induction fuel as [|f IH]; intros data s w HS HC; cbn [s3_write_loop up_loop].
  - exists s, w. split; [reflexivity|]. split; [reflexivity|]. split; auto. split; auto. split; auto. apply mine_refl.
  - destruct (zlen data =? 0); [exists s, w; split; [reflexivity|]; split; [reflexivity|]; split; auto; split; auto; split; auto; apply mine_refl|].
    unfold bind at 1, getS. cbn [fst]. change (u_nbuf (upload_of (w_trace w) s)) with (s_nbuf s).
    destruct (part_size <? s_nbuf s); [exists s, w; split; [reflexivity|]; split; [reflexivity|]; split; auto; split; auto; split; auto; apply mine_refl|].
    cbv zeta. set (n := Z.min (zlen data) (part_size - s_nbuf s)). unfold bind at 1, putS. cbn [snd].
    set (s0 := mks3 _ _ _ _ _ _). set (u1 := mkup _ _ _ _ _ _). assert (EU : upload_of (w_trace w) s0 = u1) by reflexivity. assert (S0 : sound_sink s0) by exact HS.
    unfold bind at 1. destruct (s_nbuf s + n =? part_size).
    + destruct (flush_part_refines s0 w S0 HC) as (s1 & w1 & A & B & C & D & F & G). rewrite EU in A, B. rewrite A. destruct (up_flush_part u1) as (u2 & r). cbn [fst snd] in *.
      destruct r as [[]|m| |]; try (exists s1, w1; split; [reflexivity|]; split; [exact B|]; split; auto; fail).
      destruct (IH (skipn (Z.to_nat n) data) s1 w1 C) as (s2 & w2 & A2 & B2 & C2 & D2 & F2 & G2). { destruct G as (_ & -> & _). exact HC. }
      rewrite B in A2, B2. exists s2, w2. split; [exact A2|]. split; [exact B2|]. split; auto. split; [rewrite D2; exact D|]. split; [rewrite F2; exact F|]. eapply mine_trans; [exact G|]. rewrite D, F in G2. exact G2.
    + unfold ret at 1. destruct (IH (skipn (Z.to_nat n) data) s0 w S0 HC) as (s2 & w2 & A2 & B2 & C2 & D2 & F2 & G2). rewrite EU in A2, B2. exists s2, w2. split; [exact A2|]. split; [exact B2|]. auto.
Qed.
Lemma write_refines off data : refines (s3_write E off data) (up_write off data).
Proof.
  intros s w HS HC. unfold s3_write, up_write. destruct (zlen data =? 0); [exists s, w; split; [reflexivity|]; split; [reflexivity|]; split; auto; split; auto; split; auto; apply mine_refl|].
  unfold bind at 1, getS. cbn [fst]. change (u_nflush (upload_of (w_trace w) s)) with (s_nflush s).
  destruct (off <? s_nflush s); [exists s, w; split; [reflexivity|]; split; [reflexivity|]; split; auto; split; auto; split; auto; apply mine_refl|].
  unfold bind at 1, putS. cbn [snd]. set (s0 := mks3 _ _ _ _ _ _). exact (write_loop_refines _ data s0 w HS HC).
Qed.

(** a write at the end succeeds *)
Definition up_ready (u : upload) (off : Z) : Prop := off = u_nflush u + u_nbuf u /\ 0 <= u_nflush u /\ 0 <= u_nbuf u < part_size /\ u_nbuf u <= zlen (u_buf u).
Lemma loop_ready : forall fuel data u off, (List.length data < fuel)%nat -> up_ready u off -> off + zlen data < 2 ^ 64 ->
  exists u', up_loop fuel data u = (u', Ok true) /\ up_ready u' (off + zlen data).
Proof.
  induction fuel as [|f IH]; intros data u off HF (R1 & R2 & R3 & R4) HB; [lia|]. cbn [up_loop]. destruct (Z.eqb_spec (zlen data) 0) as [Z0|Z0].
  - exists u. rewrite Z0, Z.add_0_r. split; auto. split; auto.
  - rewrite (proj2 (Z.ltb_ge part_size (u_nbuf u))) by lia. cbv zeta. set (n := Z.min (zlen data) (part_size - u_nbuf u)). assert (Hn : 0 < n <= zlen data /\ u_nbuf u + n <= part_size) by (pose proof (zlen_nonneg data); unfold n; lia).
    set (d1 := firstn (Z.to_nat n) data). assert (L1 : zlen d1 = n) by (unfold d1, zlen in *; rewrite firstn_length; lia).
    set (u1 := mkup _ _ _ _ _ _). assert (LW : u_nbuf u + n <= zlen (write_at (u_buf u) (u_nbuf u) d1)).
    { rewrite <- L1. apply write_at_len. lia. }
    assert (LS : zlen (skipn (Z.to_nat n) data) = zlen data - n) by (unfold zlen in *; rewrite skipn_length; lia).
    assert (LF : (List.length (skipn (Z.to_nat n) data) < f)%nat) by (rewrite skipn_length; unfold zlen in *; lia).
    destruct (Z.eqb_spec (u_nbuf u + n) part_size) as [EP|EP].
    + unfold up_flush_part. cbn [u_nbuf u1]. rewrite (proj2 (Z.eqb_neq (u_nbuf u + n) 0)) by lia. cbn [u_buf u_parts u_bucket u_key u_nflush u1]. 
      assert (NZ : zlen (slice (write_at (u_buf u) (u_nbuf u) d1) 0 (u_nbuf u + n)) =? 0 = false) by (apply Z.eqb_neq; rewrite slice_0_len; lia). rewrite NZ. cbn [negb].
      match goal with |- context [up_loop f _ ?v] => destruct (IH (skipn (Z.to_nat n) data) v (off + n) LF) as (u' & A & B) end.
      * split; cbn [u_nflush u_nbuf u_buf]; [rewrite u64_id by lia; lia|]. rewrite u64_id by lia. unfold part_size in *. split; [lia|]. split; [lia|]. apply zlen_nonneg.
      * lia.
      * exists u'. split; auto. rewrite LS in B. replace (off + zlen data) with (off + n + (zlen data - n)) by lia. exact B.
    + destruct (IH (skipn (Z.to_nat n) data) u1 (off + n) LF) as (u' & A & B).
      * split; cbn [u_nflush u_nbuf u_buf u1]; [lia|]. split; [lia|]. split; [lia|auto].
      * lia.
      * exists u'. split; auto. rewrite LS in B. replace (off + zlen data) with (off + n + (zlen data - n)) by lia. exact B.
Qed.
Lemma write_ready data u off : up_ready u off -> off + zlen data < 2 ^ 64 -> exists u', up_write off data u = (u', Ok true) /\ up_ready u' (off + zlen data).
Proof.
  intros R HB. pose proof R as (R1 & R2 & R3 & R4). unfold up_write. destruct (Z.eqb_spec (zlen data) 0) as [Z0|Z0]; [exists u; rewrite Z0, Z.add_0_r; auto|].
  rewrite (proj2 (Z.ltb_ge off (u_nflush u))) by lia. replace (off - u_nflush u) with (u_nbuf u) by lia. apply loop_ready; [lia| |auto]. destruct u; exact R.
Qed.
End Up.

(** *** what all jobs leave alone, and what belongs to one job *)
Definition skel3 (a : writer) : writer := set_sinks (skel a) [].
Definition put4 (a : writer) (i : nat) (s : s3sink) (t : list Z) (o : Z) : writer := put3 (set_sinks a (upd (a_sinks a) i (Some (SS3 s)))) i t o.
Section Own.
Variables (E : env) (b : string) (ks : list string) (sk : writer) (nt no cn : nat).
Hypothesis HP : NoDup ks.
Definition named (i : nat) (s : s3sink) : Prop := sound_sink s /\ World.s_bucket s = b /\ s_key s = nth i ks "".
Definition calm3 (d : AW) : Prop :=
  skel3 (fst d) = sk /\ List.length (a_tables (fst d)) = nt /\ List.length (a_offsets (fst d)) = no /\ List.length (a_sinks (fst d)) = List.length ks /\ w_conns (snd d) = cn /\ (0 < cn)%nat /\
  forall i, (i < List.length ks)%nat -> exists s, nth i (a_sinks (fst d)) None = Some (SS3 s) /\ named i s.
Definition pj3 (i : nat) (d : AW) : list Z * Z * option (fsink + upload) :=
  (nth i (a_tables (fst d)) [], nth i (a_offsets (fst d)) 0, seen_sink (w_trace (snd d)) (nth i (a_sinks (fst d)) None)).
Definition rst3 (q b' k' : string) (d : AW) : writer * (nat * nat * nat) * (string * nat) * bool * option (list Z) * option (list Z) :=
  (skel3 (fst d), (List.length (a_tables (fst d)), List.length (a_offsets (fst d)), List.length (a_sinks (fst d))), (w_err (snd d), w_conns (snd d)), dir_of E (w_trace (snd d)) q, file_of E (w_trace (snd d)) q, object_of E (w_trace (snd d)) b' k').
(** the action works on shard (or chunk) i only *)
Definition own3 (i : nat) (f : local -> AW -> local * AW) : Prop :=
  exists g : local -> list Z -> Z -> upload -> local * list Z * Z * upload, forall l a w s, calm3 (a, w) -> nth i (a_sinks a) None = Some (SS3 s) -> named i s ->
    exists s1 w1, named i s1 /\ mine b (nth i ks "") w w1 /\
      let '(l', t', o', u') := g l (nth i (a_tables a) []) (nth i (a_offsets a) 0) (upload_of (w_trace w) s) in
      upload_of (w_trace w1) s1 = u' /\ f l (a, w) = (l', (put4 a i s1 t' o', w1)).

Lemma seen_other i j (w w1 : world) s : mine b (nth i ks "") w w1 -> (i < List.length ks)%nat -> (j < List.length ks)%nat -> i <> j -> named j s -> upload_of (w_trace w1) s = upload_of (w_trace w) s.
Proof.
  intros ((evs & T & O) & _) Hi Hj N (SS & B & K). unfold upload_of. f_equal. destruct (s_mp s) as [[id ns]|]; auto. f_equal. apply map_ext. intros x. rewrite T. apply (part_of_other b (nth i ks ""%string) evs O). rewrite B, K. intros X. injection X as X. apply N. eapply (proj1 (NoDup_nth ks ""%string)); eauto.
Qed.
Lemma seen_inj tr tr' s s' : seen_sink tr (Some (SS3 s)) = seen_sink tr' (Some (SS3 s')) -> upload_of tr s = upload_of tr' s'.
Proof. cbn [seen_sink]. generalize (upload_of tr s) (upload_of tr' s'). intros u v X. congruence. Qed.
Lemma own3_facts i f : (i < List.length ks)%nat -> own3 i f ->
  (forall l d, calm3 d -> calm3 (snd (f l d))) /\
  (forall l d d', calm3 d -> calm3 d' -> pj3 i d = pj3 i d' -> fst (f l d) = fst (f l d') /\ pj3 i (snd (f l d)) = pj3 i (snd (f l d'))) /\
  (forall k l d, calm3 d -> k <> i -> pj3 k (snd (f l d)) = pj3 k d) /\
  (forall q b' k' l d, calm3 d -> rst3 q b' k' (snd (f l d)) = rst3 q b' k' d).
Proof.
  intros Hi (g & G). split; [|split; [|split]].
  - intros l (a & w) H. pose proof H as (C1 & C2 & C3 & C4 & C5 & C6 & C7). cbn [fst snd] in *. destruct (C7 i Hi) as (s & NS & NM). destruct (G l a w s H NS NM) as (s1 & w1 & N1 & MI & Q). destruct (g l _ _ _) as (((l' & t') & o') & u'). destruct Q as (Q1 & Q2). rewrite Q2. cbn [snd].
    unfold calm3. cbn [fst snd put4 put3 a_tables a_offsets a_sinks set_tables set_offsets set_sinks]. rewrite !upd_length. split; [exact C1|]. split; auto. split; auto. split; auto. split; [destruct MI as (_ & -> & _); exact C5|]. split; auto.
    intros j Hj. destruct (Nat.eq_dec i j) as [<-|N].
    + exists s1. split; auto. rewrite nth_upd by lia. rewrite Nat.eqb_refl. reflexivity.
    + rewrite nth_upd_neq by auto. auto.
  - intros l (a & w) (a' & w') H H' EP. pose proof H as (C1 & C2 & C3 & C4 & C5 & C6 & C7). pose proof H' as (C1' & C2' & C3' & C4' & C5' & C6' & C7'). cbn [fst snd] in *. destruct (C7 i Hi) as (s & NS & NM). destruct (C7' i Hi) as (s' & NS' & NM').
    unfold pj3 in EP. cbn [fst snd] in EP. apply pair_equal_spec in EP as [EP E3]. apply pair_equal_spec in EP as [E1 E2]. rewrite NS, NS' in E3. apply seen_inj in E3.
    destruct (G l a w s H NS NM) as (s1 & w1 & N1 & MI & Q). destruct (G l a' w' s' H' NS' NM') as (s2 & w2 & N2 & MI' & Q'). rewrite <- E1, <- E2, <- E3 in Q'. destruct (g l _ _ _) as (((l' & t') & o') & u'). destruct Q as (Q1 & Q2), Q' as (Q1' & Q2'). rewrite Q2, Q2'. cbn [fst snd]. split; auto.
    unfold pj3. cbn [fst snd put4 put3 a_tables a_offsets a_sinks set_tables set_offsets set_sinks]. rewrite (nth_upd_len (a_tables a) (a_tables a') i t' []) by congruence. rewrite (nth_upd_len (a_offsets a) (a_offsets a') i o' 0) by congruence. f_equal.
    rewrite !nth_upd by lia. rewrite Nat.eqb_refl. cbn [seen_sink]. rewrite Q1, Q1'. reflexivity.
  - intros k l (a & w) H N. pose proof H as (C1 & C2 & C3 & C4 & C5 & C6 & C7). cbn [fst snd] in *. destruct (C7 i Hi) as (s & NS & NM). destruct (G l a w s H NS NM) as (s1 & w1 & N1 & MI & Q). destruct (g l _ _ _) as (((l' & t') & o') & u'). destruct Q as (Q1 & Q2). rewrite Q2.
    unfold pj3. cbn [fst snd put4 put3 a_tables a_offsets a_sinks set_tables set_offsets set_sinks]. rewrite !nth_upd_neq by auto. f_equal.
    destruct (Nat.lt_ge_cases k (List.length ks)) as [K|K]; [|rewrite nth_overflow by lia; reflexivity]. destruct (C7 k K) as (s' & NS' & NM'). rewrite NS'. cbn [seen_sink]. rewrite (seen_other i k w w1 s'); auto.
  - intros q b' k' l (a & w) H. pose proof H as (C1 & C2 & C3 & C4 & C5 & C6 & C7). cbn [fst snd] in *. destruct (C7 i Hi) as (s & NS & NM). destruct (G l a w s H NS NM) as (s1 & w1 & N1 & MI & Q). destruct (g l _ _ _) as (((l' & t') & o') & u'). destruct Q as (Q1 & Q2). rewrite Q2.
    unfold rst3. cbn [fst snd put4 put3 a_tables a_offsets a_sinks set_tables set_offsets set_sinks]. rewrite !upd_length. destruct MI as ((evs & T & O) & -> & ->). rewrite T, (dir_of_own E b _ evs O), (file_of_own E b _ evs O), (object_of_own E b _ evs O). reflexivity.
Qed.
End Own.

(** *** one batch whose jobs succeed alone: the sequential model runs them in turn *)
Section Gen.
Context {T U : Type} (I : AW -> Prop) (pj : nat -> AW -> T) (rst : AW -> U) (n : nat) (jb : nat -> job AW) (sq : nat -> M AW unit).
Let js := map jb (seq 0 n).
Hypothesis H1 : forall i f l d, In (Act f) (nth i js []) -> I d -> I (snd (f l d)).
Hypothesis H2 : forall i f l d d', In (Act f) (nth i js []) -> I d -> I d' -> pj i d = pj i d' -> fst (f l d) = fst (f l d') /\ pj i (snd (f l d)) = pj i (snd (f l d')).
Hypothesis H3 : forall i k f l d, In (Act f) (nth i js []) -> I d -> k <> i -> pj k (snd (f l d)) = pj k d.
Hypothesis H4 : forall i f l d, In (Act f) (nth i js []) -> I d -> rst (snd (f l d)) = rst d.
Hypothesis H_seq : forall i aw aw', sq i aw = (aw', Ok tt) -> let '(l, aw1) := alone (jb i) l0 aw in aw' = finish l aw1.
Lemma jobs_nth i : (i < n)%nat -> nth i js [] = jb i.
Proof. intros L. unfold js. rewrite (nth_indep _ [] (jb 0%nat)), map_nth, seq_nth by (rewrite ?map_length, ?seq_length; lia). reflexivity. Qed.
Lemma jobs_in i f : In (Act f) (nth i js []) -> (i < n)%nat /\ In (Act f) (jb i).
Proof.
  intros H. assert (L : (i < n)%nat). { destruct (Nat.lt_ge_cases i n); auto. rewrite nth_overflow in H; [destruct H|]. unfold js. rewrite map_length, seq_length. lia. }
  rewrite jobs_nth in H by auto. auto.
Qed.
Variable d0 : AW.
Hypothesis HO : forall i aw1 aw2, (i < n)%nat -> I aw1 -> pj i aw1 = pj i d0 -> sq i aw1 = (aw2, Ok tt) -> fst (fst (alone (jb i) l0 aw1)) = true.
Lemma seq_in_turn3 : forall m k aw aw', (k + m <= n)%nat -> I aw -> (forall i, (k <= i)%nat -> pj i aw = pj i d0) -> miter sq (seq k m) aw = (aw', Ok tt) ->
  aw' = in_turn (map jb (seq k m)) aw /\ forall i, (k <= i < k + m)%nat -> fst (fst (alone (jb i) l0 aw)) = true.
Proof.
  induction m as [|m IH]; intros k aw aw' Hk HI HQ H; cbn [seq miter map] in *.
  - cbn in H. injection H as <-. split; [reflexivity|]. intros i Hi. lia.
  - rewrite bind_run in H. destruct (sq k aw) as (aw1 & [[]|e| |]) eqn:E1; try discriminate. pose proof (HO k aw aw1 ltac:(lia) HI (HQ k (le_n _)) E1) as O1. pose proof (H_seq k aw aw1 E1) as X.
    destruct (alone_inv I pj rst js H1 H3 H4 k (jb k) l0 aw ltac:(rewrite jobs_nth by lia; apply incl_refl) HI) as (S1 & P1 & _).
    destruct (alone (jb k) l0 aw) as (l & aw2) eqn:AK. cbn [fst snd] in *. unfold finish in X. rewrite O1 in X. subst aw2. destruct (IH (S k) aw1 aw' ltac:(lia) S1) as [A B]; auto.
    { intros i Hi. rewrite P1 by lia. apply HQ. lia. }
    split; [unfold in_turn; cbn [fold_left]; rewrite AK; exact A|]. intros i Hi. destruct (Nat.eq_dec i k) as [->|N]; [rewrite AK; exact O1|]. rewrite <- (B i ltac:(lia)). f_equal.
    refine (proj1 (alone_own I pj js H1 H2 i (jb i) l0 aw aw1 _ HI S1 _)); [rewrite jobs_nth by lia; apply incl_refl|]. symmetry. apply P1. lia.
Qed.
End Gen.

(** *** the jobs *)
Section Jobs3.
Variables (E : env) (b : string) (ks : list string) (sk : writer) (nt no cn : nat).
Hypothesis HE : forall n, e_s3 E n = true.
Notation calm3 := (calm3 b ks sk nt no cn). Notation named := (named b ks). Notation own3 := (own3 b ks sk nt no cn).

Lemma calm3_sk d : calm3 d -> a_bufs (fst d) = a_bufs sk /\ a_cfg (fst d) = a_cfg sk.
Proof. intros (A & _). rewrite <- A. auto. Qed.
Lemma calm3_conns a w : calm3 (a, w) -> (0 < w_conns w)%nat.
Proof. intros (_ & _ & _ & _ & A & B & _). cbn [snd] in A. lia. Qed.
Lemma on_sink_up i off data a w s : calm3 (a, w) -> nth i (a_sinks a) None = Some (SS3 s) -> named i s ->
  exists s1 w1, on_sink i (sink_write E off data) (a, w) = ((set_sinks a (upd (a_sinks a) i (Some (SS3 s1))), w1), snd (up_write off data (upload_of (w_trace w) s))) /\
    upload_of (w_trace w1) s1 = fst (up_write off data (upload_of (w_trace w) s)) /\ named i s1 /\ mine b (nth i ks "") w w1.
Proof.
  intros C NS (SS & B & K). destruct (write_refines E HE off data s w SS (calm3_conns a w C)) as (s1 & w1 & A1 & A2 & A3 & A4 & A5 & A6). exists s1, w1. unfold on_sink. rewrite NS. unfold sink_write, runS. cbn [fst snd]. rewrite A1. split; auto. split; auto. split; [split; auto; split; congruence|]. rewrite <- B, <- K. exact A6.
Qed.
Lemma put4_same a i s : put3 (set_sinks a (upd (a_sinks a) i (Some (SS3 s)))) i (nth i (a_tables a) []) (nth i (a_offsets a) 0) = set_sinks a (upd (a_sinks a) i (Some (SS3 s))).
Proof. apply (put3_same (set_sinks a (upd (a_sinks a) i (Some (SS3 s)))) i). Qed.
Lemma put4_id a i s : nth i (a_sinks a) None = Some (SS3 s) -> put4 a i s (nth i (a_tables a) []) (nth i (a_offsets a) 0) = a.
Proof. intros H. unfold put4. rewrite put4_same. rewrite <- H, upd_nth_same. destruct a; reflexivity. Qed.

(** a job that does nothing to the data *)
Lemma own3_id i (h : local -> local) : own3 i (fun l d => (h l, d)).
Proof. exists (fun l t o u => (h l, t, o, u)). intros l a w s C NS N. exists s, w. split; auto. split; [apply mine_refl|]. split; auto. rewrite put4_id; auto. Qed.
Definition v2_loc (r : outcome bool) : local := match r with Ok true => (true, ""%string) | Ok false => (false, "Failed to write chunk: CHECK(sink->write(0, data))"%string) | Throw m => (false, ("Failed to write chunk: " ++ m)%string) | _ => undefined end.
Lemma v2_body_up i a w s : calm3 (a, w) -> nth i (a_sinks a) None = Some (SS3 s) -> named i s ->
  exists s1 w1, (let '(aw', r) := v2_body E i (a, w) in (local_of r, aw')) = (v2_loc (snd (up_write 0 (nth i (a_bufs sk) []) (upload_of (w_trace w) s))), (set_sinks a (upd (a_sinks a) i (Some (SS3 s1))), w1)) /\
    upload_of (w_trace w1) s1 = fst (up_write 0 (nth i (a_bufs sk) []) (upload_of (w_trace w) s)) /\ named i s1 /\ mine b (nth i ks "") w w1.
Proof.
  intros C NS N. destruct (on_sink_up i 0 (nth i (a_bufs sk) []) a w s C NS N) as (s1 & w1 & A & B & D & F). exists s1, w1. split; auto. unfold v2_body. rewrite bind_run. cbn [getA fst]. rewrite (proj1 (calm3_sk _ C) : a_bufs a = _). unfold catchM. rewrite bind_run, A.
  destruct (snd (up_write 0 (nth i (a_bufs sk) []) (upload_of (w_trace w) s))) as [[]|m| |]; reflexivity.
Qed.
Lemma v2_own3 i f : In (Act f) (v2_pool_job E i) -> own3 i f.
Proof.
  intros [H|[H|[]]]; [|discriminate]. injection H as <-. exists (fun _ t o u => (v2_loc (snd (up_write 0 (nth i (a_bufs sk) []) u)), t, o, fst (up_write 0 (nth i (a_bufs sk) []) u))).
  intros l a w s C NS N. destruct (v2_body_up i a w s C NS N) as (s1 & w1 & A & B & D & F). exists s1, w1. split; auto. split; auto. split; auto. unfold put4. rewrite put4_same. exact A.
Qed.

(** the chunk *)
Lemma v3_chunk_up i bb ci a w s : calm3 (a, w) -> nth i (a_sinks a) None = Some (SS3 s) -> named i s ->
  let o := nth i (a_offsets a) 0 in let data := nth ci (a_bufs sk) [] in let t := nth i (a_tables a) [] in
  exists s1 w1, upload_of (w_trace w1) s1 = fst (up_write o data (upload_of (w_trace w) s)) /\ named i s1 /\ mine b (nth i ks "") w w1 /\
  v3_chunk E i bb ci (a, w) =
  match snd (up_write o data (upload_of (w_trace w) s)) with
  | Ok true => match v3_tab sk ci t o with
               | Ok t2 => ((put4 a i s1 t2 (u64 (o + zlen data)), w1), Ok (true, None))
               | Throw m => ((put4 a i s1 t o, w1), Ok (true, Some m))
               | UB => ((put4 a i s1 t o, w1), UB)
               | Hang => ((put4 a i s1 t o, w1), Hang)
               end
  | Ok false => ((put4 a i s1 t o, w1), Ok (false, None))
  | Throw m => ((put4 a i s1 t o, w1), Ok (bb, Some m))
  | UB => ((put4 a i s1 t o, w1), UB)
  | Hang => ((put4 a i s1 t o, w1), Hang)
  end.
Proof.
  intros C NS N o data t. destruct (on_sink_up i o data a w s C NS N) as (s1 & w1 & A & B & D & F). exists s1, w1. split; auto. split; auto. split; auto.
  unfold v3_chunk. rewrite bind_run. cbn [getA fst]. destruct (calm3_sk _ C) as [C1 C2]. cbn [fst] in C1, C2. rewrite C1, C2. fold data o t.
  rewrite bind_run. unfold catchM at 1. rewrite bind_run, A. unfold put4. replace (put3 (set_sinks a (upd (a_sinks a) i (Some (SS3 s1)))) i t o) with (set_sinks a (upd (a_sinks a) i (Some (SS3 s1)))) by (symmetry; apply put4_same).
  destruct (snd (up_write o data (upload_of (w_trace w) s))) as [[]|m| |]; cbn [ret]; cbv beta iota zeta; try reflexivity; [|destruct bb; reflexivity].
  unfold catchM, v3_tab, liftM. rewrite bind_run. destruct (shard_internal_index (c_dims (a_cfg sk)) (Z.of_nat ci)) as [idx|m| |]; cbn [obind]; try reflexivity.
  rewrite bind_run. destruct (table_set t (u32 (2 * idx)) o) as [t1|m| |]; cbn [obind]; try reflexivity.
  rewrite bind_run. fold data. destruct (table_set t1 (u32 (u32 (2 * idx) + 1)) (zlen data)) as [t2|m| |]; cbn [obind]; try reflexivity.
Qed.
Lemma v3_table_up i a w s : calm3 (a, w) -> nth i (a_sinks a) None = Some (SS3 s) -> named i s ->
  let o := nth i (a_offsets a) 0 in let t := nth i (a_tables a) [] in
  exists s1 w1, upload_of (w_trace w1) s1 = fst (up_write o (table_bytes t) (upload_of (w_trace w) s)) /\ named i s1 /\ mine b (nth i ks "") w w1 /\
  v3_table E i (a, w) = ((put4 a i s1 t o, w1), match snd (up_write o (table_bytes t) (upload_of (w_trace w) s)) with Ok ok => Ok (ok, None) | Throw m => Ok (true, Some m) | UB => UB | Hang => Hang end).
Proof.
  intros C NS N o t. destruct (on_sink_up i o (table_bytes t) a w s C NS N) as (s1 & w1 & A & B & D & F). exists s1, w1. split; auto. split; auto. split; auto.
  unfold v3_table. rewrite bind_run. cbn [getA fst]. fold o t. unfold catchM. rewrite bind_run, A. unfold put4. replace (put3 (set_sinks a (upd (a_sinks a) i (Some (SS3 s1)))) i t o) with (set_sinks a (upd (a_sinks a) i (Some (SS3 s1)))) by (symmetry; apply put4_same).
  destruct (snd (up_write o (table_bytes t) (upload_of (w_trace w) s))) as [[]|m| |]; reflexivity.
Qed.
Lemma v3_own3 tb cis i f : In (Act f) (v3_pool_job E tb cis i) -> own3 i f.
Proof.
  intros H. unfold v3_pool_job in H. destruct H as [H|H].
  { injection H as <-. apply (own3_id i (fun _ => (false, ""%string))). }
  rewrite !in_app_iff in H. destruct H as [H|[H|[H|[]]]]; [| |discriminate].
  - set (first := true) in H. clearbody first. revert first H. induction (nth i cis []) as [|c cs IH]; intros first H; [destruct H|]. destruct H as [H|H]; [|eapply IH; eauto]. unfold v3_step in H. injection H as <-.
    exists (fun l t o u => if first || fst l && String.eqb (snd l) "" then
      let data := nth c (a_bufs sk) [] in let '(u', r) := up_write o data u in
      match r with
      | Ok true => match v3_tab sk c t o with
                   | Ok t2 => ((true, ""%string), t2, u64 (o + zlen data), u')
                   | Throw m => ((true, ("Failed to write chunk: " ++ m)%string), t, o, u')
                   | _ => (undefined, t, o, u') end
      | Ok false => ((false, ""%string), t, o, u')
      | Throw m => ((fst l, ("Failed to write chunk: " ++ m)%string), t, o, u')
      | _ => (undefined, t, o, u')
      end else (l, t, o, u)).
    intros l a w s C NS N. destruct (first || fst l && String.eqb (snd l) "").
    + destruct (v3_chunk_up i (fst l) c a w s C NS N) as (s1 & w1 & A & B & D & F). exists s1, w1. split; auto. split; auto. cbv zeta. rewrite F. destruct (up_write (nth i (a_offsets a) 0) (nth c (a_bufs sk) []) (upload_of (w_trace w) s)) as (u' & r). cbn [fst snd] in *.
      destruct r as [[]|m| |]; auto. destruct (v3_tab sk c (nth i (a_tables a) []) (nth i (a_offsets a) 0)); auto.
    + exists s, w. split; auto. split; [apply mine_refl|]. split; auto. rewrite put4_id; auto.
  - destruct tb; [|destruct H]. destruct H as [H|[]]. unfold v3_step in H. injection H as <-.
    exists (fun l t o u => if false || fst l && String.eqb (snd l) "" then
      let '(u', r) := up_write o (table_bytes t) u in
      match r with Ok ok => ((ok, ""%string), t, o, u') | Throw m => ((true, ("Failed to write chunk: " ++ m)%string), t, o, u') | _ => (undefined, t, o, u') end else (l, t, o, u)).
    intros l a w s C NS N. cbn [orb]. destruct (fst l && String.eqb (snd l) "").
    + destruct (v3_table_up i a w s C NS N) as (s1 & w1 & A & B & D & F). exists s1, w1. split; auto. split; auto. cbv zeta in F. rewrite F. destruct (up_write (nth i (a_offsets a) 0) (table_bytes (nth i (a_tables a) [])) (upload_of (w_trace w) s)) as (u' & r). cbn [fst snd] in *.
      destruct r as [[]|m| |]; auto.
    + exists s, w. split; auto. split; [apply mine_refl|]. split; auto. rewrite put4_id; auto.
Qed.
End Jobs3.

(** *** success *)
Section Succ.
Variables (E : env) (b : string) (ks : list string) (sk : writer) (nt no cn : nat).
Hypothesis HE : forall n, e_s3 E n = true.
Notation calm3 := (calm3 b ks sk nt no cn). Notation named := (named b ks).
Lemma ready_up s off w : ready s off -> up_ready (upload_of (w_trace w) s) off.
Proof. intros (_ & A & B & C & D). split; auto. Qed.
Lemma v2_success3 i d s : calm3 d -> (i < List.length ks)%nat -> nth i (a_sinks (fst d)) None = Some (SS3 s) -> up_ready (upload_of (w_trace (snd d)) s) 0 -> zlen (nth i (a_bufs sk) []) < 2 ^ 64 ->
  fst (fst (alone (v2_pool_job E i) l0 d)) = true.
Proof.
  intros C Hi NS R HB. destruct d as (a & w). cbn [fst snd] in NS, R. assert (N : named i s). { destruct C as (_ & _ & _ & _ & _ & _ & C7). destruct (C7 i Hi) as (s' & A & B). cbn [fst] in A. congruence. }
  unfold v2_pool_job. cbn [alone]. destruct (v2_body_up E b ks sk nt no cn HE i a w s C NS N) as (s1 & w1 & A & _). rewrite A. destruct (write_ready (nth i (a_bufs sk) []) _ 0 R ltac:(lia)) as (u' & W & _). rewrite W. reflexivity.
Qed.
Definition at_end (i : nat) (d : AW) : Prop := exists s, nth i (a_sinks (fst d)) None = Some (SS3 s) /\ named i s /\ up_ready (upload_of (w_trace (snd d)) s) (nth i (a_offsets (fst d)) 0).
Definition bytes_of (cs : list nat) : Z := fold_right (fun c n => zlen (nth c (a_bufs sk) []) + n) 0 cs.
Lemma bytes_nonneg cs : 0 <= bytes_of cs.
Proof. induction cs as [|c cs IH]; cbn; [lia|]. pose proof (zlen_nonneg (nth c (a_bufs sk) [])). fold (bytes_of cs). lia. Qed.
Lemma v3_tab_len c t o t2 : v3_tab sk c t o = Ok t2 -> zlen t2 = zlen t.
Proof.
  unfold v3_tab. destruct (shard_internal_index _ _) as [x|m| |]; cbn [obind]; try discriminate. unfold table_set. destruct (_ <? _); cbn [obind]; [|discriminate]. destruct (_ <? _); [|discriminate]. intros X. injection X as <-. unfold zlen. rewrite !upd_length. reflexivity.
Qed.
Lemma calm3_put a w i s1 w1 t o : calm3 (a, w) -> (i < List.length ks)%nat -> named i s1 -> mine b (nth i ks "") w w1 -> calm3 (put4 a i s1 t o, w1).
Proof.
  intros (C1 & C2 & C3 & C4 & C5 & C6 & C7) Hi N1 MI. cbn [fst snd] in *. unfold JobS3.calm3. cbn [fst snd put4 put3 a_tables a_offsets a_sinks set_tables set_offsets set_sinks]. rewrite !upd_length. split; [exact C1|]. split; auto. split; auto. split; auto. split; [destruct MI as (_ & -> & _); exact C5|]. split; auto.
  intros j Hj. destruct (Nat.eq_dec i j) as [<-|N].
  - exists s1. split; auto. rewrite nth_upd by lia. rewrite Nat.eqb_refl. reflexivity.
  - rewrite nth_upd_neq by auto. auto.
Qed.
Lemma put4_at_end a w i s1 w1 t o u : calm3 (a, w) -> (i < List.length ks)%nat -> no = List.length ks -> named i s1 -> upload_of (w_trace w1) s1 = u -> up_ready u o -> at_end i (put4 a i s1 t o, w1).
Proof.
  intros (C1 & C2 & C3 & C4 & C5 & C6 & C7) Hi NO N1 HU R. cbn [fst snd] in *. exists s1. cbn [fst snd put4 put3 a_tables a_offsets a_sinks set_tables set_offsets set_sinks]. rewrite !nth_upd by lia. rewrite Nat.eqb_refl. split; auto. split; auto. rewrite HU. exact R.
Qed.
Lemma v3_chunks_success3 i : (i < List.length ks)%nat -> no = List.length ks -> nt = List.length ks -> forall cs bb aw aw' r, calm3 aw -> at_end i aw ->
  nth i (a_offsets (fst aw)) 0 + bytes_of cs < 2 ^ 64 ->
  v3_chunks E i cs bb aw = (aw', Ok r) -> (cs <> [] \/ bb = true) ->
  fst r = true /\ (snd r = None -> calm3 aw' /\ at_end i aw' /\ nth i (a_offsets (fst aw')) 0 = nth i (a_offsets (fst aw)) 0 + bytes_of cs /\ zlen (nth i (a_tables (fst aw')) []) = zlen (nth i (a_tables (fst aw)) [])).
Proof.
  intros Hi NO NT. induction cs as [|c cs IH]; intros bb (a & w) aw' r C A HB H HC; cbn [v3_chunks] in H.
  - cbn in H. injection H as <- <-. destruct HC as [HC| ->]; [contradiction|]. split; auto. intros _. split; auto. split; auto. split; auto. cbn. lia.
  - rewrite bind_run in H. destruct A as (s & NS & N & R). cbn [fst snd] in NS, R, HB. destruct (v3_chunk_up E b ks sk nt no cn HE i bb c a w s C NS N) as (s1 & w1 & U1 & N1 & MI & EQ). cbv zeta in EQ. rewrite EQ in H. clear EQ. cbn [bytes_of fold_right] in HB. fold (bytes_of cs) in HB.
    pose proof (bytes_nonneg cs) as B0. pose proof (zlen_nonneg (nth c (a_bufs sk) [])) as Z0.
    destruct (write_ready (nth c (a_bufs sk) []) _ (nth i (a_offsets a) 0) R ltac:(lia)) as (u' & W & R'). rewrite W in H, U1. cbn [fst snd] in H, U1.
    destruct (v3_tab sk c (nth i (a_tables a) []) (nth i (a_offsets a) 0)) as [t2|m| |] eqn:TB; try discriminate.
    + assert (NN : 0 <= nth i (a_offsets a) 0) by (destruct R as (? & ? & ? & _); lia). rewrite u64_id in H by lia. pose proof (C) as (_ & L1 & L2 & L3 & _). cbn [fst] in L1, L2, L3.
      apply IH in H; auto.
      * destruct H as [F1 F2]. split; auto. intros X. destruct (F2 X) as (G1 & G2 & G3 & G4). split; auto. split; auto. cbn [fst put4 put3 a_tables a_offsets a_sinks set_tables set_offsets set_sinks] in G3, G4. rewrite nth_upd in G3 by lia. rewrite nth_upd in G4 by lia. rewrite Nat.eqb_refl in G3, G4. split; [cbn [fst bytes_of fold_right]; fold (bytes_of cs); lia|]. rewrite G4. cbn [fst]. apply (v3_tab_len c _ _ _ TB).
      * eapply calm3_put; eauto.
      * eapply put4_at_end; eauto.
      * cbn [fst put4 put3 a_tables a_offsets a_sinks set_tables set_offsets set_sinks]. rewrite nth_upd by lia. rewrite Nat.eqb_refl. lia.
    + cbn in H. injection H as <- <-. split; auto. discriminate.
Qed.
Lemma v3_success3 tb cis i aw aw2 : (i < List.length ks)%nat -> no = List.length ks -> nt = List.length ks -> calm3 aw -> at_end i aw -> nth i cis [] <> [] ->
  nth i (a_offsets (fst aw)) 0 + bytes_of (nth i cis []) + 8 * zlen (nth i (a_tables (fst aw)) []) < 2 ^ 64 ->
  v3_job E tb cis i aw = (aw2, Ok tt) -> fst (fst (alone (v3_pool_job E tb cis i) l0 aw)) = true.
Proof.
  intros Hi NO NT C A HN HB H. unfold v3_pool_job. rewrite alone_cons. cbv beta iota. rewrite alone_app, (v3_steps_seq E i _ true (false, ""%string) aw eq_refl). cbn [fst].
  unfold v3_job in H. rewrite bind_run in H. destruct (v3_chunks E i (nth i cis []) false aw) as (aw3 & r) eqn:EQ.
  destruct r as [r|m| |]; try discriminate. pose proof (zlen_nonneg (nth i (a_tables (fst aw)) [])) as Z0. assert (HB' : nth i (a_offsets (fst aw)) 0 + bytes_of (nth i cis []) < 2 ^ 64) by lia. destruct (v3_chunks_success3 i Hi NO NT _ _ _ _ _ C A HB' EQ (or_introl HN)) as [FR ST'].
  replace (match nth i cis [] with [] => (false, ""%string) | _ => v3_local (Ok r) end) with (v3_local (Ok r)) by (destruct (nth i cis []); [contradiction|reflexivity]).
  destruct r as [[] [m|]]; try discriminate; cbn [v3_local].
  - destruct tb; cbn [app alone v3_step orb fst snd andb String.eqb]; reflexivity.
  - destruct (ST' eq_refl) as (C' & (s & NS & N & R) & O' & T'). destruct aw3 as (a3 & w3). destruct tb; cbn [app alone v3_step orb fst snd andb String.eqb]; [|reflexivity]. destruct (v3_table_up E b ks sk nt no cn HE i a3 w3 s C' NS N) as (s1 & w1 & _ & _ & _ & EQ3). cbv zeta in EQ3. rewrite EQ3.
    cbn [fst snd] in *. destruct (write_ready (table_bytes (nth i (a_tables a3) [])) _ (nth i (a_offsets a3) 0) R) as (u' & W & _); [rewrite ShardFile.table_bytes_len; lia|]. rewrite W. reflexivity.
Qed.
End Succ.

(** *** the flush in the pool *)
Lemma same_writer3 a a' : skel3 a = skel3 a' -> List.length (a_tables a) = List.length (a_tables a') -> List.length (a_offsets a) = List.length (a_offsets a') ->
  (forall i, (i < List.length (a_tables a))%nat -> nth i (a_tables a) [] = nth i (a_tables a') []) -> (forall i, (i < List.length (a_offsets a))%nat -> nth i (a_offsets a) 0 = nth i (a_offsets a') 0) -> set_sinks a [] = set_sinks a' [].
Proof. intros. apply same_writer; auto. Qed.
Lemma flush_any_order3 E b ks sk nt no cn jb sq n c d t0 s0 t s k aw' :
  (forall i, e_s3 E i = true) -> NoDup ks -> (nt <= List.length ks)%nat -> (no <= List.length ks)%nat ->
  (forall i f, In (Act f) (jb i) -> own3 b ks sk nt no cn i f) ->
  (forall i aw aw', sq i aw = (aw', Ok tt) -> let '(l, aw1) := alone (jb i) l0 aw in aw' = finish l aw1) ->
  (forall i, exists acts, jb i = acts ++ [CountDown] /\ cds acts = 0%nat) ->
  disciplined false 0 c -> steps on_error (init n c d) t0 s0 -> prog s0 = batch (map jb (seq 0 (List.length ks))) k -> idle s0 ->
  calm3 b ks sk nt no cn (data s0) ->
  (forall i aw1 aw2, (i < List.length ks)%nat -> calm3 b ks sk nt no cn aw1 -> pj3 i aw1 = pj3 i (data s0) -> sq i aw1 = (aw2, Ok tt) -> fst (fst (alone (jb i) l0 aw1)) = true) ->
  miter sq (seq 0 (List.length ks)) (data s0) = (aw', Ok tt) ->
  steps on_error s0 (t ++ [LPass]) s -> ~ In LPass t ->
  prog s = k /\ idle s /\ same_uploads E (data s) aw' /\ calm3 b ks sk nt no cn (data s) /\ calm3 b ks sk nt no cn aw'.
Proof.
  intros HE HP HNT HNO HOwn HSq HOne Hc HR HPr HI HC HO HM HS HN. set (js := map jb (seq 0 (List.length ks))).
  assert (FC : forall i f, In (Act f) (nth i js []) -> _) by (intros i f H0; destruct (jobs_in (List.length ks) jb i f H0) as [A B]; exact (own3_facts E b ks sk nt no cn HP i f A (HOwn i f B))).
  assert (AW' : aw' = in_turn js (data s0) /\ forall i, (0 <= i < 0 + List.length ks)%nat -> fst (fst (alone (jb i) l0 (data s0))) = true).
  { refine (seq_in_turn3 (calm3 b ks sk nt no cn) pj3 (rst3 E "" "" "") (List.length ks) jb sq _ _ _ _ HSq (data s0) HO (List.length ks) 0 (data s0) aw' (le_n _) HC _ HM).
    - intros i f l d1 H0. apply (proj1 (FC i f H0)).
    - intros i f l d1 d2 H0. apply (proj1 (proj2 (FC i f H0))).
    - intros i k' f l d1 H0 H1 H2. apply (proj1 (proj2 (proj2 (FC i f H0)))); auto.
    - intros i f l d1 H0. apply (proj2 (proj2 (proj2 (FC i f H0)))).
    - reflexivity. }
  destruct AW' as [AW' HO1]. assert (LJ : List.length js = List.length ks) by (unfold js; rewrite map_length, seq_length; reflexivity).
  assert (R : forall q b' k', calm3 b ks sk nt no cn (data s) /\ prog s = k /\ idle s /\ rst3 E q b' k' (data s) = rst3 E q b' k' (in_turn js (data s0)) /\ forall i, (i < List.length js)%nat -> pj3 i (data s) = pj3 i (in_turn js (data s0))).
  { intros q b' k'. apply (batch_result_inv on_error (calm3 b ks sk nt no cn) pj3 (rst3 E q b' k') js k n c d t0 s0 t s); auto.
    - intros i f l d1 H0. apply (proj1 (FC i f H0)).
    - intros i f l d1 d2 H0. apply (proj1 (proj2 (FC i f H0))).
    - intros i k2 f l d1 H0 H1 H2. apply (proj1 (proj2 (proj2 (FC i f H0)))); auto.
    - intros i f l d1 H0. apply (proj2 (proj2 (proj2 (FC i f H0)))).
    - unfold js. apply Forall_forall. intros j Hj. apply in_map_iff in Hj as (i & <- & _). apply HOne.
    - intros i Hi. assert (Hi2 : (i < List.length ks)%nat) by (rewrite <- LJ; exact Hi). unfold js. rewrite jobs_nth by auto. apply HO1. split; [apply Nat.le_0_l|exact Hi2]. }
  rewrite AW'. destruct (R ""%string ""%string ""%string) as (CA & A & B & C & P). split; auto. split; auto. rewrite LJ in P.
  assert (STE : calm3 b ks sk nt no cn (in_turn js (data s0))).
  { destruct (in_turn_own (calm3 b ks sk nt no cn) pj3 (rst3 E "" "" "") js (fun i f l d1 H0 => proj1 (FC i f H0) l d1) (fun i f l d1 d2 H0 => proj1 (proj2 (FC i f H0)) l d1 d2) (fun i k' f l d1 H0 H1 H2 => proj1 (proj2 (proj2 (FC i f H0))) k' l d1 H1 H2) (fun i f l d1 H0 => proj2 (proj2 (proj2 (FC i f H0))) ""%string ""%string ""%string l d1) (data s0) HC (List.length js) (le_n _)) as (X & _). rewrite firstn_all in X. exact X. }
  split; [|auto]. destruct STE as (_ & L1 & L2 & L3 & _). unfold rst3 in C. apply pair_equal_spec in C as [C _]. apply pair_equal_spec in C as [C _]. apply pair_equal_spec in C as [C _]. apply pair_equal_spec in C as [C CE]. apply pair_equal_spec in C as [C CL]. apply pair_equal_spec in CE as [CE CC]. apply pair_equal_spec in CL as [CL CL3]. apply pair_equal_spec in CL as [CL1 CL2].
  split; [|split; [|split; [auto|split; [auto|split]]]].
  - apply same_writer3; auto.
    + intros i Hi. rewrite CL1, L1 in Hi. specialize (P i ltac:(lia)). unfold pj3 in P. congruence.
    + intros i Hi. rewrite CL2, L2 in Hi. specialize (P i ltac:(lia)). unfold pj3 in P. congruence.
  - apply (nth_ext _ _ None None); [rewrite !map_length; exact CL3|]. intros i Hi. rewrite map_length in Hi. rewrite CL3, L3 in Hi. specialize (P i Hi). unfold pj3 in P. apply pair_equal_spec in P as [_ P].
    change (@None (fsink + upload)) with (seen_sink (w_trace (snd (data s))) None) at 1. rewrite map_nth. change (@None (fsink + upload)) with (seen_sink (w_trace (snd (in_turn js (data s0)))) None). rewrite map_nth. exact P.
  - intros b' k'. destruct (R ""%string b' k') as (_ & _ & _ & X & _). unfold rst3 in X. apply pair_equal_spec in X as [_ X]. exact X.
  - intros p. destruct (R p ""%string ""%string) as (_ & _ & _ & X & _). unfold rst3 in X. apply pair_equal_spec in X as [X _]. apply pair_equal_spec in X as [X X1]. apply pair_equal_spec in X as [_ X]. auto.
Qed.
