(** The write jobs of a flush touch disjoint files and disjoint shard tables. *)
Require Import ZArith List Bool String Lia.
Require Import Verif.Base Verif.Dim Verif.World Verif.Writer Verif.Radix Verif.SinkProofs Verif.Pool Verif.PoolSpec Verif.PoolProofs Verif.PoolBatch Verif.Jobs.
Import ListNotations.
Open Scope string_scope. Open Scope list_scope. Open Scope Z_scope.

Lemma upd_out {A} (l : list A) i x : (List.length l <= i)%nat -> upd l i x = l.
Proof. intros H. unfold upd. rewrite skipn_all2 by lia. rewrite app_nil_r, firstn_all2 by lia. reflexivity. Qed.
Lemma nth_upd_neq {A} (l : list A) i j x d : i <> j -> nth j (upd l i x) d = nth j l d.
Proof.
  intros H. destruct (Nat.lt_ge_cases i (List.length l)) as [L|L]; [|rewrite upd_out; auto]. rewrite nth_upd by auto. rewrite (proj2 (Nat.eqb_neq i j) H). reflexivity.
Qed.
Lemma nth_upd_len {A} (l m : list A) i x d : List.length l = List.length m -> nth i l d = nth i m d -> nth i (upd l i x) d = nth i (upd m i x) d.
Proof.
  intros H H1. destruct (Nat.lt_ge_cases i (List.length l)) as [L|L]; [|rewrite !upd_out by lia; auto]. rewrite !nth_upd by lia. rewrite Nat.eqb_refl. reflexivity.
Qed.

(** *** one write of an open file *)
Definition wev (p : string) (ow : Z * list Z) : list event := if zlen (snd ow) =? 0 then [] else [EWrite p (fst ow) (snd ow)].
Definition wput (p : string) (w : world) (ow : Z * list Z) : world :=
  mkworld (w_trace w ++ wev p ow) (if zlen (snd ow) =? 0 then w_tick w else S (w_tick w)) (w_conns w) (w_err w).
Definition open_file (p : string) : option sink := Some (SFile (mkfsink p true)).

Lemma on_sink_open E i a w off data p : (forall k, e_fault E k = false) -> nth i (a_sinks a) None = open_file p ->
  on_sink i (sink_write E off data) (a, w) = ((a, wput p w (off, data)), Ok true).
Proof.
  intros HE HS. unfold on_sink. rewrite HS. unfold open_file, sink_write, runF, file_write, wput, wev. cbn [fst snd].
  assert (X : set_sinks a (upd (a_sinks a) i (Some (SFile (mkfsink p true)))) = a). { replace (upd (a_sinks a) i _) with (a_sinks a); [destruct a; reflexivity|]. symmetry. etransitivity; [|apply (upd_nth_same (a_sinks a) i None)]. rewrite HS. reflexivity. }
  destruct (zlen data =? 0).
  - cbn. rewrite X, app_nil_r. destruct w; reflexivity.
  - cbn [f_open f_path]. unfold bind, next_tick. rewrite HE. cbn. rewrite X. reflexivity.
Qed.

Lemma file_of_wput E p w ow q : file_of E (w_trace (wput p w ow)) q =
  if String.eqb p q then match file_of E (w_trace w) q with Some b => Some (if zlen (snd ow) =? 0 then b else write_at b (fst ow) (snd ow)) | None => None end else file_of E (w_trace w) q.
Proof.
  unfold wput, wev. cbn [w_trace]. rewrite file_of_app. destruct (zlen (snd ow) =? 0); cbn [fold_left file_step]; destruct (String.eqb p q); destruct (file_of E (w_trace w) q); reflexivity.
Qed.
Definition wputs (p : string) (w : world) (l : list (Z * list Z)) : world := fold_left (wput p) l w.
Lemma file_of_wputs E p l : forall w w' q, (p = q -> file_of E (w_trace w) q = file_of E (w_trace w') q) ->
  (p = q -> file_of E (w_trace (wputs p w l)) q = file_of E (w_trace (wputs p w' l)) q) /\ (p <> q -> file_of E (w_trace (wputs p w l)) q = file_of E (w_trace w) q).
Proof.
  induction l as [|ow l IH]; intros w w' q H; [cbn; auto|]. change (wputs p w (ow :: l)) with (wputs p (wput p w ow) l). change (wputs p w' (ow :: l)) with (wputs p (wput p w' ow) l).
  assert (X : p = q -> file_of E (w_trace (wput p w ow)) q = file_of E (w_trace (wput p w' ow)) q) by (intros ->; rewrite !file_of_wput; rewrite H by auto; reflexivity).
  destruct (IH (wput p w ow) (wput p w' ow) q X) as [A B]. split; auto. intros N. rewrite B by auto. rewrite file_of_wput. destruct (String.eqb_spec p q); [contradiction|reflexivity].
Qed.
Lemma wputs_rest p l : forall w, w_err (wputs p w l) = w_err w /\ w_conns (wputs p w l) = w_conns w.
Proof. induction l as [|ow l IH]; intros w; [cbn; auto|]. change (wputs p w (ow :: l)) with (wputs p (wput p w ow) l). destruct (IH (wput p w ow)) as [A B]. rewrite A, B. auto. Qed.
Lemma dir_of_wputs E p l : forall w q, dir_of E (w_trace (wputs p w l)) q = dir_of E (w_trace w) q.
Proof.
  induction l as [|ow l IH]; intros w q; [cbn; auto|]. change (wputs p w (ow :: l)) with (wputs p (wput p w ow) l). rewrite IH. unfold wput, wev, dir_of. cbn [w_trace]. rewrite fold_left_app. destruct (zlen (snd ow) =? 0); reflexivity.
Qed.

(** *** what all jobs leave alone *)
Definition skel (a : writer) : writer := set_offsets (set_tables a []) [].
Definition steady (sk : writer) (nt no : nat) (d : AW) : Prop := skel (fst d) = sk /\ List.length (a_tables (fst d)) = nt /\ List.length (a_offsets (fst d)) = no.
Definition put3 (a : writer) (s : nat) (t : list Z) (o : Z) : writer := set_offsets (set_tables a (upd (a_tables a) s t)) (upd (a_offsets a) s o).
Lemma skel_put3 a s t o : skel (put3 a s t o) = skel a.
Proof. reflexivity. Qed.
Lemma put3_same a s : put3 a s (nth s (a_tables a) []) (nth s (a_offsets a) 0) = a.
Proof. unfold put3. rewrite !upd_nth_same. destruct a; reflexivity. Qed.

Section Own.
Variables (E : env) (ps : list string) (sk : writer) (nt no : nat).
Hypothesis HE : forall k, e_fault E k = false.
Hypothesis HP : NoDup ps.
Let path (i : nat) : string := nth i ps "".
(** the action works on shard (or chunk file) s only *)
Definition own_step (s : nat) (f : local -> AW -> local * AW) : Prop :=
  exists g : local -> list Z -> Z -> local * list Z * Z * list (Z * list Z), forall l a w, steady sk nt no (a, w) ->
    f l (a, w) = let '(l', t', o', ws) := g l (nth s (a_tables a) []) (nth s (a_offsets a) 0) in (l', (put3 a s t' o', wputs (path s) w ws)).
Definition pj (i : nat) (d : AW) : list Z * Z * option (list Z) :=
  (nth i (a_tables (fst d)) [], nth i (a_offsets (fst d)) 0, if (i <? List.length ps)%nat then file_of E (w_trace (snd d)) (path i) else None).
Definition rst (q : string) (d : AW) : writer * (nat * nat) * (string * nat) * bool * option (list Z) :=
  (skel (fst d), (List.length (a_tables (fst d)), List.length (a_offsets (fst d))), (w_err (snd d), w_conns (snd d)), dir_of E (w_trace (snd d)) q,
   if existsb (String.eqb q) ps then None else file_of E (w_trace (snd d)) q).

Lemma own_facts s f : (s < List.length ps)%nat -> own_step s f ->
  (forall l d, steady sk nt no d -> steady sk nt no (snd (f l d))) /\
  (forall l d d', steady sk nt no d -> steady sk nt no d' -> pj s d = pj s d' -> fst (f l d) = fst (f l d') /\ pj s (snd (f l d)) = pj s (snd (f l d'))) /\
  (forall k l d, steady sk nt no d -> k <> s -> pj k (snd (f l d)) = pj k d) /\
  (forall q l d, steady sk nt no d -> rst q (snd (f l d)) = rst q d).
Proof.
  intros HS (g & G). split; [|split; [|split]].
  - intros l (a & w) H. rewrite (G l a w H). destruct (g l _ _) as (((l' & t') & o') & ws). destruct H as (A & B & C). split; [exact A|]. cbn [fst snd put3 a_tables a_offsets set_tables set_offsets] in *. rewrite !upd_length. auto.
  - intros l (a & w) (a' & w') H H' EP. rewrite (G l a w H), (G l a' w' H'). unfold pj in EP. cbn [fst snd] in EP. apply pair_equal_spec in EP as [EP E3]. apply pair_equal_spec in EP as [E1 E2]. rewrite E1, E2. destruct (g l _ _) as (((l' & t') & o') & ws). cbn [fst snd]. split; auto.
    destruct H as (A & B & C), H' as (A' & B' & C'). cbn [fst] in *. unfold pj. cbn [fst snd put3 a_tables a_offsets set_tables set_offsets].
    rewrite (nth_upd_len (a_tables a) (a_tables a') s t' []) by congruence. rewrite (nth_upd_len (a_offsets a) (a_offsets a') s o' 0) by congruence. f_equal.
    rewrite (proj2 (Nat.ltb_lt s (List.length ps)) HS) in *. apply (file_of_wputs E (path s) ws w w' (path s)); auto.
  - intros k l (a & w) H N. rewrite (G l a w H). destruct (g l _ _) as (((l' & t') & o') & ws). unfold pj. cbn [fst snd put3 a_tables a_offsets set_tables set_offsets]. rewrite !nth_upd_neq by auto. f_equal.
    destruct (k <? List.length ps)%nat eqn:K; auto. apply Nat.ltb_lt in K. apply (proj2 (file_of_wputs E (path s) ws w w (path k) (fun _ => eq_refl))). intros X. apply N. symmetry. eapply (proj1 (NoDup_nth ps ""%string)); eauto.
  - intros q l (a & w) H. rewrite (G l a w H). destruct (g l _ _) as (((l' & t') & o') & ws). unfold rst. cbn [fst snd put3 a_tables a_offsets set_tables set_offsets]. rewrite !upd_length. destruct (wputs_rest (path s) ws w) as [-> ->]. rewrite dir_of_wputs. rewrite skel_put3. f_equal.
    destruct (existsb (String.eqb q) ps) eqn:X; auto. apply (proj2 (file_of_wputs E (path s) ws w w q (fun _ => eq_refl))). intros Y. assert (existsb (String.eqb q) ps = true); [|congruence]. apply existsb_exists. exists q. split; [rewrite <- Y; apply nth_In; auto|apply String.eqb_refl].
Qed.
End Own.

(** *** the jobs in the sequential model *)
Definition finish (l : local) (aw : AW) : AW := if fst l then aw else on_error (snd l) aw.
Lemma job_done_finish l aw : onWd (job_done l) aw = (finish l aw, Ok tt).
Proof. destruct aw as (a & w), l as ([] & m); reflexivity. Qed.

Lemma v2_job_alone E i aw aw' : v2_job E i aw = (aw', Ok tt) -> let '(l, aw1) := alone (v2_pool_job E i) l0 aw in aw' = finish l aw1.
Proof.
  unfold v2_pool_job. cbn [alone]. intros H.
  assert (X : v2_job E i aw = (r <- v2_body E i ;; onWd (job_done r)) aw) by reflexivity. rewrite X in H. clear X. unfold bind in H. destruct (v2_body E i aw) as (aw1 & [l|m| |]); try discriminate. rewrite job_done_finish in H. cbn [local_of]. congruence.
Qed.

Lemma alone_skip E s : forall cs l aw, fst l && String.eqb (snd l) "" = false -> alone (v3_steps E s false cs) l aw = (l, aw).
Proof. induction cs as [|c cs IH]; intros l aw H; cbn [v3_steps alone v3_step]; auto. cbn [orb]. rewrite H. auto. Qed.
Lemma bind_run {A} (m : M AW A) {B} (f : A -> M AW B) aw : bind m f aw = match m aw with (aw', Ok a) => f a aw' | (aw', Throw e) => (aw', Throw e) | (aw', UB) => (aw', UB) | (aw', Hang) => (aw', Hang) end.
Proof. unfold bind. destruct (m aw) as (aw' & []); reflexivity. Qed.
Lemma alone_cons (f : local -> AW -> local * AW) r l aw : alone (Act f :: r) l aw = let '(l', aw') := f l aw in alone r l' aw'.
Proof. reflexivity. Qed.
Lemma v3_steps_seq E s : forall cs first l aw, first || fst l && String.eqb (snd l) "" = true ->
  alone (v3_steps E s first cs) l aw = let '(aw', r) := v3_chunks E s cs (fst l) aw in (match cs with [] => l | _ => v3_local r end, aw').
Proof.
  induction cs as [|c cs IH]; intros first l aw H; [reflexivity|]. cbn [v3_steps v3_chunks]. unfold v3_step at 1. rewrite alone_cons, H, bind_run.
  destruct (v3_chunk E s (fst l) c aw) as (aw1 & [[b [m|]]|m| |]); cbn [v3_local].
  - rewrite alone_skip by (destruct b; reflexivity). destruct b; reflexivity.
  - destruct b; [|rewrite alone_skip by reflexivity; reflexivity]. rewrite (IH false (true, ""%string) aw1 eq_refl). cbn [fst]. destruct (v3_chunks E s cs true aw1) as (aw2 & r) eqn:EQ. f_equal. destruct cs; auto. cbn in EQ. injection EQ as <- <-. reflexivity.
  - rewrite alone_skip by reflexivity. reflexivity.
  - rewrite alone_skip by reflexivity. reflexivity.
  - rewrite alone_skip by reflexivity. reflexivity.
Qed.
Lemma v3_job_alone E tb cis s aw aw' : v3_job E tb cis s aw = (aw', Ok tt) -> let '(l, aw1) := alone (v3_pool_job E tb cis s) l0 aw in aw' = finish l aw1.
Proof.
  intros H. unfold v3_pool_job. rewrite alone_cons. cbv beta iota. rewrite alone_app, (v3_steps_seq E s _ true (false, ""%string) aw eq_refl). cbn [fst].
  unfold v3_job in H. rewrite bind_run in H. destruct (v3_chunks E s (nth s cis []) false aw) as (aw1 & r) eqn:EQ.
  assert (EL : match nth s cis [] with [] => (false, ""%string) | _ => v3_local r end = v3_local r). { destruct (nth s cis []); auto. cbn in EQ. injection EQ as <- <-. reflexivity. }
  rewrite EL. clear EL. destruct r as [[b [m|]]|m| |]; try discriminate.
  - assert (X : (aw', Ok tt) = (finish (b, "Failed to write chunk: " ++ m)%string aw1, Ok tt)) by (rewrite <- H; rewrite bind_run; destruct b; cbn [ret]; apply job_done_finish). injection X as ->. cbn [v3_local].
    destruct tb; cbn [app alone v3_step orb fst snd]; [|reflexivity]. replace (b && String.eqb ("Failed to write chunk: " ++ m)%string "") with false by (destruct b; reflexivity). reflexivity.
  - destruct b; cbn [v3_local].
    + destruct tb; cbn [app alone v3_step orb fst snd].
      * cbv beta iota in H. rewrite bind_run in H. cbn [andb String.eqb]. destruct (v3_table E s aw1) as (aw2 & [[b2 o2]|m| |]); try discriminate. rewrite job_done_finish in H. cbn [fst snd v3_local] in *. destruct o2; congruence.
      * cbv beta iota in H. rewrite bind_run in H. cbn [ret] in H. rewrite job_done_finish in H. cbn [fst snd] in H. congruence.
    + assert (X : (aw', Ok tt) = (finish (false, ""%string) aw1, Ok tt)) by (rewrite <- H; rewrite bind_run; cbn [ret]; apply job_done_finish). injection X as ->. destruct tb; reflexivity.
Qed.

(** *** the jobs work on their own file, table and offset *)
Section Jobs.
Variables (E : env) (ps : list string) (sk : writer) (nt no : nat).
Hypothesis HE : forall k, e_fault E k = false.
Hypothesis HS : a_sinks sk = map open_file ps.
Lemma steady_sink a w i : steady sk nt no (a, w) -> (i < List.length ps)%nat -> nth i (a_sinks a) None = open_file (nth i ps "").
Proof.
  intros (A & _) Hi. cbn [fst] in A. assert (X : a_sinks a = map open_file ps) by (rewrite <- HS, <- A; reflexivity). rewrite X.
  rewrite (nth_indep (map open_file ps) None (open_file ""%string)) by (rewrite map_length; auto). apply map_nth.
Qed.
Lemma steady_buf a w : steady sk nt no (a, w) -> a_bufs a = a_bufs sk /\ a_cfg a = a_cfg sk.
Proof. intros (A & _). cbn [fst] in A. rewrite <- A. auto. Qed.
Lemma v2_body_open i a w : steady sk nt no (a, w) -> (i < List.length ps)%nat -> v2_body E i (a, w) = ((a, wput (nth i ps "") w (0, nth i (a_bufs sk) [])), Ok (true, ""%string)).
Proof.
  intros H Hi. unfold v2_body. rewrite bind_run. cbn [getA fst]. destruct (steady_buf a w H) as [-> _]. unfold catchM. rewrite bind_run, (on_sink_open E i a w 0 _ _ HE (steady_sink a w i H Hi)). reflexivity.
Qed.
Lemma v2_own i f : (i < List.length ps)%nat -> In (Act f) (v2_pool_job E i) -> own_step ps sk nt no i f.
Proof.
  intros Hi [H|[H|[]]]; [|discriminate]. injection H as <-. exists (fun _ t o => ((true, ""%string), t, o, [(0, nth i (a_bufs sk) [])])). intros l a w H. rewrite (v2_body_open i a w H Hi). rewrite put3_same. reflexivity.
Qed.
(** the new table of v3_chunk *)
Definition v3_tab (ci : nat) (t : list Z) (o : Z) : outcome (list Z) :=
  let? idx := shard_internal_index (c_dims (a_cfg sk)) (Z.of_nat ci) in
  let? t1 := table_set t (u32 (2 * idx)) o in
  table_set t1 (u32 (u32 (2 * idx) + 1)) (zlen (nth ci (a_bufs sk) [])).
Lemma v3_chunk_open s b ci a w : steady sk nt no (a, w) -> (s < List.length ps)%nat ->
  v3_chunk E s b ci (a, w) =
  let o := nth s (a_offsets a) 0 in let data := nth ci (a_bufs sk) [] in let w' := wput (nth s ps "") w (o, data) in
  match v3_tab ci (nth s (a_tables a) []) o with
  | Ok t2 => ((put3 a s t2 (u64 (o + zlen data)), w'), Ok (true, None))
  | Throw m => ((a, w'), Ok (true, Some m))
  | UB => ((a, w'), UB)
  | Hang => ((a, w'), Hang)
  end.
Proof.
  intros H Hi. unfold v3_chunk. rewrite bind_run. cbn [getA fst]. destruct (steady_buf a w H) as [-> ->]. set (data := nth ci (a_bufs sk) []). set (o := nth s (a_offsets a) 0).
  rewrite bind_run. unfold catchM at 1. rewrite bind_run, (on_sink_open E s a w o _ _ HE (steady_sink a w s H Hi)). cbn [ret]. cbv beta iota zeta.
  unfold catchM, v3_tab, liftM. rewrite bind_run. destruct (shard_internal_index (c_dims (a_cfg sk)) (Z.of_nat ci)) as [idx|m| |]; cbn [obind]; try reflexivity.
  rewrite bind_run. fold o. destruct (table_set (nth s (a_tables a) []) (u32 (2 * idx)) o) as [t1|m| |]; cbn [obind]; try reflexivity.
  rewrite bind_run. fold data. destruct (table_set t1 (u32 (u32 (2 * idx) + 1)) (zlen data)) as [t2|m| |]; cbn [obind]; try reflexivity.
Qed.
Lemma v3_table_open s a w : steady sk nt no (a, w) -> (s < List.length ps)%nat ->
  v3_table E s (a, w) = ((a, wput (nth s ps "") w (nth s (a_offsets a) 0, table_bytes (nth s (a_tables a) []))), Ok (true, None)).
Proof.
  intros H Hi. unfold v3_table. rewrite bind_run. cbn [getA fst]. unfold catchM. rewrite bind_run, (on_sink_open E s a w _ _ _ HE (steady_sink a w s H Hi)). reflexivity.
Qed.
Lemma v3_own tb cis s f : (s < List.length ps)%nat -> In (Act f) (v3_pool_job E tb cis s) -> own_step ps sk nt no s f.
Proof.
  intros Hi H. unfold v3_pool_job in H. destruct H as [H|H].
  { injection H as <-. exists (fun _ t o => ((false, ""%string), t, o, [])). intros l a w _. rewrite put3_same. reflexivity. }
  rewrite !in_app_iff in H. destruct H as [H|[H|[H|[]]]]; [| |discriminate].
  - set (first := true) in H. clearbody first. revert first H. induction (nth s cis []) as [|c cs IH]; intros first H; [destruct H|]. destruct H as [H|H]; [|eapply IH; eauto]. unfold v3_step in H. injection H as <-.
    exists (fun l t o => if first || fst l && String.eqb (snd l) "" then
      match v3_tab c t o with
      | Ok t2 => ((true, ""%string), t2, u64 (o + zlen (nth c (a_bufs sk) [])), [(o, nth c (a_bufs sk) [])])
      | Throw m => ((true, ("Failed to write chunk: " ++ m)%string), t, o, [(o, nth c (a_bufs sk) [])])
      | _ => (undefined, t, o, [(o, nth c (a_bufs sk) [])])
      end else (l, t, o, [])).
    intros l a w HS'. destruct (first || fst l && String.eqb (snd l) ""); [|rewrite put3_same; reflexivity]. rewrite (v3_chunk_open s (fst l) c a w HS' Hi). cbv zeta. destruct (v3_tab c (nth s (a_tables a) []) (nth s (a_offsets a) 0)); rewrite ?put3_same; reflexivity.
  - destruct tb; [|destruct H]. destruct H as [H|[]]. unfold v3_step in H. injection H as <-.
    exists (fun l t o => if false || fst l && String.eqb (snd l) "" then ((true, ""%string), t, o, [(o, table_bytes t)]) else (l, t, o, [])).
    intros l a w HS'. cbn [orb]. destruct (fst l && String.eqb (snd l) ""); [|rewrite put3_same; reflexivity]. rewrite (v3_table_open s a w HS' Hi), put3_same. reflexivity.
Qed.
End Jobs.

(** *** the flush in the pool *)
Section Flush.
Variables (E : env) (ps : list string).
Hypothesis HE : forall k, e_fault E k = false.
Hypothesis HP : NoDup ps.
Variable jb : nat -> job AW.             (* the jobs *)
Variable sq : nat -> M AW unit.          (* the same jobs in the sequential model *)
Hypothesis H_own : forall sk nt no i f, a_sinks sk = map open_file ps -> (i < List.length ps)%nat -> In (Act f) (jb i) -> own_step ps sk nt no i f.
Hypothesis H_seq : forall i aw aw', sq i aw = (aw', Ok tt) -> let '(l, aw1) := alone (jb i) l0 aw in aw' = finish l aw1.
Hypothesis H_one : forall i, exists acts, jb i = acts ++ [CountDown] /\ cds acts = 0%nat.
Let js := map jb (seq 0 (List.length ps)).
Lemma js_nth i f : In (Act f) (nth i js []) -> (i < List.length ps)%nat /\ In (Act f) (jb i).
Proof.
  intros H. assert (L : (i < List.length ps)%nat). { destruct (Nat.lt_ge_cases i (List.length ps)); auto. rewrite nth_overflow in H; [destruct H|]. unfold js. rewrite map_length, seq_length. lia. }
  split; auto. unfold js in H. rewrite (nth_indep _ [] (jb 0%nat)), map_nth, seq_nth in H by (rewrite ?map_length, ?seq_length; lia). exact H.
Qed.
Lemma js_nth' i : (i < List.length ps)%nat -> nth i js [] = jb i.
Proof. intros L. unfold js. rewrite (nth_indep _ [] (jb 0%nat)), map_nth, seq_nth by (rewrite ?map_length, ?seq_length; lia). reflexivity. Qed.

(** sequentially, when every job succeeds *)
Lemma seq_in_turn : forall m k aw aw', (k + m <= List.length ps)%nat -> miter sq (seq k m) aw = (aw', Ok tt) ->
  (forall i aw1 aw2, (i < List.length ps)%nat -> steady (skel (fst aw)) (List.length (a_tables (fst aw))) (List.length (a_offsets (fst aw))) aw1 -> sq i aw1 = (aw2, Ok tt) -> fst (fst (alone (jb i) l0 aw1)) = true) ->
  a_sinks (fst aw) = map open_file ps ->
  aw' = in_turn (map jb (seq k m)) aw /\ forall i, (k <= i < k + m)%nat -> fst (fst (alone (jb i) l0 aw)) = true.
Proof.
  induction m as [|m IH]; intros k aw aw' Hk H HO HSk; cbn [seq miter map] in *.
  - cbn in H. injection H as <-. split; auto. intros i Hi. lia.
  - rewrite bind_run in H. destruct (sq k aw) as (aw1 & [[]|e| |]) eqn:E1; try discriminate. pose proof (HO k aw aw1 ltac:(lia) ltac:(repeat split) E1) as O1. pose proof (H_seq k aw aw1 E1) as X. destruct (alone (jb k) l0 aw) as (l & aw2) eqn:AK. cbn [fst] in O1. unfold finish in X. rewrite O1 in X. subst aw2.
    set (sk := skel (fst aw)) in *. set (nt := List.length (a_tables (fst aw))) in *. set (no := List.length (a_offsets (fst aw))) in *.
    assert (ST : steady sk nt no aw) by (repeat split).
    assert (FC : forall i f, (i < List.length ps)%nat -> In (Act f) (jb i) -> own_step ps sk nt no i f) by (intros; eapply H_own; eauto).
    pose proof (alone_inv (steady sk nt no) (pj E ps) (rst E ps ""%string) js) as AI.
    pose proof (AI (fun i f l d H0 => proj1 (own_facts E ps sk nt no HP i f (proj1 (js_nth i f H0)) (FC i f (proj1 (js_nth i f H0)) (proj2 (js_nth i f H0)))) l d)
      (fun i k f l d H0 Hd => proj1 (proj2 (proj2 (own_facts E ps sk nt no HP i f (proj1 (js_nth i f H0)) (FC i f (proj1 (js_nth i f H0)) (proj2 (js_nth i f H0)))))) k l d Hd)
      (fun i f l d H0 Hd => proj2 (proj2 (proj2 (own_facts E ps sk nt no HP i f (proj1 (js_nth i f H0)) (FC i f (proj1 (js_nth i f H0)) (proj2 (js_nth i f H0)))))) ""%string l d Hd)) as AI'. clear AI.
    destruct (AI' k (jb k) l0 aw ltac:(rewrite js_nth' by lia; apply incl_refl) ST) as (S1 & P1 & _). rewrite AK in S1, P1. cbn [snd] in S1, P1.
    destruct (IH (S k) aw1 aw' ltac:(lia) H) as [A B].
    + destruct S1 as (T1 & T2 & T3). rewrite T1, T2, T3. exact HO.
    + destruct S1 as (T1 & _). assert (X : a_sinks (skel (fst aw1)) = a_sinks (skel (fst aw))) by (rewrite T1; reflexivity). exact (eq_trans X HSk).
    + split; [unfold in_turn; cbn [fold_left]; rewrite AK; exact A|]. intros i Hi. destruct (Nat.eq_dec i k) as [->|N]; [rewrite AK; exact O1|].
      rewrite <- (B i ltac:(lia)). f_equal. refine (proj1 (alone_own (steady sk nt no) (pj E ps) js _ _ i (jb i) l0 aw aw1 _ ST S1 _)).
      * intros i' f l' d H0. exact (proj1 (own_facts E ps sk nt no HP i' f (proj1 (js_nth i' f H0)) (FC i' f (proj1 (js_nth i' f H0)) (proj2 (js_nth i' f H0)))) l' d).
      * intros i' f l' d d' H0. exact (proj1 (proj2 (own_facts E ps sk nt no HP i' f (proj1 (js_nth i' f H0)) (FC i' f (proj1 (js_nth i' f H0)) (proj2 (js_nth i' f H0))))) l' d d').
      * rewrite js_nth' by lia. apply incl_refl.
      * symmetry. apply P1. auto.
Qed.
Lemma same_writer a b : skel a = skel b -> List.length (a_tables a) = List.length (a_tables b) -> List.length (a_offsets a) = List.length (a_offsets b) ->
  (forall i, (i < List.length (a_tables a))%nat -> nth i (a_tables a) [] = nth i (a_tables b) []) -> (forall i, (i < List.length (a_offsets a))%nat -> nth i (a_offsets a) 0 = nth i (a_offsets b) 0) -> a = b.
Proof.
  intros HK H1 H2 H3 H4. assert (A : a_tables a = a_tables b) by (apply nth_ext with [] []; auto). assert (B : a_offsets a = a_offsets b) by (apply nth_ext with 0 0; auto).
  destruct a, b. cbn in *. unfold skel, set_offsets, set_tables in HK. cbn in HK. injection HK as -> -> -> -> -> -> -> -> ->. subst. reflexivity.
Qed.
Lemma flush_any_order n c d t0 s0 t s k aw' :
  disciplined false 0 c -> steps on_error (init n c d) t0 s0 -> prog s0 = batch js k -> idle s0 ->
  a_sinks (fst (data s0)) = map open_file ps ->
  (List.length (a_tables (fst (data s0))) <= List.length ps)%nat -> (List.length (a_offsets (fst (data s0))) <= List.length ps)%nat ->
  miter sq (seq 0 (List.length ps)) (data s0) = (aw', Ok tt) ->
  (forall i aw1 aw2, (i < List.length ps)%nat -> steady (skel (fst (data s0))) (List.length (a_tables (fst (data s0)))) (List.length (a_offsets (fst (data s0)))) aw1 -> sq i aw1 = (aw2, Ok tt) -> fst (fst (alone (jb i) l0 aw1)) = true) ->
  steps on_error s0 (t ++ [LPass]) s -> ~ In LPass t ->
  prog s = k /\ idle s /\ fst (data s) = fst aw' /\ w_err (snd (data s)) = w_err (snd aw') /\ w_conns (snd (data s)) = w_conns (snd aw') /\
  forall p, file_of E (w_trace (snd (data s))) p = file_of E (w_trace (snd aw')) p /\ dir_of E (w_trace (snd (data s))) p = dir_of E (w_trace (snd aw')) p.
Proof.
  intros Hc HR HPr HI HSk HT HO' HM HO HS HN. destruct (seq_in_turn (List.length ps) 0 (data s0) aw' ltac:(lia) HM HO HSk) as [-> OK]. fold js.
  set (sk := skel (fst (data s0))) in *. set (nt := List.length (a_tables (fst (data s0)))) in *. set (no := List.length (a_offsets (fst (data s0)))) in *.
  assert (ST : steady sk nt no (data s0)) by (repeat split).
  assert (FC : forall i f, In (Act f) (nth i js []) -> (forall l d, steady sk nt no d -> steady sk nt no (snd (f l d))) /\
    (forall l d d', steady sk nt no d -> steady sk nt no d' -> pj E ps i d = pj E ps i d' -> fst (f l d) = fst (f l d') /\ pj E ps i (snd (f l d)) = pj E ps i (snd (f l d'))) /\
    (forall k l d, steady sk nt no d -> k <> i -> pj E ps k (snd (f l d)) = pj E ps k d) /\ (forall q l d, steady sk nt no d -> rst E ps q (snd (f l d)) = rst E ps q d)).
  { intros i f H0. destruct (js_nth i f H0) as [A B]. apply own_facts; auto. }
  assert (LJ : List.length js = List.length ps) by (unfold js; rewrite map_length, seq_length; reflexivity).
  assert (R : forall q, prog s = k /\ idle s /\ rst E ps q (data s) = rst E ps q (in_turn js (data s0)) /\ forall i, (i < List.length js)%nat -> pj E ps i (data s) = pj E ps i (in_turn js (data s0))).
  { intros q. apply (batch_result on_error (steady sk nt no) (pj E ps) (rst E ps q) js k n c d t0 s0 t s); auto.
    - intros i f l d1 H0. apply (proj1 (FC i f H0)).
    - intros i f l d1 d2 H0. apply (proj1 (proj2 (FC i f H0))).
    - intros i k' f l d1 H0. apply (proj1 (proj2 (proj2 (FC i f H0)))).
    - intros i f l d1 H0. apply (proj2 (proj2 (proj2 (FC i f H0)))).
    - unfold js. apply Forall_forall. intros j Hj. apply in_map_iff in Hj as (i & <- & _). apply H_one.
    - intros i Hi. rewrite LJ in Hi. rewrite js_nth' by auto. apply OK. lia. }
  destruct (R ""%string) as (A & B & C & P). split; auto. split; auto. unfold rst in C. apply pair_equal_spec in C as [C _]. apply pair_equal_spec in C as [C _]. apply pair_equal_spec in C as [C C2]. apply pair_equal_spec in C as [C C1].
  apply pair_equal_spec in C1 as [C1 C1']. apply pair_equal_spec in C2 as [C2 C2']. rewrite LJ in P.
  assert (STE : steady sk nt no (in_turn js (data s0))).
  { destruct (in_turn_own (steady sk nt no) (pj E ps) (rst E ps ""%string) js (fun i f l d1 H0 => proj1 (FC i f H0) l d1) (fun i f l d1 d2 H0 => proj1 (proj2 (FC i f H0)) l d1 d2) (fun i k' f l d1 H0 H1 => proj1 (proj2 (proj2 (FC i f H0))) k' l d1 H1) (fun i f l d1 H0 => proj2 (proj2 (proj2 (FC i f H0))) ""%string l d1) (data s0) ST (List.length js) (le_n _)) as (X & _). rewrite firstn_all in X. exact X. }
  destruct STE as (_ & L1 & L2). split; [|split; [auto|split; auto]].
  - apply same_writer; auto.
    + intros i Hi. rewrite C1, L1 in Hi. specialize (P i ltac:(lia)). unfold pj in P. congruence.
    + intros i Hi. rewrite C1', L2 in Hi. specialize (P i ltac:(lia)). unfold pj in P. congruence.
  - intros p. destruct (R p) as (_ & _ & X & _). unfold rst in X. apply pair_equal_spec in X as [X X1]. apply pair_equal_spec in X as [_ X]. split; auto.
    destruct (existsb (String.eqb p) ps) eqn:EX; auto. apply existsb_exists in EX as (q & Hq & EQ). apply String.eqb_eq in EQ. subst q. destruct (In_nth ps p ""%string Hq) as (i & Hi & <-). specialize (P i Hi). unfold pj in P. apply pair_equal_spec in P as [_ P]. rewrite (proj2 (Nat.ltb_lt i (List.length ps)) Hi) in P. exact P.
Qed.
End Flush.

(** the v3 job succeeds unless its shard has no chunks *)
Lemma v3_chunks_success E sk nt no ps s : (forall k, e_fault E k = false) -> a_sinks sk = map open_file ps -> (s < List.length ps)%nat -> forall cs b a w aw' r,
  steady sk nt no (a, w) -> v3_chunks E s cs b (a, w) = (aw', Ok r) -> (cs <> [] \/ b = true) -> fst r = true /\ steady sk nt no aw'.
Proof.
  intros HE HS Hs. induction cs as [|c cs IH]; intros b a w aw' r ST H HC; cbn [v3_chunks] in H.
  - cbn in H. injection H as <- <-. destruct HC as [HC| ->]; [contradiction|auto].
  - rewrite bind_run, (v3_chunk_open E ps sk nt no HE HS s b c a w ST Hs) in H. cbv zeta in H. destruct (v3_tab sk c (nth s (a_tables a) []) (nth s (a_offsets a) 0)) as [t2|m| |]; try discriminate.
    + eapply IH; [|exact H|auto]. destruct ST as (A & B & C). cbn [fst] in *. split; [exact A|]. unfold put3. cbn [fst a_tables a_offsets set_tables set_offsets]. rewrite !upd_length. auto.
    + cbn in H. injection H as <- <-. auto.
Qed.
Lemma v3_success E sk nt no ps tb cis s aw1 aw2 : (forall k, e_fault E k = false) -> a_sinks sk = map open_file ps -> (s < List.length ps)%nat -> nth s cis [] <> [] ->
  steady sk nt no aw1 -> v3_job E tb cis s aw1 = (aw2, Ok tt) -> fst (fst (alone (v3_pool_job E tb cis s) l0 aw1)) = true.
Proof.
  intros HE HS Hs HN ST H. unfold v3_pool_job. rewrite alone_cons. cbv beta iota. rewrite alone_app, (v3_steps_seq E s _ true (false, ""%string) aw1 eq_refl). cbn [fst].
  unfold v3_job in H. rewrite bind_run in H. destruct (v3_chunks E s (nth s cis []) false aw1) as (aw3 & r) eqn:EQ. destruct aw1 as (a & w).
  destruct r as [r|m| |]; try discriminate. destruct (v3_chunks_success E sk nt no ps s HE HS Hs _ _ _ _ _ _ ST EQ (or_introl HN)) as [FR ST'].
  replace (match nth s cis [] with [] => (false, ""%string) | _ => v3_local (Ok r) end) with (v3_local (Ok r)) by (destruct (nth s cis []); [contradiction|reflexivity]).
  destruct r as [[] [m|]]; try discriminate; cbn [v3_local].
  - destruct tb; cbn [app alone v3_step orb fst snd andb String.eqb]; reflexivity.
  - destruct aw3 as (a3 & w3). destruct tb; cbn [app alone v3_step orb fst snd andb String.eqb]; [|reflexivity]. rewrite (v3_table_open E ps sk nt no HE HS s a3 w3 ST' Hs). reflexivity.
Qed.
Lemma cds_v3_steps E s : forall cs b, cds (v3_steps E s b cs) = 0%nat.
Proof. induction cs as [|c cs IH]; intros b; [reflexivity|]. change (cds (v3_steps E s false cs) = 0%nat). apply IH. Qed.

(** *** compression *)
Lemma compress_body_run E pr bpp i a w : compress_body E pr bpp i (a, w) =
  match e_compress E pr bpp (nth i (a_bufs a) []) with
  | Some out => ((set_bufs a (upd (a_bufs a) i out), w), Ok (true, ""%string))
  | None => ((a, w), Ok (false, "Failed to compress chunk: vector::_M_default_append"%string))
  end.
Proof. unfold compress_body. rewrite bind_run. cbn [getA fst]. destruct (e_compress E pr bpp (nth i (a_bufs a) [])); reflexivity. Qed.
Lemma upd_same_nth {A} (l : list A) i x d : nth i l d = x -> upd l i x = l.
Proof. intros <-. apply upd_nth_same. Qed.
Lemma set_bufs_id a : set_bufs a (a_bufs a) = a.
Proof. destruct a; reflexivity. Qed.
Lemma same_bufs a b : set_bufs a [] = set_bufs b [] -> a_bufs a = a_bufs b -> a = b.
Proof. intros H1 H2. rewrite <- (set_bufs_id a), <- (set_bufs_id b), H2. change (set_bufs (set_bufs a []) (a_bufs b) = set_bufs (set_bufs b []) (a_bufs b)). rewrite H1. reflexivity. Qed.

Lemma same_aw (x y : AW) : set_bufs (fst x) [] = set_bufs (fst y) [] -> List.length (a_bufs (fst x)) = List.length (a_bufs (fst y)) -> snd x = snd y ->
  (forall i, (i < List.length (a_bufs (fst x)))%nat -> nth i (a_bufs (fst x)) [] = nth i (a_bufs (fst y)) []) -> x = y.
Proof. destruct x as (a & w), y as (a' & w'). cbn [fst snd]. intros H1 H2 -> H3. f_equal. apply same_bufs; auto. apply nth_ext with [] []; auto. Qed.
Lemma alone_compress E pr bpp i d : fst (fst (alone (compress_pool_job E pr bpp i) l0 d)) = match e_compress E pr bpp (nth i (a_bufs (fst d)) []) with Some _ => true | None => false end.
Proof. destruct d as (a & w). unfold compress_pool_job. cbn [alone]. rewrite compress_body_run. cbn [fst]. destruct (e_compress _ _ _ _); reflexivity. Qed.
Lemma compress_any_order E pr bpp n c d t0 s0 t s k m :
  m = List.length (a_bufs (fst (data s0))) ->
  (forall i, (i < m)%nat -> e_compress E pr bpp (nth i (a_bufs (fst (data s0))) []) <> None) ->
  disciplined false 0 c -> steps on_error (init n c d) t0 s0 -> prog s0 = batch (map (compress_pool_job E pr bpp) (seq 0 m)) k -> idle s0 ->
  steps on_error s0 (t ++ [LPass]) s -> ~ In LPass t ->
  prog s = k /\ idle s /\ data s = in_turn (map (compress_pool_job E pr bpp) (seq 0 m)) (data s0).
Proof.
  intros Hm HC Hc HR HPr HI HS HN. set (js := map (compress_pool_job E pr bpp) (seq 0 m)) in *.
  assert (LJ : List.length js = m) by (unfold js; rewrite map_length, seq_length; reflexivity).
  assert (NJ : forall i, (i < m)%nat -> nth i js [] = compress_pool_job E pr bpp i) by (intros i Hi; unfold js; rewrite (nth_indep _ [] (compress_pool_job E pr bpp 0)), map_nth, seq_nth by (rewrite ?map_length, ?seq_length; lia); reflexivity).
  assert (IJ : forall i f, In (Act f) (nth i js []) -> (i < m)%nat /\ f = fun _ aw => let '(aw', r) := compress_body E pr bpp i aw in (local_of r, aw')).
  { intros i f H. assert (Hi : (i < m)%nat) by (destruct (Nat.lt_ge_cases i m); auto; rewrite nth_overflow in H by lia; destruct H). split; auto. rewrite NJ in H by auto. destruct H as [H|[H|[]]]; [injection H as <-; reflexivity|discriminate]. }
  set (I := fun d : AW => List.length (a_bufs (fst d)) = m).
  set (pr' := fun i (d : AW) => nth i (a_bufs (fst d)) []). set (rs := fun d : AW => (set_bufs (fst d) [], List.length (a_bufs (fst d)), snd d)).
  assert (H1 : forall i f l d, In (Act f) (nth i js []) -> I d -> I (snd (f l d))).
  { intros i f l (a & w) H HI'. destruct (IJ i f H) as [Hi ->]. rewrite compress_body_run. destruct (e_compress _ _ _ _); unfold I in *; cbn in *; rewrite ?upd_length; auto. }
  assert (H2 : forall i f l d d', In (Act f) (nth i js []) -> I d -> I d' -> pr' i d = pr' i d' -> fst (f l d) = fst (f l d') /\ pr' i (snd (f l d)) = pr' i (snd (f l d'))).
  { intros i f l (a & w) (a' & w') H I1 I2 EQ. destruct (IJ i f H) as [Hi ->]. rewrite !compress_body_run. unfold pr', I in *. cbn [fst] in *. rewrite EQ. destruct (e_compress _ _ _ _); cbn; auto. split; auto. apply nth_upd_len; congruence. }
  assert (H3 : forall i k f l d, In (Act f) (nth i js []) -> I d -> k <> i -> pr' k (snd (f l d)) = pr' k d).
  { intros i k' f l (a & w) H I1 N. destruct (IJ i f H) as [Hi ->]. rewrite compress_body_run. unfold pr'. destruct (e_compress _ _ _ _); cbn; auto. apply nth_upd_neq. auto. }
  assert (H4 : forall i f l d, In (Act f) (nth i js []) -> I d -> rs (snd (f l d)) = rs d).
  { intros i f l (a & w) H I1. destruct (IJ i f H) as [Hi ->]. rewrite compress_body_run. unfold rs. destruct (e_compress _ _ _ _); cbn [snd fst a_bufs set_bufs]; rewrite ?upd_length; reflexivity. }
  assert (ID : I (data s0)) by (symmetry; exact Hm).
  destruct (batch_result on_error I pr' rs js k n c d t0 s0 t s H1 H2 H3 H4) as (A & B & C & P); auto.
  - unfold js. apply Forall_forall. intros j Hj. apply in_map_iff in Hj as (i & <- & _). exists (firstn 1 (compress_pool_job E pr bpp i)). split; reflexivity.
  - intros i Hi. rewrite LJ in Hi. rewrite NJ by auto. specialize (HC i Hi). refine (eq_trans (alone_compress E pr bpp i (data s0)) _). destruct (e_compress _ _ _ _); [reflexivity|contradiction].
  - split; auto. split; auto. destruct (in_turn_own I pr' rs js H1 H2 H3 H4 (data s0) ID (List.length js) (le_n _)) as (J1 & _). rewrite firstn_all in J1. unfold rs in C. apply pair_equal_spec in C as [C C2]. apply pair_equal_spec in C as [C1 C3]. apply same_aw; auto. intros i Hi. apply P. rewrite LJ. unfold I in J1. eapply Nat.lt_le_trans; [exact Hi|]. rewrite C3. apply Nat.eq_le_incl. exact J1.
Qed.
Lemma compress_seq E pr bpp : forall m k aw, (forall i, (k <= i < k + m)%nat -> e_compress E pr bpp (nth i (a_bufs (fst aw)) []) <> None) ->
  miter (fun i => a <- getA ;; match e_compress E pr bpp (nth i (a_bufs a) []) with
                               | Some out => modA (fun a => set_bufs a (upd (a_bufs a) i out)) ;;; onWd (job_done (true, ""%string))
                               | None => onWd (job_done (false, "Failed to compress chunk: vector::_M_default_append"%string)) end) (seq k m) aw =
  (in_turn (map (compress_pool_job E pr bpp) (seq k m)) aw, Ok tt).
Proof.
  induction m as [|m IH]; intros k (a & w) H; [reflexivity|]. cbn [seq miter map]. unfold in_turn. cbn [fold_left]. rewrite bind_run. cbn [getA]. unfold compress_pool_job at 2. cbn [alone]. rewrite compress_body_run. cbn [fst].
  rewrite bind_run. cbn [getA fst]. specialize (H k ltac:(lia)) as Hk. cbn [fst] in Hk. destruct (e_compress E pr bpp (nth k (a_bufs a) [])) as [out|] eqn:EO; [|contradiction]. cbn [snd local_of]. rewrite bind_run. cbn [modA fst snd]. rewrite job_done_finish. cbn [finish fst].
  apply IH. intros i Hi. cbn [fst a_bufs set_bufs]. rewrite nth_upd_neq by lia. apply (H i). lia.
Qed.
