(** The files at every moment of a flush, whatever the schedule of its write jobs. *)
Require Import ZArith List Bool String Lia.
Require Import Verif.Base Verif.Dim Verif.World Verif.Writer Verif.Radix Verif.SinkProofs Verif.CrashSpec Verif.CrashStore Verif.Pool Verif.PoolSpec Verif.PoolProofs Verif.PoolBatch Verif.Jobs Verif.JobProofs.
Import ListNotations.
Open Scope string_scope. Open Scope list_scope. Open Scope Z_scope.

(** *** the trace of one job *)
Lemma trace_wputs p l : forall w, w_trace (wputs p w l) = w_trace w ++ flat_map (wev p) l.
Proof. induction l as [|ow l IH]; intros w; cbn [flat_map]; [cbn; rewrite app_nil_r; reflexivity|]. change (wputs p w (ow :: l)) with (wputs p (wput p w ow) l). rewrite IH. unfold wput. cbn [w_trace]. rewrite <- app_assoc. reflexivity. Qed.
Definition write_to (ps : list string) (e : event) : Prop := exists p off data, In p ps /\ e = EWrite p off data.
Lemma wevs_write ps p l : In p ps -> Forall (write_to ps) (flat_map (wev p) l).
Proof.
  intros Hp. apply Forall_forall. intros e He. apply in_flat_map in He as ((off & data) & _ & He). unfold wev in He. cbn [fst snd] in He. destruct (zlen data =? 0); [contradiction|]. destruct He as [<-|[]]. exists p, off, data. auto.
Qed.
Lemma wevs_other p q l : p <> q -> filter (concerns q) (flat_map (wev p) l) = [].
Proof.
  intros N. induction l as [|ow l IH]; cbn [flat_map]; auto. rewrite filter_app, IH, app_nil_r. unfold wev. destruct (zlen (snd ow) =? 0); auto. cbn. rewrite (proj2 (String.eqb_neq p q) N). reflexivity.
Qed.

Section Trace.
Variables (ps : list string) (sk : writer) (nt no : nat) (tr0 : list event).
Hypothesis HP : NoDup ps.
Definition pj' (i : nat) (d : AW) : list Z * Z * list event :=
  (nth i (a_tables (fst d)) [], nth i (a_offsets (fst d)) 0, if (i <? List.length ps)%nat then filter (concerns (nth i ps "")) (w_trace (snd d)) else []).
Definition steady' (d : AW) : Prop := steady sk nt no d /\ exists L, w_trace (snd d) = tr0 ++ L /\ Forall (write_to ps) L.
Lemma own_facts' s f : (s < List.length ps)%nat -> own_step ps sk nt no s f ->
  (forall l d, steady' d -> steady' (snd (f l d)) /\ exists L, w_trace (snd (snd (f l d))) = w_trace (snd d) ++ L) /\
  (forall l d d', steady' d -> steady' d' -> pj' s d = pj' s d' -> fst (f l d) = fst (f l d') /\ pj' s (snd (f l d)) = pj' s (snd (f l d'))) /\
  (forall k l d, steady' d -> k <> s -> pj' k (snd (f l d)) = pj' k d).
Proof.
  intros HS (g & G). assert (IN : In (nth s ps "") ps) by (apply nth_In; auto). split; [|split].
  - intros l (a & w) [H (L & HL & FL)]. rewrite (G l a w H). destruct (g l _ _) as (((l' & t') & o') & ws). cbn [fst snd] in *. split; [split|].
    + destruct H as (A & B & C). split; [exact A|]. cbn [fst snd put3 a_tables a_offsets set_tables set_offsets] in *. rewrite !upd_length. auto.
    + exists (L ++ flat_map (wev (nth s ps "")) ws). cbn [snd]. rewrite trace_wputs, HL, app_assoc. split; auto. apply Forall_app. split; auto using wevs_write.
    + exists (flat_map (wev (nth s ps "")) ws). apply trace_wputs.
  - intros l (a & w) (a' & w') [H _] [H' _] EP. rewrite (G l a w H), (G l a' w' H'). unfold pj' in EP. cbn [fst snd] in EP. apply pair_equal_spec in EP as [EP E3]. apply pair_equal_spec in EP as [E1 E2]. rewrite E1, E2. destruct (g l _ _) as (((l' & t') & o') & ws). cbn [fst snd]. split; auto.
    destruct H as (A & B & C), H' as (A' & B' & C'). cbn [fst] in *. unfold pj'. cbn [fst snd put3 a_tables a_offsets set_tables set_offsets].
    rewrite (nth_upd_len (a_tables a) (a_tables a') s t' []) by congruence. rewrite (nth_upd_len (a_offsets a) (a_offsets a') s o' 0) by congruence. f_equal.
    rewrite (proj2 (Nat.ltb_lt s (List.length ps)) HS) in *. rewrite !trace_wputs, !filter_app, E3. reflexivity.
  - intros k l (a & w) [H _] N. rewrite (G l a w H). destruct (g l _ _) as (((l' & t') & o') & ws). unfold pj'. cbn [fst snd put3 a_tables a_offsets set_tables set_offsets]. rewrite !nth_upd_neq by auto. f_equal.
    destruct (k <? List.length ps)%nat eqn:K; auto. apply Nat.ltb_lt in K. rewrite trace_wputs, filter_app, wevs_other, app_nil_r; auto. intros X. apply N. symmetry. eapply (proj1 (NoDup_nth ps ""%string)); eauto.
Qed.
End Trace.

Section Flush.
Variables (E : env) (ps : list string).
Hypothesis HP : NoDup ps.
Variable jb : nat -> job AW.
Variable sq : nat -> M AW unit.
Hypothesis H_own : forall sk nt no i f, a_sinks sk = map open_file ps -> (i < List.length ps)%nat -> In (Act f) (jb i) -> own_step ps sk nt no i f.
Hypothesis H_seq : forall i aw aw', sq i aw = (aw', Ok tt) -> let '(l, aw1) := alone (jb i) l0 aw in aw' = finish l aw1.
Hypothesis H_one : forall i, exists acts, jb i = acts ++ [CountDown] /\ cds acts = 0%nat.
Let js := map jb (seq 0 (List.length ps)).

Lemma flush_moment n c d t0 s0 t s k aw' :
  disciplined false 0 c -> steps on_error (init n c d) t0 s0 -> prog s0 = batch js k -> idle s0 ->
  a_sinks (fst (data s0)) = map open_file ps ->
  miter sq (seq 0 (List.length ps)) (data s0) = (aw', Ok tt) ->
  (forall i aw1 aw2, (i < List.length ps)%nat -> steady (skel (fst (data s0))) (List.length (a_tables (fst (data s0)))) (List.length (a_offsets (fst (data s0)))) aw1 -> sq i aw1 = (aw2, Ok tt) -> fst (fst (alone (jb i) l0 aw1)) = true) ->
  steps on_error s0 t s -> ~ In LPass t ->
  exists L F, w_trace (snd (data s)) = w_trace (snd (data s0)) ++ L /\ w_trace (snd aw') = w_trace (snd (data s0)) ++ F /\
    Forall (write_to ps) L /\ Forall (write_to ps) F /\ forall p, exists M R, F = M ++ R /\ filter (concerns p) L = filter (concerns p) M.
Proof.
  intros Hc HR HPr HI HSk HM HO HS HN. destruct (seq_in_turn E ps HP jb sq H_own H_seq (List.length ps) 0 (data s0) aw' ltac:(lia) HM HO HSk) as [-> OK]. fold js.
  set (sk := skel (fst (data s0))) in *. set (nt := List.length (a_tables (fst (data s0)))) in *. set (no := List.length (a_offsets (fst (data s0)))) in *. set (tr0 := w_trace (snd (data s0))) in *.
  set (I := steady' ps sk nt no tr0).
  assert (ST : I (data s0)) by (split; [repeat split|exists []; rewrite app_nil_r; auto]).
  assert (LJ : List.length js = List.length ps) by (unfold js; rewrite map_length, seq_length; reflexivity).
  assert (FC : forall i f, In (Act f) (nth i js []) -> (forall l d, I d -> I (snd (f l d)) /\ exists L, w_trace (snd (snd (f l d))) = w_trace (snd d) ++ L) /\
    (forall l d d', I d -> I d' -> pj' ps i d = pj' ps i d' -> fst (f l d) = fst (f l d') /\ pj' ps i (snd (f l d)) = pj' ps i (snd (f l d'))) /\
    (forall k l d, I d -> k <> i -> pj' ps k (snd (f l d)) = pj' ps k d)).
  { intros i f H0. destruct (js_nth ps jb i f H0) as [A B]. apply own_facts'; auto. }
  assert (C1 : forall i f l d, In (Act f) (nth i js []) -> I d -> I (snd (f l d))) by (intros i f l d1 H0 H1; apply (proj1 (FC i f H0) l d1 H1)).
  assert (C2 : forall i f l d d', In (Act f) (nth i js []) -> I d -> I d' -> pj' ps i d = pj' ps i d' -> fst (f l d) = fst (f l d') /\ pj' ps i (snd (f l d)) = pj' ps i (snd (f l d'))) by (intros i f l d1 d2 H0; apply (proj1 (proj2 (FC i f H0)))).
  assert (C3 : forall i k f l d, In (Act f) (nth i js []) -> I d -> k <> i -> pj' ps k (snd (f l d)) = pj' ps k d) by (intros i k' f l d1 H0; apply (proj2 (proj2 (FC i f H0)))).
  assert (C4 : forall i (f : local -> AW -> local * AW) (l : local) d, In (Act f) (nth i js []) -> I d -> (fun _ : AW => tt) (snd (f l d)) = (fun _ : AW => tt) d) by auto.
  assert (OK' : forall i, (i < List.length js)%nat -> fst (fst (alone (nth i js []) l0 (data s0))) = true). { intros i Hi. rewrite LJ in Hi. unfold js. rewrite (js_nth' ps jb) by auto. apply OK. lia. }
  assert (HL : Forall (fun j => exists acts, j = acts ++ [CountDown] /\ cds acts = 0%nat) js). { unfold js. apply Forall_forall. intros j Hj. apply in_map_iff in Hj as (i & <- & _). apply H_one. }
  destruct (batch_during on_error I (pj' ps) (fun _ => tt) js k n c d t0 s0 t s C1 C2 C3 C4 HL ST OK' Hc HR HPr HI HS HN) as ([_ (L & EL & FL)] & _ & PB).
  assert (TR : forall i j l d, incl j (nth i js []) -> I d -> exists L, w_trace (snd (snd (alone j l d))) = w_trace (snd d) ++ L).
  { intros i. induction j as [|[f|] j IH]; intros l d1 Hi Hd; cbn [alone]; [exists []; rewrite app_nil_r; auto| |apply IH; auto; intros x Hx; apply Hi; right; auto].
    assert (HF : In (Act f) (nth i js [])) by (apply Hi; left; reflexivity). destruct (proj1 (FC i f HF) l d1 Hd) as [A (L1 & B)]. destruct (f l d1) as (l' & d'). cbn [snd] in *.
    destruct (IH l' d' (fun x Hx => Hi x (or_intror Hx)) A) as (L2 & X). exists (L1 ++ L2). rewrite X, B, app_assoc. reflexivity. }
  assert (TT : forall l dd i0, (forall j, In j l -> exists i, j = nth i js []) -> I dd -> exists L, w_trace (snd (in_turn l dd)) = w_trace (snd dd) ++ L /\ I (in_turn l dd) /\ i0 = i0 :> nat).
  { induction l as [|j l IH]; intros dd i0 Hj Hd; [exists []; rewrite app_nil_r; auto|]. destruct (Hj j (or_introl eq_refl)) as (i & ->). destruct (TR i (nth i js []) l0 dd (incl_refl _) Hd) as (L1 & X1).
    destruct (alone_inv I (pj' ps) (fun _ => tt) js C1 C3 C4 i (nth i js []) l0 dd (incl_refl _) Hd) as (A & _).
    destruct (IH (snd (alone (nth i js []) l0 dd)) i0 (fun j Hj' => Hj j (or_intror Hj')) A) as (L2 & X2 & A2 & _). exists (L1 ++ L2). split; auto. change (in_turn (nth i js [] :: l) dd) with (in_turn l (snd (alone (nth i js []) l0 dd))). rewrite X2, X1, app_assoc. reflexivity. }
  assert (AL : forall l, incl l js -> forall j, In j l -> exists i, j = nth i js []). { intros l Hl j Hj. apply Hl in Hj. destruct (In_nth js j [] Hj) as (i & _ & <-). eauto. }
  destruct (TT js (data s0) 0%nat (AL js (incl_refl _)) ST) as (F & EF & (_ & F' & EF' & FF) & _).
  assert (F' = F) by (rewrite EF in EF'; apply app_inv_head in EF'; auto). subst F'.
  exists L, F. split; auto. split; auto. split; auto. split; auto. intros p.
  destruct (in_dec string_dec p ps) as [Hp|Hp].
  2:{ exists [], F. split; auto. cbn. clear -FL Hp. induction FL as [|e L (q & off & dat & Hq & ->) _ IH]; cbn; auto. rewrite (proj2 (String.eqb_neq q p)); auto. intros ->. contradiction. }
  destruct (In_nth ps p ""%string Hp) as (i & Hi & <-). rewrite <- LJ in Hi. destruct (PB i Hi) as (pre & r & EN & EP).
  set (d1 := in_turn (firstn i js) (data s0)). destruct (in_turn_own I (pj' ps) (fun _ => tt) js C1 C2 C3 C4 (data s0) ST i ltac:(lia)) as (A1 & _ & _ & A4). fold d1 in A1, A4.
  assert (IN : incl pre (nth i js [])) by (rewrite EN; intros x Hx; apply in_app_iff; auto).
  destruct (alone_own I (pj' ps) js C1 C2 i pre l0 d1 (data s0) IN A1 ST (A4 i (le_n _))) as [_ EO].
  assert (IF : incl (firstn i js) js) by (intros x Hx; rewrite <- (firstn_skipn i js); apply in_app_iff; auto).
  assert (IK : incl (skipn (S i) js) js) by (intros x Hx; rewrite <- (firstn_skipn (S i) js); apply in_app_iff; auto).
  destruct (TT (firstn i js) (data s0) 0%nat (AL _ IF) ST) as (M1 & EM1 & _). fold d1 in EM1.
  destruct (TR i pre l0 d1 IN A1) as (M2 & EM2).
  destruct (alone_inv I (pj' ps) (fun _ => tt) js C1 C3 C4 i pre l0 d1 IN A1) as (AM & _).
  destruct (TR i r (fst (alone pre l0 d1)) (snd (alone pre l0 d1)) ltac:(rewrite EN; intros x Hx; apply in_app_iff; auto) AM) as (M3 & EM3).
  assert (AA : snd (alone r (fst (alone pre l0 d1)) (snd (alone pre l0 d1))) = snd (alone (nth i js []) l0 d1)). { rewrite EN, alone_app. destruct (alone pre l0 d1) as (la & da). reflexivity. }
  rewrite AA in EM3.
  destruct (alone_inv I (pj' ps) (fun _ => tt) js C1 C3 C4 i (nth i js []) l0 d1 (incl_refl _) A1) as (AN & _).
  destruct (TT (skipn (S i) js) (snd (alone (nth i js []) l0 d1)) 0%nat (AL _ IK) AN) as (M4 & EM4 & _).
  assert (EJ : in_turn (skipn (S i) js) (snd (alone (nth i js []) l0 d1)) = in_turn js (data s0)).
  { transitivity (in_turn (firstn (S i) js ++ skipn (S i) js) (data s0)); [|rewrite firstn_skipn; reflexivity]. assert (FS : firstn (S i) js = firstn i js ++ [nth i js []]) by (apply firstn_S_nth; exact Hi). rewrite FS. unfold in_turn. rewrite !fold_left_app. reflexivity. }
  rewrite EJ, EM3, EM2, EM1, EF, <- !app_assoc in EM4. fold tr0 in EM4. apply app_inv_head in EM4.
  exists (M1 ++ M2), (M3 ++ M4). split; [rewrite EM4, <- app_assoc; reflexivity|].
  unfold pj' in EP, EO. rewrite (proj2 (Nat.ltb_lt i (List.length ps)) ltac:(lia)) in EP, EO. apply pair_equal_spec in EP as [_ EP]. apply pair_equal_spec in EO as [_ EO].
  rewrite <- EO in EP. rewrite EL, EM2, EM1, <- app_assoc in EP. fold tr0 in EP. rewrite !filter_app in EP. apply app_inv_head in EP. rewrite filter_app. exact EP.
Qed.
End Flush.
