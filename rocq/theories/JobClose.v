(** Closing sinks whose uploads are the same up to upload ids gives the same objects. *)
Require Import ZArith List Bool String Lia.
Require Import Verif.Base Verif.Dim Verif.World Verif.Writer Verif.Radix Verif.SinkProofs Verif.JobProofs Verif.UploadSpec Verif.JobS3.
Import ListNotations.
Open Scope string_scope. Open Scope list_scope. Open Scope Z_scope.

Definition about_ev (b k : string) (e : event) : Prop :=
  match e with EMpCreate b' k' _ => b' = b /\ k' = k | EMpPart b' k' _ _ _ => b' = b /\ k' = k | EPut b' k' _ => b' = b /\ k' = k | EMpComplete b' k' _ _ => b' = b /\ k' = k | _ => False end.
Lemma own_about b k evs : Forall (own_ev b k) evs -> Forall (about_ev b k) evs.
Proof. apply Forall_impl. intros [] H; cbn in *; tauto. Qed.
Lemma part_of_about b k evs : Forall (about_ev b k) evs -> forall tr b' k' id n, (b', k') <> (b, k) -> part_of (rev (tr ++ evs)) b' k' id n = part_of (rev tr) b' k' id n.
Proof.
  intros H tr b' k' id n N. rewrite rev_app_distr. apply Forall_rev in H. induction H as [|e l He H IH]; [reflexivity|]. cbn [app]. destruct e; cbn [about_ev] in He; try contradiction; destruct He as [-> ->]; cbn [part_of]; auto.
  destruct (String.eqb_spec b' b) as [->|]; cbn [andb]; auto. destruct (String.eqb_spec k' k) as [->|]; cbn [andb]; auto. contradiction.
Qed.
Lemma object_of_about E b k evs : Forall (about_ev b k) evs -> forall tr b' k', (b', k') <> (b, k) -> object_of E (tr ++ evs) b' k' = object_of E tr b' k'.
Proof.
  intros H tr b' k' N. unfold object_of. rewrite rev_app_distr. apply Forall_rev in H. induction H as [|e l He H IH]; [reflexivity|]. cbn [app]. destruct e; cbn [about_ev] in He; try contradiction; destruct He as [-> ->]; cbn [object_rev]; auto;
    (destruct (String.eqb_spec b' b) as [->|]; cbn [andb]; auto; destruct (String.eqb_spec k' k) as [->|]; cbn [andb]; auto; contradiction).
Qed.
Lemma file_of_about E b k evs : Forall (about_ev b k) evs -> forall tr p, file_of E (tr ++ evs) p = file_of E tr p.
Proof. intros H tr p. rewrite file_of_app. induction H as [|e l He H IH] in tr |- *; [reflexivity|]. cbn [fold_left]. destruct e; cbn [about_ev] in He; try contradiction; cbn [file_step]; auto. Qed.
Lemma dir_of_about E b k evs : Forall (about_ev b k) evs -> forall tr p, dir_of E (tr ++ evs) p = dir_of E tr p.
Proof. intros H tr p. unfold dir_of. rewrite fold_left_app. f_equal. generalize (fold_left (dir_step p) tr (e_dir0 E p)) as c. induction H as [|e l He H IH]; intros c; [reflexivity|]. cbn [fold_left]. destruct e; cbn [about_ev] in He; try contradiction; cbn [dir_step]; auto. Qed.

Definition empty_buf (u : upload) : upload := mkup (u_bucket u) (u_key u) (u_buf u) 0 (u_nflush u) (u_parts u).
Definition up_flush (u : upload) : upload * outcome bool * option (list Z) :=
  match u_parts u with
  | Some _ =>
      let '(u1, r) := if 0 <? u_nbuf u then up_flush_part u else (u, Ok true) in
      match r with
      | Ok true => let l := match u_parts u1 with Some l => l | None => [] end in
                   if zlen l =? 0 then (u1, Throw "Parts list must not be empty.", None) else (empty_buf u1, Ok true, Some (List.concat l))
      | _ => (u1, r, None)
      end
  | None =>
      if 0 <? u_nbuf u then
        let d := slice (u_buf u) 0 (u_nbuf u) in
        if zlen d =? 0 then (u, Ok false, None) else (mkup (u_bucket u) (u_key u) (u_buf u) 0 (u_nbuf u) None, Ok true, Some d)
      else (empty_buf u, Ok true, None)
  end.

Lemma bind_gen {S A B} (m : M S A) (f : A -> M S B) s : bind m f s = match m s with (s', Ok a) => f a s' | (s', Throw e) => (s', Throw e) | (s', UB) => (s', UB) | (s', Hang) => (s', Hang) end.
Proof. unfold bind. destruct (m s) as (s' & []); reflexivity. Qed.
Definition prod_dec_str (x y : string * string) : {x = y} + {x <> y}.
Proof. decide equality; apply string_dec. Defined.
Section Close.
Variable E : env.
Hypothesis HE : forall n, e_s3 E n = true.
Definition about (b k : string) (w w' : world) : Prop := (exists evs, w_trace w' = w_trace w ++ evs /\ Forall (about_ev b k) evs) /\ w_err w' = w_err w.
Lemma complete_run b k id ns w : b <> "" -> k <> "" -> id > 0 -> s3_complete E b k id ns w =
  if zlen ns =? 0 then (w, Throw "Parts list must not be empty.") else (mkworld (w_trace w ++ [EMpComplete b k id ns]) (S (w_tick w)) (w_conns w) (w_err w), Ok true).
Proof.
  intros Hb Hk Hn. unfold s3_complete, expectM, s3_request, bind, next_tick, ret, throwM, emit, modM. rewrite (proj2 (String.eqb_neq b ""%string) Hb), (proj2 (String.eqb_neq k ""%string) Hk). cbn [negb]. rewrite (proj2 (Z.eqb_neq id 0)) by lia. cbn [negb]. destruct (zlen ns =? 0); cbn [negb]; auto. rewrite HE. reflexivity.
Qed.
Lemma put_run b k d w : b <> "" -> k <> "" -> s3_put E b k d w =
  if zlen d =? 0 then (w, Throw "Data must not be empty.") else (mkworld (w_trace w ++ [EPut b k d]) (S (w_tick w)) (w_conns w) (w_err w), Ok true).
Proof.
  intros Hb Hk. unfold s3_put, expectM, s3_request, bind, next_tick, ret, throwM, emit, modM. rewrite (proj2 (String.eqb_neq b ""%string) Hb), (proj2 (String.eqb_neq k ""%string) Hk). cbn [negb]. destruct (zlen d =? 0); cbn [negb]; auto. rewrite HE. reflexivity.
Qed.
Lemma object_last_put tr b k d : object_of E (tr ++ [EPut b k d]) b k = Some d.
Proof. unfold object_of. rewrite rev_app_distr. cbn. rewrite !String.eqb_refl. reflexivity. Qed.
Lemma object_last_complete tr b k id ns : object_of E (tr ++ [EMpComplete b k id ns]) b k = Some (List.concat (map (part_of (rev tr) b k id) ns)).
Proof. unfold object_of. rewrite rev_app_distr. cbn. rewrite !String.eqb_refl. reflexivity. Qed.
Lemma finalize_up s w id ns : sound_sink s -> (0 < w_conns w)%nat -> s_mp s = Some (id, ns) ->
  s3_finalize E (s, w) = if zlen ns =? 0 then ((s, mkworld (w_trace w) (w_tick w) (pred (w_conns w)) (w_err w)), Throw "Parts list must not be empty.")
    else ((s, mkworld (w_trace w ++ [EMpComplete (World.s_bucket s) (s_key s) id ns]) (S (w_tick w)) (w_conns w) (w_err w)), Ok true).
Proof.
  intros (Hb & Hk & HM) HC MP. destruct w as [tr tk [|cn] er]; [cbn in HC; lia|]. unfold s3_finalize, bind, onW, get_connection, getS. cbn [w_conns w_trace w_tick w_err fst]. rewrite MP in *. destruct HM as [HI _].
  rewrite complete_run by auto. destruct (zlen ns =? 0); reflexivity.
Qed.
Lemma zlen_map {A B} (f : A -> B) l : zlen (map f l) = zlen l.
Proof. unfold zlen. rewrite map_length. reflexivity. Qed.
Lemma flush_up s w : sound_sink s -> (0 < w_conns w)%nat -> let '(u', r, c) := up_flush (upload_of (w_trace w) s) in
  exists s1 w1, s3_flush E (s, w) = ((s1, w1), r) /\ upload_of (w_trace w1) s1 = u' /\ sound_sink s1 /\ World.s_bucket s1 = World.s_bucket s /\ s_key s1 = s_key s /\
    about (World.s_bucket s) (s_key s) w w1 /\ w_conns w1 = (match r with Throw _ => pred (w_conns w) | _ => w_conns w end) /\
    object_of E (w_trace w1) (World.s_bucket s) (s_key s) = match c with Some c => Some c | None => object_of E (w_trace w) (World.s_bucket s) (s_key s) end.
Proof.
  intros SS HC. unfold up_flush, s3_flush. unfold bind at 1, getS at 1. cbn [fst]. change (u_nbuf (upload_of (w_trace w) s)) with (s_nbuf s). pose proof SS as (Hb & Hk & HM).
  destruct (s_mp s) as [[id ns]|] eqn:MP.
  - assert (UP : u_parts (upload_of (w_trace w) s) = Some (map (part_of (rev (w_trace w)) (World.s_bucket s) (s_key s) id) ns)) by (unfold upload_of; rewrite MP; reflexivity). rewrite UP.
    assert (FP : let '(u1, r1) := if 0 <? s_nbuf s then up_flush_part (upload_of (w_trace w) s) else (upload_of (w_trace w) s, Ok true) in
      exists s1 w1, (if 0 <? s_nbuf s then s3_flush_part E else ret true) (s, w) = ((s1, w1), r1) /\ upload_of (w_trace w1) s1 = u1 /\ sound_sink s1 /\ World.s_bucket s1 = World.s_bucket s /\ s_key s1 = s_key s /\ mine (World.s_bucket s) (s_key s) w w1 /\ u_parts u1 <> None /\ exists ok, r1 = Ok ok).
    { destruct (0 <? s_nbuf s).
      - destruct (flush_part_refines E HE s w SS HC) as (s1 & w1 & A & B & C & D & F & G). destruct (up_flush_part (upload_of (w_trace w) s)) as (u1 & r1) eqn:UF. exists s1, w1. cbn [fst snd] in *. split; auto. split; auto. split; auto. split; auto. split; auto. split; auto. unfold up_flush_part in UF. destruct (_ =? _); injection UF as <- <-; (split; [first [rewrite UP|idtac]; discriminate|eauto]).
      - exists s, w. split; auto. split; auto. split; auto. split; auto. split; auto. split; [apply mine_refl|]. split; [rewrite UP; discriminate|eauto]. }
    destruct (if 0 <? s_nbuf s then up_flush_part (upload_of (w_trace w) s) else (upload_of (w_trace w) s, Ok true)) as (u1 & r1). destruct FP as (s1 & w1 & A & B & C & D & F & G & NP & ok & ->). pose proof G as ((evs & T & O) & GC & GE).
    rewrite bind_gen, bind_gen, A. destruct ok.
    + destruct (s_mp s1) as [[id1 ns1]|] eqn:MP1.
      * assert (UP1 : u_parts u1 = Some (map (part_of (rev (w_trace w1)) (World.s_bucket s1) (s_key s1) id1) ns1)) by (rewrite <- B; unfold upload_of; rewrite MP1; reflexivity). rewrite UP1, zlen_map. rewrite (finalize_up s1 w1 id1 ns1 C) by (auto; lia). destruct (zlen ns1 =? 0).
        -- eexists _, _. split; [reflexivity|]. cbn [w_trace w_conns w_err]. split; auto. split; auto. split; auto. split; auto. split; [split; [exists evs; split; auto; apply own_about; auto|auto]|]. split; [congruence|]. rewrite T. apply (object_of_own E _ _ evs O).
        -- eexists _, _. split; [reflexivity|]. cbn [fst snd w_trace w_conns w_err]. split; [|split; [|split; [auto|split; [auto|split; [|split; [auto|]]]]]].
           ++ rewrite <- B. unfold empty_buf, upload_of. cbn [World.s_bucket s_key s_buf s_nbuf s_nflush s_mp u_bucket u_key u_buf u_nflush u_parts]. rewrite MP1. f_equal. f_equal. apply map_ext. intros x. rewrite rev_app_distr. reflexivity.
           ++ destruct C as (C1 & C2 & C3). rewrite MP1 in C3. split; auto. split; auto. cbn [s_mp]. rewrite MP1. auto.
           ++ split; [|auto]. exists (evs ++ [EMpComplete (World.s_bucket s1) (s_key s1) id1 ns1]). rewrite T, app_assoc. split; auto. apply Forall_app. split; [apply own_about; auto|]. repeat constructor; auto.
           ++ rewrite D, F. apply object_last_complete.
      * exfalso. assert (X : u_parts u1 = None) by (rewrite <- B; unfold upload_of; rewrite MP1; reflexivity). contradiction.
    + eexists _, _. split; [reflexivity|]. split; auto. split; auto. split; auto. split; auto. split; [split; [exists evs; split; auto; apply own_about; auto|auto]|]. split; [congruence|]. rewrite T. apply (object_of_own E _ _ evs O).
  - assert (UP : u_parts (upload_of (w_trace w) s) = None) by (unfold upload_of; rewrite MP; reflexivity). rewrite UP. destruct (0 <? s_nbuf s) eqn:NB.
    + change (u_buf (upload_of (w_trace w) s)) with (s_buf s). rewrite bind_gen. unfold s3_put_object at 1. rewrite bind_gen. cbn [getS fst]. rewrite (proj2 (Z.eqb_neq (s_nbuf s) 0)) by (apply Z.ltb_lt in NB; lia).
      destruct w as [tr tk [|cn] er]; [cbn in HC; lia|]. rewrite bind_gen. unfold onW at 1, get_connection. cbn [w_conns w_trace w_tick w_err]. rewrite bind_gen. unfold onW at 1, catchM. rewrite put_run by auto. cbn [w_trace].
      destruct (zlen (slice (s_buf s) 0 (s_nbuf s)) =? 0).
      * eexists _, _. split; [reflexivity|]. cbn [w_trace w_conns w_err]. split; auto. split; auto. split; auto. split; auto. split; [split; [exists []; split; [cbn [w_trace]; rewrite app_nil_r; reflexivity|constructor]|auto]|]. split; auto.
      * eexists _, _. split; [reflexivity|]. cbn [w_trace w_conns w_err]. split; [unfold upload_of; cbn [World.s_bucket s_key s_buf s_nbuf s_nflush s_mp]; rewrite MP; reflexivity|]. split; [split; auto; split; auto; cbn [s_mp]; rewrite MP; auto|]. split; auto. split; auto. split; [split; [exists [EPut (World.s_bucket s) (s_key s) (slice (s_buf s) 0 (s_nbuf s))]; split; [reflexivity|repeat constructor]|auto]|]. split; auto. apply object_last_put.
    + rewrite bind_gen. cbn [ret]. eexists _, _. split; [reflexivity|]. split; [unfold upload_of, empty_buf; cbn [World.s_bucket s_key s_buf s_nbuf s_nflush s_mp u_bucket u_key u_buf u_nflush u_parts fst snd]; rewrite MP; reflexivity|]. split; [split; auto; split; auto; cbn [s_mp fst]; rewrite MP; auto|]. split; auto. split; auto. split; [split; [exists []; rewrite app_nil_r; auto|auto]|]. auto.
Qed.

(** *** closing all sinks *)
Definition slot_ok (ks : list (string * string)) (i : nat) (o : option sink) : Prop := match o with None => True | Some (SS3 s) => sound_sink s /\ (World.s_bucket s, s_key s) = nth i ks ("", "") | Some (SFile _) => False end.
Definition slots_ok (ks : list (string * string)) (d : AW) : Prop := List.length (a_sinks (fst d)) = List.length ks /\ forall i, (i < List.length ks)%nat -> slot_ok ks i (nth i (a_sinks (fst d)) None).
Lemma map_seen_nth tr l i : nth i (map (seen_sink tr) l) None = seen_sink tr (nth i l None).
Proof. change (@None (fsink + upload)) with (seen_sink tr None) at 1. apply map_nth. Qed.
Lemma close_one ks i x y : NoDup ks -> (i < List.length ks)%nat -> slots_ok ks x -> slots_ok ks y -> same_uploads E x y -> (0 < w_conns (snd x))%nat ->
  let '(x', r) := on_slot i (finalize_sink E) x in let '(y', r') := on_slot i (finalize_sink E) y in
  r = r' /\ slots_ok ks x' /\ slots_ok ks y' /\ same_uploads E x' y' /\ (r = Ok true -> w_conns (snd x') = w_conns (snd x)).
Proof.
  intros HP Hi SX SY HS HC. destruct x as (a & w), y as (a' & w'). pose proof SX as [LX NX]. pose proof SY as [LY NY]. pose proof HS as (U1 & U2 & U3 & U4 & U5 & U6). cbn [fst snd] in *.
  assert (V : forall j, seen_sink (w_trace w) (nth j (a_sinks a) None) = seen_sink (w_trace w') (nth j (a_sinks a') None)) by (intros j; rewrite <- !map_seen_nth, U2; reflexivity).
  unfold on_slot. pose proof (V i) as Vi. pose proof (NX i Hi) as OX. pose proof (NY i Hi) as OY. destruct (nth i (a_sinks a) None) as [[f|s]|] eqn:NS; [destruct OX| |].
  - destruct (nth i (a_sinks a') None) as [[f|s']|] eqn:NS'; [destruct OY| |discriminate]. apply seen_inj in Vi. destruct OX as [SS KX], OY as [SS' KY].
    cbn [finalize_sink sink_flush fst snd runS]. unfold runS. cbn [snd]. pose proof (flush_up s w SS HC) as FX. pose proof (flush_up s' w' SS' ltac:(lia)) as FY. rewrite <- Vi in FY. destruct (up_flush (upload_of (w_trace w) s)) as ((u' & r) & c).
    destruct FX as (s1 & w1 & A1 & A2 & A3 & A4 & A5 & ((ex & TX & AX) & EX) & A7 & A8). destruct FY as (s2 & w2 & B1 & B2 & B3 & B4 & B5 & ((ey & TY & AY) & EY) & B7 & B8). rewrite A1, B1.
    set (o1 := match r with Ok true => None | _ => Some (SS3 s1) end). set (o2 := match r with Ok true => None | _ => Some (SS3 s2) end).
    assert (R1 : (let '((s', w''), r0) := match r with Ok true => ((None, w1), Ok true) | _ => ((Some (SS3 s1), w1), r) end in ((set_sinks a (upd (a_sinks a) i s'), w''), r0)) = ((set_sinks a (upd (a_sinks a) i o1), w1), r)) by (unfold o1; destruct r as [[]|m| |]; reflexivity).
    assert (R2 : (let '((s', w''), r0) := match r with Ok true => ((None, w2), Ok true) | _ => ((Some (SS3 s2), w2), r) end in ((set_sinks a' (upd (a_sinks a') i s'), w''), r0)) = ((set_sinks a' (upd (a_sinks a') i o2), w2), r)) by (unfold o2; destruct r as [[]|m| |]; reflexivity).
    assert (K' : (World.s_bucket s', s_key s') = (World.s_bucket s, s_key s)) by congruence.
    assert (OTH : forall j sj sj', (j < List.length ks)%nat -> i <> j -> nth j (a_sinks a) None = Some (SS3 sj) -> nth j (a_sinks a') None = Some (SS3 sj') -> upload_of (w_trace w1) sj = upload_of (w_trace w) sj /\ upload_of (w_trace w2) sj' = upload_of (w_trace w') sj').
    { intros j sj sj' Hj N Nj Nj'. pose proof (NX j Hj) as Q1. pose proof (NY j Hj) as Q2. rewrite Nj in Q1. rewrite Nj' in Q2. destruct Q1 as [_ Q1], Q2 as [_ Q2].
      assert (D1 : (World.s_bucket sj, s_key sj) <> (World.s_bucket s, s_key s)). { rewrite Q1, KX. intros X. apply N. symmetry. eapply (proj1 (NoDup_nth ks (""%string, ""%string))); eauto. }
      assert (D2 : (World.s_bucket sj', s_key sj') <> (World.s_bucket s', s_key s')) by congruence.
      unfold upload_of. split; f_equal; [destruct (s_mp sj) as [[id ns]|]|destruct (s_mp sj') as [[id ns]|]]; auto; f_equal; apply map_ext; intros z; rewrite ?TX, ?TY; eapply part_of_about; eauto. }
    assert (GO : let x' := (set_sinks a (upd (a_sinks a) i o1), w1) in let y' := (set_sinks a' (upd (a_sinks a') i o2), w2) in slots_ok ks x' /\ slots_ok ks y' /\ same_uploads E x' y' /\ (r = Ok true -> w_conns (snd x') = w_conns w)).
    { cbv zeta. split; [|split; [|split]].
      - split; cbn [fst a_sinks set_sinks]; [rewrite upd_length; auto|]. intros j Hj. destruct (Nat.eq_dec i j) as [<-|N]; [|rewrite nth_upd_neq by auto; auto]. rewrite nth_upd by lia. rewrite Nat.eqb_refl. unfold o1. destruct r as [[]|m| |]; cbn [slot_ok]; auto; (split; [auto|congruence]).
      - split; cbn [fst a_sinks set_sinks]; [rewrite upd_length; auto|]. intros j Hj. destruct (Nat.eq_dec i j) as [<-|N]; [|rewrite nth_upd_neq by auto; auto]. rewrite nth_upd by lia. rewrite Nat.eqb_refl. unfold o2. destruct r as [[]|m| |]; cbn [slot_ok]; auto; (split; [auto|congruence]).
      - unfold same_uploads. cbn [fst snd]. split; [exact U1|]. split; [|split; [congruence|split; [rewrite A7, B7, U4; reflexivity|split]]].
        + apply (nth_ext _ _ None None); [rewrite !map_length; cbn [a_sinks set_sinks]; rewrite !upd_length; congruence|]. intros j Hj. rewrite map_length in Hj. cbn [a_sinks set_sinks] in *. rewrite upd_length in Hj. rewrite !map_seen_nth. destruct (Nat.eq_dec i j) as [<-|N].
          * rewrite !nth_upd by lia. rewrite Nat.eqb_refl. unfold o1, o2. destruct r as [[]|m| |]; cbn [seen_sink]; rewrite ?A2, ?B2; reflexivity.
          * rewrite !nth_upd_neq by auto. pose proof (V j) as Vj. pose proof (NX j ltac:(lia)) as Q1. pose proof (NY j ltac:(lia)) as Q2. destruct (nth j (a_sinks a) None) as [[fj|sj]|] eqn:Nj; [destruct Q1| |destruct (nth j (a_sinks a') None) as [[fj|sj']|]; [destruct Q2|discriminate|reflexivity]].
            destruct (nth j (a_sinks a') None) as [[fj|sj']|] eqn:Nj'; [destruct Q2| |discriminate]. destruct (OTH j sj sj' ltac:(lia) N Nj Nj') as [Z1 Z2]. cbn [seen_sink] in *. rewrite Z1, Z2. exact Vj.
        + intros b k. destruct (prod_dec_str (b, k) (World.s_bucket s, s_key s)) as [X|X].
          * injection X as -> ->. rewrite A8. assert (Y1 : World.s_bucket s' = World.s_bucket s) by congruence. assert (Y2 : s_key s' = s_key s) by congruence. rewrite Y1, Y2 in B8. rewrite B8. destruct c; auto.
          * rewrite TX, (object_of_about E _ _ ex AX) by auto. rewrite TY, (object_of_about E _ _ ey AY) by congruence. apply U5.
        + intros p. rewrite TX, TY, (file_of_about E _ _ ex AX), (file_of_about E _ _ ey AY), (dir_of_about E _ _ ex AX), (dir_of_about E _ _ ey AY). apply U6.
      - intros ->. cbn [snd]. exact A7. }
    assert (G1 : forall o (sx : s3sink) (wx : world), match r with Ok true => let '(w'', _) := sink_destroy (SS3 sx) wx in ((@None sink, w''), Ok true) | _ => ((Some (SS3 sx), wx), r) end = o -> o = match r with Ok true => ((None, wx), Ok true) | _ => ((Some (SS3 sx), wx), r) end) by (intros o sx wx <-; destruct r as [[]|m| |]; reflexivity).
    cbv zeta in GO. clear -GO R1 R2. unfold o1, o2 in *. destruct r as [[]|m| |]; cbn; tauto.
  - destruct (nth i (a_sinks a') None) as [[f|s']|] eqn:NS'; [discriminate|discriminate|]. cbn [finalize_sink].
    assert (X : set_sinks a (upd (a_sinks a) i None) = a) by (replace (upd (a_sinks a) i None) with (a_sinks a); [destruct a; reflexivity|]; symmetry; etransitivity; [|apply (upd_nth_same (a_sinks a) i None)]; rewrite NS; reflexivity).
    assert (Y : set_sinks a' (upd (a_sinks a') i None) = a') by (replace (upd (a_sinks a') i None) with (a_sinks a'); [destruct a'; reflexivity|]; symmetry; etransitivity; [|apply (upd_nth_same (a_sinks a') i None)]; rewrite NS'; reflexivity).
    rewrite X, Y. auto.
Qed.
Lemma close_loop ks : NoDup ks -> forall m k x y, (k + m <= List.length ks)%nat -> slots_ok ks x -> slots_ok ks y -> same_uploads E x y -> (0 < w_conns (snd x))%nat ->
  let f := fun i => ok <- on_slot i (finalize_sink E) ;; expectM ok "Failed to finalize sink" in
  let '(x', r) := miter f (seq k m) x in let '(y', r') := miter f (seq k m) y in r = r' /\ same_uploads E x' y'.
Proof.
  intros HP. induction m as [|m IH]; intros k x y Hk SX SY HS HC; cbv zeta; cbn [seq miter]; [cbn; auto|].
  pose proof (close_one ks k x y HP ltac:(lia) SX SY HS HC) as HO. rewrite !bind_gen. destruct (on_slot k (finalize_sink E) x) as (x' & r), (on_slot k (finalize_sink E) y) as (y' & r'). destruct HO as (<- & SX' & SY' & HS' & HC').
  destruct r as [[]|e| |]; cbn [expectM ret throwM]; auto. apply (IH (S k) x' y' ltac:(lia) SX' SY' HS'). rewrite HC' by auto. exact HC.
Qed.
Lemma same_reset x y : same_uploads E x y -> same_uploads E (set_sinks (fst x) [], snd x) (set_sinks (fst y) [], snd y).
Proof. intros (U1 & U2 & U3 & U4 & U5 & U6). split; [exact U1|]. split; auto. Qed.
Lemma close_same ks x y : NoDup ks -> slots_ok ks x -> slots_ok ks y -> same_uploads E x y -> (0 < w_conns (snd x))%nat ->
  let '(x', r) := close_sinks E x in let '(y', r') := close_sinks E y in r = r' /\ same_uploads E x' y'.
Proof.
  intros HP SX SY HS HC. unfold close_sinks. rewrite !bind_gen. cbn [getA]. destruct SX as [LX NX] eqn:ESX, SY as [LY NY] eqn:ESY. rewrite LX, LY, !bind_gen. pose proof (close_loop ks HP (List.length ks) 0 x y (le_n _) (conj LX NX) (conj LY NY) HS HC) as H. cbv zeta in H.
  destruct (miter _ (seq 0 (List.length ks)) x) as (x' & r). destruct (miter _ (seq 0 (List.length ks)) y) as (y' & r'). destruct H as [<- H]. destruct r as [[]|e| |]; auto. cbn [modA]. split; auto. apply same_reset. exact H.
Qed.
End Close.
