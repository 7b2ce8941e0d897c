(** C58: streams to separate stores do not influence each other. *)
Require Import ZArith List Bool String Ascii Lia.
Require Import Verif.Base Verif.Dim Verif.Json Verif.World Verif.PathProofs Verif.Writer Verif.Stream Verif.Api Verif.SettingsSpec Verif.ValidProofs Verif.FrameSpec Verif.PropsFrame Verif.SessionSpec Verif.Multi Verif.MultiSpec Verif.MultiProofs Verif.Examples Verif.ExamplesUse.
Require Verif.StoreProofs Verif.Radix Verif.OpenProofs.
Import ListNotations.
Open Scope string_scope. Open Scope list_scope. Open Scope Z_scope.

(** ** Whatever the order of the calls, every client gets what it gets when it is alone *)
(** The process goes on exactly as long as every client, alone, would let it: nobody's calls make another's undefined. *)
Theorem C58_alive_partial : forall E cs schedule,
  Forall fresh cs -> Forall (fun k => settled E (k_set k)) cs -> separate cs ->
  p_alive (run E cs schedule) = true <-> forall i k, nth_error cs i = Some k -> p_alive (run E cs (only i schedule)) = true.
Proof. intros E cs schedule HF HS HP. apply (alone_and_together E cs HF HS HP schedule). Qed.

(** The client is in the same state: same replies to all its calls, same stream object, same error message, same number of requests made. And of all
    that happened in the process, what happened in its store is what happens when it is alone: the same operations in the same order. *)
Theorem C58_alone_partial : forall E cs schedule i k0,
  Forall fresh cs -> Forall (fun k => settled E (k_set k)) cs -> separate cs ->
  p_alive (run E cs schedule) = true -> nth_error cs i = Some k0 ->
  (exists k, nth_error (p_clients (run E cs schedule)) i = Some k /\ nth_error (p_clients (run E cs (only i schedule))) i = Some k) /\
  forall bucket root, store_at (k_set k0) bucket root ->
    filter (in_storeb bucket root) (p_trace (run E cs schedule)) = p_trace (run E cs (only i schedule)).
Proof.
  intros E cs schedule i k0 HF HS HP AL N. destruct (alone_and_together E cs HF HS HP schedule) as [_ AG]. destruct (AG AL i k0 N) as (k & _ & A & B & _ & _ & _ & C). split; [exists k; auto|exact C].
Qed.
(** the filter keeps exactly the operations of C48's specification *)
Theorem C58_filter : forall bucket root e, in_storeb bucket root e = true <-> in_store bucket root e.
Proof. exact in_storeb_iff. Qed.

(** ** What can be seen: files, directories, objects *)
Theorem C58_files_partial : forall E cs schedule i k0 root p,
  Forall fresh cs -> Forall (fun k => settled E (k_set k)) cs -> separate cs ->
  p_alive (run E cs schedule) = true -> nth_error cs i = Some k0 -> store_at (k_set k0) None root -> under root p = true -> p <> "" ->
  file_of E (p_trace (run E cs schedule)) p = file_of E (p_trace (run E cs (only i schedule))) p /\
  dir_of E (p_trace (run E cs schedule)) p = dir_of E (p_trace (run E cs (only i schedule))) p.
Proof.
  intros E cs schedule i k0 root p HF HS HP AL N P U NE. destruct (alone_and_together E cs HF HS HP schedule) as [_ AG]. destruct (AG AL i k0 N) as (k & _ & _ & _ & _ & _ & V & _).
  assert (S := set_at E cs HS i k0 N). destruct P as [(q & Q & T) B]. destruct (st_s3 (k_set k0)) as [x|] eqn:X; [destruct B as (? & ? & ? & ? & ?); discriminate|].
  destruct (S X q Q) as (T' & _). rewrite <- (trimmed_unique _ _ _ T' T) in U. destruct (V p) as [V1 V2]; [|split; [exact (V2 NE)|exact V1]].
  split; [exact X|]. exists q. split; [exact Q|]. apply under_iff in U as [->|U]; auto.
Qed.
Lemma part_filter f b k : (forall i n d, f (EMpPart b k i n d) = true) -> forall tr i n, part_of (filter f tr) b k i n = part_of tr b k i n.
Proof.
  intros H tr i n. induction tr as [|e tr IH]; [reflexivity|]. cbn [filter]. destruct (f e) eqn:F.
  - destruct e; cbn [part_of]; rewrite ?IH; reflexivity.
  - rewrite IH. destruct e; cbn [part_of]; try reflexivity. destruct (String.eqb_spec b b0) as [->|]; [|reflexivity]. destruct (String.eqb_spec k k0) as [->|]; [|reflexivity]. rewrite H in F. discriminate.
Qed.
Lemma object_filter E f b k : (forall i n d, f (EMpPart b k i n d) = true) -> (forall d, f (EPut b k d) = true) -> (forall i ps, f (EMpComplete b k i ps) = true) ->
  forall tr, object_rev E b k (filter f tr) = object_rev E b k tr.
Proof.
  intros H1 H2 H3 tr. induction tr as [|e tr IH]; [reflexivity|]. cbn [filter]. destruct (f e) eqn:F.
  - destruct e; cbn [object_rev]; rewrite ?IH; try reflexivity. destruct (_ && _); [|reflexivity]. f_equal. f_equal. apply map_ext. intros n. apply part_filter. exact H1.
  - rewrite IH. destruct e; cbn [object_rev]; try reflexivity; (destruct (String.eqb_spec b b0) as [->|]; [|reflexivity]); (destruct (String.eqb_spec k k0) as [->|]; [|reflexivity]); cbn [andb]; [rewrite H2 in F|rewrite H3 in F]; discriminate.
Qed.
Lemma filter_rev' {A} (f : A -> bool) l : filter f (rev l) = rev (filter f l).
Proof. induction l as [|a l IH]; [reflexivity|]. cbn [rev filter]. rewrite filter_app, IH. cbn [filter]. destruct (f a); cbn [rev]; [reflexivity|apply app_nil_r]. Qed.
Theorem C58_objects_partial : forall E cs schedule i k0 bucket root x,
  Forall fresh cs -> Forall (fun k => settled E (k_set k)) cs -> separate cs ->
  p_alive (run E cs schedule) = true -> nth_error cs i = Some k0 -> store_at (k_set k0) (Some bucket) root ->
  object_of E (p_trace (run E cs schedule)) bucket (root ++ "/" ++ x) = object_of E (p_trace (run E cs (only i schedule))) bucket (root ++ "/" ++ x).
Proof.
  intros E cs schedule i k0 bucket root x HF HS HP AL N P. destruct (C58_alone_partial E cs schedule i k0 HF HS HP AL N) as [_ F]. rewrite <- (F _ _ P). unfold object_of. rewrite <- filter_rev'.
  assert (K : String.eqb bucket bucket && (under root (root ++ "/" ++ x)%string && negb (String.eqb (root ++ "/" ++ x)%string root)) = true).
  { rewrite String.eqb_refl, under_sub. destruct (String.eqb_spec (root ++ "/" ++ x)%string root) as [Z|]; [destruct (sub_neq _ _ Z)|reflexivity]. }
  symmetry. apply object_filter; intros; exact K.
Qed.

(** ** Alone, a client's life is the session of Api.v, so that whatever is proved about sessions holds for it in every interleaving *)
Definition world0 : world := mkworld [] 0 0 "".
Lemma rest_alone E cs i : (i < List.length cs)%nat -> forall calls l s k w' s' rs d,
  p_alive (run E cs l) = true -> nth_error (p_clients (run E cs l)) i = Some k -> k_phase k = Live s -> k_todo k = calls ->
  (rs <- api_appends (client_env E (k_ans k)) calls ;; d <- api_destroy (client_env E (k_ans k)) ;; ret (Some (rs, d))) (s, client_world (p_trace (run E cs l)) k) = ((s', w'), Ok (Some (rs, d))) ->
  let l' := l ++ repeat i (S (List.length calls)) in
  p_alive (run E cs l') = true /\ p_trace (run E cs l') = w_trace w' /\
  exists k', nth_error (p_clients (run E cs l')) i = Some k' /\ k_phase k' = Gone /\ k_said k' = k_said k ++ map (fun r => RAppend (fst r) (snd r)) rs ++ [RDestroy d].
Proof.
  intros IL. induction calls as [|c calls IH]; intros l s k w' s' rs d AL N PH TD R.
  - cbn [List.length repeat]. cbv zeta. rewrite run_snoc. unfold step. rewrite AL, N. unfold turn. rewrite PH, TD. revert R. unfold bind, ret. cbn [api_appends]. unfold ret.
    destruct (api_destroy (client_env E (k_ans k)) (s, client_world (p_trace (run E cs l)) k)) as [[s1 w1] r1]. destruct r1; try discriminate. intros R. injection R as <- <- <- <-. cbn [p_alive p_trace p_clients]. split; [reflexivity|]. split; [reflexivity|].
    eexists. split; [rewrite OpenProofs.nth_error_upd by (rewrite run_length; auto); rewrite Nat.eqb_refl; reflexivity|]. split; [reflexivity|]. reflexivity.
  - cbn [List.length repeat]. cbv zeta. change (i :: i :: repeat i (List.length calls)) with ([i] ++ repeat i (S (List.length calls))). rewrite app_assoc.
    revert R. cbn [api_appends]. unfold bind at 1 2.
    destruct (api_append (client_env E (k_ans k)) (Some c) true (s, client_world (p_trace (run E cs l)) k)) as [[s1 w1] r1] eqn:A. destruct r1 as [[st out]|e| |]; try discriminate. intros R.
    set (k1 := after_call k w1 (Live s1) calls [RAppend st out]).
    assert (R1 : run E cs (l ++ [i]) = mkprocess (w_trace w1) true (upd (p_clients (run E cs l)) i k1)) by (rewrite run_snoc; unfold step; rewrite AL, N; unfold turn; rewrite PH, TD, A; reflexivity).
    assert (W1 : client_world (p_trace (run E cs (l ++ [i]))) k1 = w1) by (rewrite R1; destruct w1; reflexivity).
    assert (N1 : nth_error (p_clients (run E cs (l ++ [i]))) i = Some k1) by (rewrite R1; cbn [p_clients]; rewrite OpenProofs.nth_error_upd by (rewrite run_length; auto); rewrite Nat.eqb_refl; reflexivity).
    destruct (api_appends (client_env E (k_ans k)) calls (s1, w1)) as [[s2 w2] r2] eqn:B. unfold bind at 1 in R. rewrite B in R. destruct r2 as [rs'|e| |]; try discriminate. cbn [ret] in R.
    destruct (api_destroy (client_env E (k_ans k)) (s2, w2)) as [[s3 w3] r3] eqn:D. unfold ret, bind in R. rewrite D in R. destruct r3 as [d'|e| |]; try discriminate. injection R as <- <- <- <-.
    destruct (IH (l ++ [i]) s1 k1 w3 s3 rs' d') as (X1 & X2 & k' & X3 & X4 & X5); try reflexivity; auto.
    + rewrite R1. reflexivity.
    + rewrite W1. unfold bind, ret. change (k_ans k1) with (k_ans k). rewrite B, D. reflexivity.
    + split; [exact X1|]. split; [exact X2|]. exists k'. split; [exact X3|]. split; [exact X4|]. rewrite X5. cbn [k1 after_call k_said map fst snd]. rewrite <- !app_assoc. reflexivity.
Qed.
Lemma idle E cs i l k : nth_error (p_clients (run E cs l)) i = Some k -> k_phase k = Gone -> p_alive (run E cs l) = true ->
  forall n, p_alive (run E cs (l ++ repeat i n)) = true /\ p_trace (run E cs (l ++ repeat i n)) = p_trace (run E cs l) /\ nth_error (p_clients (run E cs (l ++ repeat i n))) i = Some k.
Proof.
  intros N PH AL. induction n as [|n (IH1 & IH2 & IH3)]; [cbn [repeat]; rewrite app_nil_r; auto|]. replace (repeat i (S n)) with (repeat i n ++ [i]) by (rewrite <- repeat_cons; reflexivity). rewrite app_assoc, run_snoc. unfold step. rewrite IH1, IH3. unfold turn. rewrite PH. cbn [p_alive p_trace p_clients].
  split; [reflexivity|]. split; [exact IH2|]. rewrite OpenProofs.nth_error_upd by (apply nth_error_Some; congruence). rewrite Nat.eqb_refl. reflexivity.
Qed.
Lemma only_repeat i l : only i l = repeat i (count_occ Nat.eq_dec l i).
Proof. unfold only. induction l as [|j l IH]; [reflexivity|]. cbn [filter count_occ]. destruct (Nat.eq_dec j i) as [->|N]; [rewrite Nat.eqb_refl, IH; reflexivity|]. destruct (Nat.eqb_spec i j); [congruence|exact IH]. Qed.
(** A client that makes all its calls (create, every append, destroy), in whatever way the others' calls come in between: the replies and the store
    are those of its session, alone in the world. *)
Theorem C58_session_partial : forall E cs schedule i st a calls w' rs d,
  Forall fresh cs -> Forall (fun k => settled E (k_set k)) cs -> separate cs ->
  p_alive (run E cs schedule) = true -> nth_error cs i = Some (start st a calls) -> (count_occ Nat.eq_dec schedule i >= 2 + List.length calls)%nat ->
  session (client_env E a) st calls world0 = (w', Ok (Some (rs, d))) ->
  (exists k, nth_error (p_clients (run E cs schedule)) i = Some k /\ k_said k = RCreate true :: map (fun r => RAppend (fst r) (snd r)) rs ++ [RDestroy d]) /\
  forall bucket root, store_at st bucket root -> filter (in_storeb bucket root) (p_trace (run E cs schedule)) = w_trace w'.
Proof.
  intros E cs schedule i st a calls w' rs d HF HS HP AL N CN R. destruct (C58_alone_partial E cs schedule i _ HF HS HP AL N) as [(k & K1 & K2) F].
  assert (IL : (i < List.length cs)%nat) by (apply nth_error_Some; congruence).
  revert R. unfold session. unfold bind at 1. destruct (api_create (client_env E a) (Some st) world0) as [w1 r1] eqn:C. destruct r1 as [[s|]|e| |]; try discriminate.
  destruct ((rs0 <- api_appends (client_env E a) calls ;; d0 <- api_destroy (client_env E a) ;; ret (Some (rs0, d0))) (s, w1)) as [[s2 w2] r2] eqn:B. intros R. injection R as -> ->.
  set (k1 := after_call (start st a calls) w1 (Live s) calls [RCreate true]).
  assert (R1 : run E cs [i] = mkprocess (w_trace w1) true (upd cs i k1)).
  { unfold run. cbn [fold_left]. unfold step. cbn [p_alive p_clients p_trace]. rewrite N. unfold turn. cbn [start k_phase k_ans k_set k_todo]. change (client_world [] (start st a calls)) with world0. rewrite C. reflexivity. }
  destruct (rest_alone E cs i IL calls [i] s k1 w' s2 rs d) as (X1 & X2 & k' & X3 & X4 & X5); try reflexivity.
  - rewrite R1. reflexivity.
  - rewrite R1. cbn [p_clients]. rewrite OpenProofs.nth_error_upd by auto. rewrite Nat.eqb_refl. reflexivity.
  - replace (client_world (p_trace (run E cs [i])) k1) with w1 by (rewrite R1; destruct w1; reflexivity). exact B.
  - rewrite only_repeat in *. assert (Q : exists n, repeat i (count_occ Nat.eq_dec schedule i) = ([i] ++ repeat i (S (List.length calls))) ++ repeat i n).
    { exists (count_occ Nat.eq_dec schedule i - (2 + List.length calls))%nat. change ([i] ++ repeat i (S (List.length calls))) with (repeat i (2 + List.length calls)). rewrite <- repeat_app. f_equal. lia. }
    destruct Q as (n & Q). rewrite Q in *. destruct (idle E cs i _ k' X3 X4 X1 n) as (Y1 & Y2 & Y3). split.
    + exists k. split; [exact K1|]. rewrite Y3 in K2. injection K2 as <-. rewrite X5. reflexivity.
    + intros b r P. rewrite (F b r P), Y2. exact X2.
Qed.

(** *** Exactly the clients that run into undefined behaviour or an uncaught exception end the process; one that waits for ever does not. *)
Definition survives {A} (o : outcome A) : bool := match o with Ok _ | Hang => true | Throw _ | UB => false end.
Lemma dead_stays E cs l1 l2 : p_alive (run E cs l1) = false -> p_alive (run E cs (l1 ++ l2)) = false.
Proof. intros H. unfold run in *. rewrite fold_left_app. revert H. generalize (fold_left (step E) l1 (mkprocess [] true cs)). induction l2 as [|j l2 IH]; intros p H; [exact H|]. cbn [fold_left]. apply IH. unfold step. rewrite H. exact H. Qed.
Lemma over_stays E cs i l k : nth_error (p_clients (run E cs l)) i = Some k -> k_phase k = Gone \/ k_phase k = Stuck -> p_alive (run E cs l) = true ->
  forall n, p_alive (run E cs (l ++ repeat i n)) = true /\ nth_error (p_clients (run E cs (l ++ repeat i n))) i = Some k.
Proof.
  intros N PH AL. induction n as [|n (IH1 & IH3)]; [cbn [repeat]; rewrite app_nil_r; auto|]. replace (repeat i (S n)) with (repeat i n ++ [i]) by (rewrite <- repeat_cons; reflexivity). rewrite app_assoc, run_snoc. unfold step. rewrite IH1, IH3. unfold turn. destruct PH as [PH|PH]; rewrite PH; cbn [p_alive p_clients].
  all: split; [reflexivity|]; rewrite OpenProofs.nth_error_upd by (apply nth_error_Some; congruence); rewrite Nat.eqb_refl; reflexivity.
Qed.
Lemma rest_survives E cs i : (i < List.length cs)%nat -> forall calls l s k n,
  p_alive (run E cs l) = true -> nth_error (p_clients (run E cs l)) i = Some k -> k_phase k = Live s -> k_todo k = calls -> (S (List.length calls) <= n)%nat ->
  p_alive (run E cs (l ++ repeat i n)) =
    survives (snd ((rs <- api_appends (client_env E (k_ans k)) calls ;; d <- api_destroy (client_env E (k_ans k)) ;; ret (Some (rs, d))) (s, client_world (p_trace (run E cs l)) k))).
Proof.
  intros IL. induction calls as [|c calls IH]; intros l s k n AL N PH TD HN; (destruct n as [|n]; [lia|]); cbn [repeat]; change (i :: repeat i n) with ([i] ++ repeat i n); rewrite app_assoc.
  - assert (R1 : run E cs (l ++ [i]) = step E (run E cs l) i) by apply run_snoc. unfold step in R1. rewrite AL, N in R1. unfold turn in R1. rewrite PH, TD in R1. unfold bind, ret. cbn [api_appends]. unfold ret.
    destruct (api_destroy (client_env E (k_ans k)) (s, client_world (p_trace (run E cs l)) k)) as [[s1 w1] r1]. destruct r1 as [d|e| |]; cbn [snd survives].
    1,4: eapply over_stays; [rewrite R1; cbn [p_clients]; rewrite OpenProofs.nth_error_upd by (rewrite run_length; auto); rewrite Nat.eqb_refl; reflexivity|cbn; auto|rewrite R1; reflexivity].
    all: apply dead_stays; rewrite R1; reflexivity.
  - assert (R1 : run E cs (l ++ [i]) = step E (run E cs l) i) by apply run_snoc. unfold step in R1. rewrite AL, N in R1. unfold turn in R1. rewrite PH, TD in R1. cbn [api_appends]. unfold bind at 1 2.
    destruct (api_append (client_env E (k_ans k)) (Some c) true (s, client_world (p_trace (run E cs l)) k)) as [[s1 w1] r1] eqn:A. destruct r1 as [[st out]|e| |]; cbn [snd survives].
    2,3: apply dead_stays; rewrite R1; reflexivity.
    2: eapply over_stays; [rewrite R1; cbn [p_clients]; rewrite OpenProofs.nth_error_upd by (rewrite run_length; auto); rewrite Nat.eqb_refl; reflexivity|cbn; auto|rewrite R1; reflexivity].
    set (k1 := after_call k w1 (Live s1) calls [RAppend st out]) in *.
    assert (W1 : client_world (p_trace (run E cs (l ++ [i]))) k1 = w1) by (rewrite R1; destruct w1; reflexivity).
    assert (N1 : nth_error (p_clients (run E cs (l ++ [i]))) i = Some k1) by (rewrite R1; cbn [p_clients]; rewrite OpenProofs.nth_error_upd by (rewrite run_length; auto); rewrite Nat.eqb_refl; reflexivity).
    rewrite (IH (l ++ [i]) s1 k1 n); auto; [|rewrite R1; reflexivity|cbn [List.length] in HN; lia]. rewrite W1. change (k_ans k1) with (k_ans k). unfold bind, ret.
    destruct (api_appends (client_env E (k_ans k)) calls (s1, w1)) as [[s2 w2] [rs'|e| |]]; try reflexivity. destruct (api_destroy (client_env E (k_ans k)) (s2, w2)) as [[s3 w3] [d'|e| |]]; reflexivity.
Qed.
(** When all clients have made all their calls, the process is alive if and only if no client's session, alone in the world, ends in undefined
    behaviour or an uncaught exception. *)
Theorem C58_survives_partial : forall E cs schedule,
  Forall fresh cs -> Forall (fun k => settled E (k_set k)) cs -> separate cs ->
  (forall i st a calls, nth_error cs i = Some (start st a calls) -> (count_occ Nat.eq_dec schedule i >= 2 + List.length calls)%nat) ->
  p_alive (run E cs schedule) = true <->
    forall i st a calls, nth_error cs i = Some (start st a calls) -> survives (snd (session (client_env E a) st calls world0)) = true.
Proof.
  intros E cs schedule HF HS HP HC. rewrite (C58_alive_partial E cs schedule HF HS HP).
  assert (X : forall i st a calls, nth_error cs i = Some (start st a calls) -> p_alive (run E cs (only i schedule)) = survives (snd (session (client_env E a) st calls world0))).
  { intros i st a calls N. specialize (HC i st a calls N). assert (IL : (i < List.length cs)%nat) by (apply nth_error_Some; congruence). rewrite only_repeat.
    destruct (count_occ Nat.eq_dec schedule i) as [|n]; [lia|]. cbn [repeat]. change (i :: repeat i n) with ([i] ++ repeat i n).
    assert (R1 : run E cs [i] = step E (mkprocess [] true cs) i) by reflexivity. unfold step in R1. cbn [p_alive p_clients p_trace] in R1. rewrite N in R1. unfold turn in R1. cbn [start k_phase k_ans k_set k_todo] in R1. change (client_world [] (start st a calls)) with world0 in R1.
    unfold session. unfold bind at 1. destruct (api_create (client_env E a) (Some st) world0) as [w1 r1]. destruct r1 as [[s|]|e| |]; cbn [snd survives].
    2,5: eapply over_stays; [rewrite R1; cbn [p_clients]; rewrite OpenProofs.nth_error_upd by auto; rewrite Nat.eqb_refl; reflexivity|cbn; auto|rewrite R1; reflexivity].
    2,3: apply dead_stays; rewrite R1; reflexivity.
    set (k1 := after_call (start st a calls) w1 (Live s) calls [RCreate true]) in *.
    rewrite (rest_survives E cs i IL calls [i] s k1 n); try reflexivity; [|rewrite R1; reflexivity|rewrite R1; cbn [p_clients]; rewrite OpenProofs.nth_error_upd by auto; rewrite Nat.eqb_refl; reflexivity|lia].
    replace (client_world (p_trace (run E cs [i])) k1) with w1 by (rewrite R1; destruct w1; reflexivity). change (k_ans k1) with a.
    destruct ((rs <- api_appends (client_env E a) calls ;; d <- api_destroy (client_env E a) ;; ret (Some (rs, d))) (s, w1)) as [[s2 w2] r2]. destruct r2; reflexivity. }
  split.
  - intros H i st a calls N. rewrite <- (X i st a calls N). eapply H; eauto.
  - intros H i k N. assert (F : fresh k) by (eapply Forall_forall; [exact HF|eapply nth_error_In; eauto]). destruct F as (st & a & calls & ->). rewrite (X i st a calls N). eapply H; eauto.
Qed.

Lemma object_client E a b k tr : object_rev (client_env E a) b k tr = object_rev E b k tr.
Proof. induction tr as [|e tr IH]; [reflexivity|]. destruct e; cbn [object_rev]; rewrite ?IH; reflexivity. Qed.
Lemma use_store u : fair_use u -> store_at (u_set u) (u_bk u) (u_root u).
Proof. intros HU. split; [exact (fu_root _ HU)|]. pose proof (fu_bk _ HU) as B. destruct (st_s3 (u_set u)); exact B. Qed.
(** A client whose settings are as documented, whose requests the machine grants and that gives whole frames, among other clients of any kind (also such
    that give anything and whose requests fail): all its calls succeed, and a reader finds under every key of its store what a reader finds when
    the session was alone in the world: so what is proved of sessions about the arrays and the documents (C01, C02, C06, C14, C26, ...) holds for it. *)
Theorem C58_reader_partial : forall E cs schedule i u a groups,
  Forall fresh cs -> Forall (fun k => settled E (k_set k)) cs -> separate cs ->
  p_alive (run E cs schedule) = true ->
  fair_use u -> u_env u = client_env E a -> u_world u = world0 -> whole_frames u groups ->
  nth_error cs i = Some (start (u_set u) a (calls groups)) -> (count_occ Nat.eq_dec schedule i >= 2 + List.length (calls groups))%nat ->
  (exists k, nth_error (p_clients (run E cs schedule)) i = Some k /\
     k_said k = RCreate true :: map (fun c => RAppend st_success (Some (zlen c))) (calls groups) ++ [RDestroy true]) /\
  forall k, stored E (p_trace (run E cs schedule)) (u_bk u) (u_root u ++ "/" ++ k)%string = key u groups k.
Proof.
  intros E cs schedule i u a groups HF HS HP AL HU UE UW HG N CN.
  pose proof (StoreProofs.a_succeeds u HU groups HG) as SU. pose proof (use_store u HU) as ST.
  unfold key, after. unfold succeeds in SU. rewrite UE, UW in *. destruct (session (client_env E a) (u_set u) (calls groups) world0) as [w' r'] eqn:SE. cbn [fst snd] in *. subst r'.
  destruct (C58_session_partial E cs schedule i (u_set u) a (calls groups) w' _ _ HF HS HP AL N CN SE) as [R1 R2]. split.
  - destruct R1 as (k & K1 & K2). exists k. split; [exact K1|]. rewrite K2, map_map. reflexivity.
  - intros k. destruct (C58_alone_partial E cs schedule i _ HF HS HP AL N) as [_ R3]. cbn [k_set start] in R3. pose proof (eq_trans (eq_sym (R3 _ _ ST)) (R2 _ _ ST)) as T. unfold stored. destruct (u_bk u) as [b|] eqn:B.
    + rewrite (C58_objects_partial E cs schedule i _ b (u_root u) k HF HS HP AL N ST), T. unfold object_of. symmetry. apply object_client.
    + destruct (C58_files_partial E cs schedule i _ (u_root u) (u_root u ++ "/" ++ k) HF HS HP AL N ST) as [F _]; [apply under_sub|destruct (u_root u); discriminate|]. rewrite F, T. reflexivity.
Qed.

(** ** Why the directory a store lies in must be there at the start: a path with a blank before it. The check of the settings looks for the directory
    " out", the store is made at "out/a", together with the directory "out"; after that another stream may be created at "out/b", which alone is
    refused. *)
Definition blank_env : env :=
  mkenv (fun _ => None) (fun p => String.eqb p " out") (e_obj0 ex_env) (e_fault ex_env) (e_s3 ex_env) (e_conns ex_env) (e_compress ex_env) (e_writable ex_env) (e_parse ex_env) (e_stat ex_env).
Definition small_settings (p : string) (s3 : option s3set) (v : Z) : settings :=
  mksettings (Some p) (Some "{}") s3 None (Some (map ex_udim ex_dims)) false dt_uint16 v.
Definition fine : answers := mkanswers (fun _ => false) (fun _ => true) (fun _ _ => true).
Definition said (p : process) (i : nat) : list reply := match nth_error (p_clients p) i with Some k => k_said k | None => [] end.
Lemma small_store p v b r : trimmed_to p p -> store_at (small_settings p None v) b r -> b = None /\ r = p.
Proof. intros T [(q & Q & T') B]. cbn in Q. injection Q as <-. split; [exact B|]. symmetry. exact (trimmed_unique _ _ _ T T'). Qed.
Theorem C58_missing_parent_refuted : exists E cs schedule i k0,
  Forall fresh cs /\ separate cs /\ p_alive (run E cs schedule) = true /\ nth_error cs i = Some k0 /\
  said (run E cs schedule) i = [RCreate true] /\ said (run E cs (only i schedule)) i = [RCreate false].
Proof.
  exists blank_env, [start (small_settings " out/a" None 2) fine []; start (small_settings "out/b" None 2) fine []], [0; 1]%nat, 1%nat. eexists.
  split; [repeat constructor; unfold fresh; eauto|]. split.
  - assert (A : forall b r, store_at (small_settings " out/a" None 2) b r -> b = None /\ r = "out/a"). { intros b r [(q & Q & T') B]. cbn in Q. injection Q as <-. split; [exact B|]. symmetry. exact (trimmed_unique _ _ _ (trim_spec " out/a") T'). }
    assert (B : forall b r, store_at (small_settings "out/b" None 2) b r -> b = None /\ r = "out/b"). { intros b r H. eapply small_store; [exact (trim_spec "out/b")|exact H]. }
    intros i j k1 k2 b1 r1 b2 r2 NE N1 N2 P1 P2. destruct i as [|[|i]]; cbn in N1; try (destruct i; discriminate); injection N1 as <-; (destruct j as [|[|j]]; cbn in N2; try (destruct j; discriminate); try contradiction); injection N2 as <-; cbn [k_set start] in *.
    + destruct (A _ _ P1) as [-> ->], (B _ _ P2) as [-> ->]. right. split; split; discriminate.
    + destruct (B _ _ P1) as [-> ->], (A _ _ P2) as [-> ->]. right. split; split; discriminate.
  - split; [vm_compute; reflexivity|]. split; [reflexivity|]. split; vm_compute; reflexivity.
Qed.

(** ** The hypotheses are met: three streams, two on the filesystem (Zarr 3 and 2) and one on S3, with calls interleaved; one of them meets faults *)
Definition sx_env : env :=
  mkenv (fun _ => None) (fun p => String.eqb p "dir") (e_obj0 ex_env) (e_fault ex_env) (e_s3 ex_env) 1 (e_compress ex_env) (e_writable ex_env) (e_parse ex_env) (e_stat ex_env).
Definition sx_s3 : s3set := mks3set (Some "http://h") (Some "bucket") (Some "k") (Some "s").
Definition sx_clients : list client :=
  [ start (small_settings "dir/a" None 3) fine [zrep 1 140; zrep 2 100];
    start (small_settings "dir/b" None 2) (mkanswers (Nat.leb 8) (fun _ => true) (fun _ _ => true)) [zrep 3 120];
    start (small_settings "dir/a" (Some sx_s3) 2) fine [zrep 4 60] ].
Definition sx_schedule : list nat := [0; 1; 2; 2; 0; 1; 0; 0; 1; 2]%nat.
Example C58_hypotheses :
  Forall fresh sx_clients /\ Forall (fun k => settled sx_env (k_set k)) sx_clients /\ separate sx_clients /\
  p_alive (run sx_env sx_clients sx_schedule) = true /\
  (forall i k, nth_error sx_clients i = Some k -> (count_occ Nat.eq_dec sx_schedule i >= 2 + List.length (k_todo k))%nat) /\
  map (said (run sx_env sx_clients sx_schedule)) [0; 1; 2]%nat =
    [ [RCreate true; RAppend 0 (Some 140); RAppend 0 (Some 100); RDestroy true]; [RCreate true; RAppend 0 (Some 120); RDestroy false];
      [RCreate true; RAppend 0 (Some 60); RDestroy true] ].
Proof.
  split; [repeat constructor; unfold fresh, start; eauto|]. split; [|split; [|split; [vm_compute; reflexivity|split; [|vm_compute; reflexivity]]]].
  - apply Forall_cons; [|apply Forall_cons; [|apply Forall_cons; [|apply Forall_nil]]]; intros N p H; cbn in N, H; try discriminate; injection H as <-; (split; [|split; [reflexivity|right; reflexivity]]); [exact (trim_spec "dir/a")|exact (trim_spec "dir/b")].
  - assert (A : forall v b r, store_at (small_settings "dir/a" None v) b r -> b = None /\ r = "dir/a") by (intros v b r; apply small_store; exact (trim_spec "dir/a")).
    assert (B : forall v b r, store_at (small_settings "dir/b" None v) b r -> b = None /\ r = "dir/b") by (intros v b r; apply small_store; exact (trim_spec "dir/b")).
    assert (C : forall v b r, store_at (small_settings "dir/a" (Some sx_s3) v) b r -> b <> None) by (intros v b r [_ (x & t & _ & _ & ->)]; discriminate).
    intros i j k1 k2 b1 r1 b2 r2 NE N1 N2 P1 P2.
    destruct i as [|[|[|i]]]; cbn in N1; try (destruct i; discriminate); injection N1 as <-; (destruct j as [|[|[|j]]]; cbn in N2; try (destruct j; discriminate); try contradiction); injection N2 as <-; cbn [k_set start] in *;
      repeat match goal with
        | H : store_at (small_settings "dir/a" None _) _ _ |- _ => destruct (A _ _ _ H) as [-> ->]; clear H
        | H : store_at (small_settings "dir/b" None _) _ _ |- _ => destruct (B _ _ _ H) as [-> ->]; clear H
        | H : store_at (small_settings "dir/a" (Some sx_s3) _) _ _ |- _ => apply C in H end;
      first [left; congruence|right; split; split; discriminate].
  - intros i k H. destruct i as [|[|[|i]]]; cbn in H; try (destruct i; discriminate); injection H as <-; vm_compute; lia.
Qed.

(** a documented session on S3 next to a stream on the filesystem whose requests fail from the fifth on *)
Definition rd_clients : list client :=
  [ start (u_set (ex_plain 2 true)) fine (calls (ex_groups 2 5));
    start (small_settings "b" None 2) (mkanswers (Nat.leb 5) (fun _ => true) (fun _ _ => true)) [zrep 3 120] ].
Definition rd_schedule : list nat := [0; 1; 0; 1; 0; 1; 0; 0; 1]%nat.
Example C58_reader_hypotheses :
  Forall fresh rd_clients /\ Forall (fun k => settled ex_env (k_set k)) rd_clients /\ separate rd_clients /\
  p_alive (run ex_env rd_clients rd_schedule) = true /\ said (run ex_env rd_clients rd_schedule) 1 = [RCreate true; RAppend 0 (Some 120); RDestroy false] /\
  fair_use (ex_plain 2 true) /\ u_env (ex_plain 2 true) = client_env ex_env fine /\ u_world (ex_plain 2 true) = world0 /\ whole_frames (ex_plain 2 true) (ex_groups 2 5) /\
  (count_occ Nat.eq_dec rd_schedule 0 >= 2 + List.length (calls (ex_groups 2 5)))%nat.
Proof.
  split; [repeat constructor; unfold fresh, start; eauto|]. split; [|split; [|split; [vm_compute; reflexivity|split; [vm_compute; reflexivity|]]]].
  - apply Forall_cons; [intros N; discriminate|]. apply Forall_cons; [|apply Forall_nil]. intros N p H. injection H as <-. split; [exact (trim_spec "b")|]. split; [reflexivity|left; reflexivity].
  - assert (A : forall b r, store_at (u_set (ex_plain 2 true)) b r -> b <> None) by (intros b r [_ (x & t & _ & _ & ->)]; discriminate).
    assert (B : forall b r, store_at (small_settings "b" None 2) b r -> b = None) by (intros b r [_ Q]; exact Q).
    intros i j k1 k2 b1 r1 b2 r2 NE N1 N2 P1 P2. destruct i as [|[|i]]; cbn in N1; try (destruct i; discriminate); injection N1 as <-; (destruct j as [|[|j]]; cbn in N2; try (destruct j; discriminate); try contradiction); injection N2 as <-; cbn [k_set start] in *; left.
    + apply A in P1. apply B in P2. congruence.
    + apply A in P2. apply B in P1. congruence.
  - split; [apply ex_plain_fair; auto|]. split; [reflexivity|]. split; [reflexivity|]. split; [apply ex_frames_whole; lia|]. vm_compute. lia.
Qed.

Print Assumptions C58_alive_partial.
Print Assumptions C58_alone_partial.
Print Assumptions C58_filter.
Print Assumptions C58_files_partial.
Print Assumptions C58_objects_partial.
Print Assumptions C58_session_partial.
Print Assumptions C58_survives_partial.
Print Assumptions C58_reader_partial.
Print Assumptions C58_missing_parent_refuted.
