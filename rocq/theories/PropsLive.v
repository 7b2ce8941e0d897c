(** C61: how many refused requests it takes before a stream on S3 waits for ever. Vocabulary: LiveSpec.v, SafeSpec.v. *)
Require Import ZArith List Bool String Ascii Lia.
Require Import Verif.Base Verif.Spec Verif.Dim Verif.Limits Verif.World Verif.Writer Verif.Stream Verif.Api Verif.SettingsSpec Verif.SessionSpec Verif.SafeSpec Verif.LiveSpec.
Require Import Verif.StreamProofs Verif.PyramidProofs Verif.SessionProofs Verif.ExamplesUse Verif.SafeStream Verif.LiveProofs Verif.LiveStream.
Require Import Verif.AnswerSpec.
Require Verif.Examples Verif.PropsReport Verif.PropsSafe Verif.AnswerSession Verif.AnswerProofs Verif.StoreProofs.
Import ListNotations.
Open Scope string_scope. Open Scope list_scope. Open Scope Z_scope.

(** Zarr V2 on S3, whatever the settings, the data, and the requests the server refuses: if one of the calls (create, an append, destroy) waits
    for ever, then, at the moment it stops, the server has refused, during this session, at least half as many requests as the stream has
    connections. (Partial: the full statement is about both versions of Zarr.) *)
Theorem C61_blocked_partial : forall E st frame calls w w', st_version st = 2 -> st_s3 st <> None -> sized st frame -> whole_calls frame calls ->
  session E st calls w = (w', Hang) -> (e_conns E <= 2 * refused E (w_tick w) (w_tick w'))%nat.
Proof.
  intros E st frame calls w w' V K [H1 H2 (l & d0 & mids & dy & dx & bpp & L & D & B & -> & F & S & M)] Hc R.
  assert (M' : st_multi st = true -> small0 d0 /\ scale_fits bpp (d_array dx) (d_array dy) /\ st_dtype st <> dt_int8 /\ exists d, In d (d0 :: mids ++ [dy; dx]) /\ shrinks d).
  { intros X. destruct (M X) as (M1 & (i1 & i2 & i3) & M3 & M4). rewrite <- !half_ceil in i3. split; [exact M1|]. split; [|split; [exact M3|exact M4]].
    assert (I : inner_ok dy /\ inner_ok dx). { pose proof (fit_inner _ _ _ _ _ F) as I. apply Forall_app in I. destruct I as [_ I]. inversion I as [|? ? I1 I2]; subst. inversion I2; subst. auto. }
    destruct I as [(Y & _) (X' & _)]. pose proof (fit_bpp _ _ _ _ _ F). unfold scale_fits. repeat split; auto; lia. }
  pose proof (session_live E st d0 mids dy dx bpp l H1 H2 L D B F S ltac:(intros X; congruence) ltac:(intros X; contradiction) M' K V calls w Hc) as T.
  rewrite R in T. exact T.
Qed.

(** So, as long as fewer than half as many requests are refused as there are connections, every call returns to its caller: create and the
    appends with an answer, destroy too, or with an exception. *)
Theorem C61_returns_partial : forall E st frame calls w, st_version st = 2 -> st_s3 st <> None -> sized st frame -> whole_calls frame calls ->
  (forall n, (2 * refused E (w_tick w) n < e_conns E)%nat) ->
  exists w' o, session E st calls w = (w', o) /\ ((exists r, o = Ok r /\ answered calls r) \/ exists m, o = Throw m).
Proof.
  intros E st frame calls w V K Hs Hc Hn. pose proof (C61_blocked_partial E st frame calls w) as H.
  pose proof (PropsSafe.session_answers E st calls w frame Hs Hc ltac:(intros X; congruence) ltac:(intros X; contradiction)) as T.
  destruct (session E st calls w) as [w' o] eqn:X. exists w', o. split; [reflexivity|]. destruct o as [r|m| |]; [eauto|eauto|contradiction|].
  specialize (H w' V K Hs Hc eq_refl). specialize (Hn (w_tick w')). lia.
Qed.

(** Either version of Zarr, for every fair use: while no request is refused, no call waits for ever. *)
Theorem C61_either_version_partial : forall u groups answer w', fair_use u -> whole_frames u groups ->
  session (answering (u_env u) answer) (u_set u) (calls groups) (u_world u) = (w', Hang) ->
  (1 <= refused (answering (u_env u) answer) (w_tick (u_world u)) (w_tick w'))%nat.
Proof.
  intros u groups answer w' U W H. destruct (refused (answering (u_env u) answer) (w_tick (u_world u)) (w_tick w')) as [|n] eqn:R; [exfalso|lia].
  pose proof (AnswerSession.w_session (u_env u) (e_fault (u_env u)) answer (u_set u) (calls groups) (u_world u)) as [_ T].
  change (AnswerProofs.other (u_env u) (e_obj0 (u_env u)) (e_fault (u_env u)) answer (e_conns (u_env u))) with (answering (u_env u) answer) in T.
  rewrite H in T. cbn [fst] in T. pose proof (StoreProofs.a_succeeds u U groups W) as S. unfold succeeds in S. rewrite <- T in S; [discriminate|].
  intros t Ht. split; [reflexivity|]. rewrite (fu_s3 _ U). unfold refused in R. apply length_zero_iff_nil in R. destruct (answer t) eqn:A; [reflexivity|exfalso].
  assert (X : In t (filter (fun k => negb (e_s3 (answering (u_env u) answer) k)) (seq (w_tick (u_world u)) (w_tick w' - w_tick (u_world u))))) by (apply filter_In; split; [apply in_seq; lia|cbn [answering e_s3]; rewrite A; reflexivity]).
  rewrite R in X. exact X.
Qed.

(** *** The hypotheses can be met: three connections, and the server refuses request 7, in the middle of the first append *)
Definition lv_env : env := mkenv (fun _ => None) (fun _ => false) (fun _ _ => None) (fun _ => false) (fun k => negb (Nat.eqb k 7)) 3 (fun _ _ _ => None) (fun _ => true) (fun s => if String.eqb s "{}" then Some "{}" else None) (fun _ _ => true).
Lemma lv_count a n : (refused lv_env a n <= 1)%nat.
Proof.
  unfold refused. generalize (n - a)%nat as c. intros c. revert a. induction c as [|c IH]; intros a; cbn [seq filter]; [cbn; lia|]. unfold lv_env at 1. cbn [e_s3]. destruct (Nat.eqb_spec a 7) as [->|N]; cbn [negb]; [|apply IH].
  cbn [List.length]. apply le_n_S. apply Nat.le_0_r. apply length_zero_iff_nil.
  assert (X : forall k, (7 < k)%nat -> filter (fun k => negb (e_s3 lv_env k)) (seq k c) = []); [|apply X; lia]. clear. induction c as [|c IH]; intros k H; [reflexivity|]. cbn [seq filter]. unfold lv_env at 1. cbn [e_s3].
  destruct (Nat.eqb_spec k 7); [lia|]. cbn [negb]. apply IH. lia.
Qed.
Example C61_hypotheses : st_version (PropsSafe.rx_set 2) = 2 /\ st_s3 (PropsSafe.rx_set 2) <> None /\ sized (PropsSafe.rx_set 2) 4 /\ whole_calls 4 (repeat [1; 2; 3; 4] 2) /\
  (forall n, (2 * refused lv_env 0 n < e_conns lv_env)%nat) /\
  match session lv_env (PropsSafe.rx_set 2) (repeat [1; 2; 3; 4] 2) (mkworld [] 0 0 "") with
  | (w', Ok (Some (rs, _))) => refused lv_env 0 (w_tick w') = 1%nat /\ In (st_internal_error, None) rs | _ => False end.
Proof.
  split; [reflexivity|]. split; [discriminate|]. split; [apply (PropsSafe.small_sized 2); auto|]. split; [repeat constructor; exists 1%nat; reflexivity|]. split.
  - intros n. pose proof (lv_count 0 n). cbn [e_conns lv_env]. lia.
  - vm_compute. intuition auto.
Qed.

Print Assumptions C61_blocked_partial.
Print Assumptions C61_returns_partial.
Print Assumptions C61_either_version_partial.
