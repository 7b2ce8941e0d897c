(** C52: whatever the machine does, no call runs into undefined behaviour. *)
Require Import ZArith List Bool String Lia.
Require Import Verif.Base Verif.Spec Verif.Dim Verif.Limits Verif.World Verif.Writer Verif.Stream Verif.Api Verif.SettingsSpec Verif.SessionSpec Verif.SafeSpec.
Require Import Verif.StreamProofs Verif.PyramidProofs Verif.SessionProofs Verif.ExamplesUse Verif.SafeStream.
Require Verif.Examples Verif.PropsReport.
Import ListNotations.
Open Scope string_scope. Open Scope list_scope. Open Scope Z_scope.

Lemma session_answers E st calls w frame : sized st frame -> whole_calls frame calls -> (st_version st = 3 -> st_s3 st = None) -> (st_s3 st = None -> statable E) ->
  match session E st calls w with (_, Ok r) => answered calls r | (_, Throw _) => st_s3 st <> None | (_, UB) => False | (_, Hang) => st_s3 st <> None end.
Proof.
  intros [H1 H2 (l & d0 & mids & dy & dx & bpp & L & D & B & -> & F & S & M)] Hc K HQ.
  assert (M' : st_multi st = true -> small0 d0 /\ scale_fits bpp (d_array dx) (d_array dy) /\ st_dtype st <> dt_int8 /\ exists d, In d (d0 :: mids ++ [dy; dx]) /\ shrinks d).
  { intros X. destruct (M X) as (M1 & (i1 & i2 & i3) & M3 & M4). rewrite <- !half_ceil in i3. split; [exact M1|]. split; [|split; [exact M3|exact M4]].
    assert (I : inner_ok dy /\ inner_ok dx). { pose proof (fit_inner _ _ _ _ _ F) as I. apply Forall_app in I. destruct I as [_ I]. inversion I as [|? ? I1 I2]; subst. inversion I2; subst. auto. }
    destruct I as [(Y & _) (X' & _)]. pose proof (fit_bpp _ _ _ _ _ F). unfold scale_fits. repeat split; auto; lia. }
  pose proof (session_safe E st d0 mids dy dx bpp l H1 H2 L D B F S K HQ M' calls w Hc) as T.
  destruct (session E st calls w) as [w' [r|e| |]]; auto; try (destruct (st_s3 st); [intros X; discriminate X|discriminate]).
  destruct T as [->|(rs & b & -> & R)]; [exact Logic.I|exact R].
Qed.

(** On a filesystem: as long as the status of a path can be asked, and whatever else the operating system and the compressor refuse, at whatever
    moment, and whatever lies on the disk before, create, the append calls and destroy all return; every append call answers success with all its
    bytes, or an error. (Partial: see [C52_status_query_refuted].) *)
Theorem C52_files_partial : forall E st frame calls w, st_s3 st = None -> statable E -> sized st frame -> whole_calls frame calls ->
  exists w' r, session E st calls w = (w', Ok r) /\ answered calls r.
Proof.
  intros E st frame calls w K HQ Hs Hc. pose proof (session_answers E st calls w frame Hs Hc (fun _ => K) (fun _ => HQ)) as T.
  destruct (session E st calls w) as [w' [r|e| |]]; try contradiction. eauto.
Qed.
(** The full statement (C52 on a filesystem) is false: if the status of a single directory cannot be asked (the name is too long for the filesystem, a
    component may not be searched, ...) the exception leaves the task of a worker thread, and the process is terminated in the middle of an append
    call. *)
Definition sx_env (p : string) : env := mkenv (fun _ => None) (fun _ => false) (fun _ _ => None) (fun _ => false) (fun _ => true) 1 (fun _ _ _ => None) (fun _ => true) (fun _ => None) (fun _ q => negb (String.eqb p q)).
(** On S3 (Zarr V2): whatever requests the server refuses, no call runs into undefined behaviour, and if all return, every append call gave an answer. *)
Theorem C52_s3_v2_partial : forall E st frame calls w, st_version st = 2 -> st_s3 st <> None -> sized st frame -> whole_calls frame calls ->
  snd (session E st calls w) <> UB /\ forall w' r, session E st calls w = (w', Ok r) -> answered calls r.
Proof.
  intros E st frame calls w V K Hs Hc. pose proof (session_answers E st calls w frame Hs Hc ltac:(intros X; congruence) ltac:(intros X; contradiction)) as T.
  destruct (session E st calls w) as [w' [r|e| |]] eqn:X; try contradiction; split; try discriminate. intros w1 r1 Y. injection Y as <- <-. exact T.
Qed.

(** Zarr V3 on S3: one refused request while a shard is uploaded, and a later append call runs into undefined behaviour (a null sink is used). *)
Definition rx_set (v : Z) : settings :=
  mksettings (Some "out") None (Some (mks3set (Some "http://host") (Some "bucket") (Some "key") (Some "secret"))) None
    (Some [mkudim (Some "t") ty_time 0 1 2; mkudim (Some "y") ty_space 2 2 1; mkudim (Some "x") ty_space 2 1 1]) false dt_uint8 v.
Lemma small_sized v st : st = rx_set v \/ st = PropsReport.fx_set v None -> v = 2 \/ v = 3 -> sized st 4.
Proof.
  intros H V.
  assert (X : exists d0 cx, st_dims st = Some [d0; mkudim (Some "y") ty_space 2 2 1; mkudim (Some "x") ty_space 2 cx 1] /\
     (d0 = mkudim (Some "t") ty_time 0 1 2 /\ cx = 1 \/ d0 = mkudim (Some "t") ty_time 0 2 1 /\ cx = 2) /\ st_dtype st = dt_uint8 /\ st_comp st = None /\ 0 <= st_version st /\ st_multi st = false).
  { destruct H as [->| ->]; eexists _, _; (split; [reflexivity|]); cbn; repeat split; auto; lia. }
  destruct X as (d0 & cx & D & X & T & C & VV & M). constructor.
  - split; auto. split; [rewrite T; vm_compute; discriminate|]. split; [rewrite C; discriminate|].
    intros l d L I. rewrite D in L. injection L as <-. destruct X as [[-> ->]|[-> ->]]; cbn in I; decompose [or] I; try contradiction; subst d; vm_compute; discriminate.
  - split; [destruct H as [->| ->]; cbn; intros x E; [injection E as <-|discriminate]; cbn; repeat split; discriminate|].
    intros l d L I. rewrite D in L. injection L as <-. destruct X as [[-> ->]|[-> ->]]; cbn in I; decompose [or] I; try contradiction; subst d; discriminate.
  - exists [d0; mkudim (Some "y") ty_space 2 2 1; mkudim (Some "x") ty_space 2 cx 1], (dim_of d0), [], (dim_of (mkudim (Some "y") ty_space 2 2 1)), (dim_of (mkudim (Some "x") ty_space 2 cx 1)), 1.
    split; [exact D|]. split; [reflexivity|]. rewrite T. split; [reflexivity|]. split; [reflexivity|].
    split; [|split; [|rewrite M; discriminate]].
    + destruct X as [[-> ->]|[-> ->]]; constructor; cbn; unfold inner_ok; repeat constructor; cbn; try lia; vm_compute; try reflexivity; discriminate.
    + intros _. destruct X as [[-> ->]|[-> ->]]; constructor; cbn; repeat constructor; cbn; try lia; vm_compute; try reflexivity; discriminate.
Qed.
Theorem C52_status_query_refuted : forall v, v = 2 \/ v = 3 -> exists E st calls w s1 w1 p, sized st 4 /\ whole_calls 4 calls /\ st_version st = v /\ st_s3 st = None /\
  (forall k, e_fault E k = false) /\ (forall k q, e_stat E k q = false <-> q = p) /\
  api_create E (Some st) w = (w1, Ok (Some s1)) /\ snd (api_appends E calls (s1, w1)) = UB.
Proof.
  intros v V. set (p := if v =? 2 then "out/0/0/0" else "out/data/root/0/c0/0").
  assert (X : match api_create (sx_env p) (Some (PropsReport.fx_set v None)) (mkworld [] 0 0 "") with
    | (w1, Ok (Some s1)) => match snd (api_appends (sx_env p) (repeat [1; 2; 3; 4] 2) (s1, w1)) with UB => True | _ => False end | _ => False end).
  { destruct V as [->| ->]; vm_compute; exact Logic.I. }
  destruct (api_create (sx_env p) (Some (PropsReport.fx_set v None)) (mkworld [] 0 0 "")) as [w1 [[s1|]| | |]] eqn:R; try contradiction.
  exists (sx_env p), (PropsReport.fx_set v None), (repeat [1; 2; 3; 4] 2), (mkworld [] 0 0 ""), s1, w1, p. split; [apply (small_sized v); auto|]. split.
  { repeat constructor; exists 1%nat; reflexivity. }
  split; [reflexivity|]. split; [reflexivity|]. split; [reflexivity|]. split.
  { intros k q. unfold sx_env. cbn [e_stat]. destruct (String.eqb_spec p q); cbn; split; intros Y; try discriminate Y; auto; congruence. }
  split; [exact R|]. destruct (snd _); tauto.
Qed.
Theorem C52_s3_v3_refuted : exists E st calls w, sized st 4 /\ whole_calls 4 calls /\ st_version st = 3 /\
  (forall k, e_s3 E k = false <-> k = 4%nat) /\ (forall k, e_fault E k = false) /\ snd (session E st calls w) = UB.
Proof.
  exists (PropsReport.rx_env 4), (rx_set 3), (repeat [1; 2; 3; 4] 4), (mkworld [] 0 0 ""). split; [apply (small_sized 3); auto|]. split.
  { repeat constructor; exists 1%nat; reflexivity. }
  split; [reflexivity|]. split; [|split; [reflexivity|vm_compute; reflexivity]].
  intros k. unfold PropsReport.rx_env. cbn [e_s3]. destruct (Nat.eqb_spec k 4); cbn [negb]; split; intros X; auto; try discriminate X; contradiction.
Qed.

(** Appending after an error (Zarr V3 on S3): the second of four append calls fails because the server refused one request; the next two succeed and
    so does destroy, yet their frames (columns 9, 11 and 13, 15) are stored where frames 1 and 2 (1, 3 and 5, 7) belong, and frame 1, whose append
    call had succeeded, is lost. *)
Theorem C52_later_success_refuted : exists E st calls w w', sized st 4 /\ calls = [[1; 2; 3; 4]; [5; 6; 7; 8]; [9; 10; 11; 12]; [13; 14; 15; 16]] /\
  (forall k, e_s3 E k = false <-> k = 3%nat) /\ (forall k, e_fault E k = false) /\
  session E st calls w = (w', Ok (Some ([(st_success, Some 4); (st_internal_error, None); (st_success, Some 4); (st_success, Some 4)], true))) /\
  exists table, object_of E (w_trace w') "bucket" "out/data/root/0/c0/0/0" = Some ([9; 11; 13; 15] ++ table).
Proof.
  exists (PropsReport.rx_env 3), (rx_set 3), [[1; 2; 3; 4]; [5; 6; 7; 8]; [9; 10; 11; 12]; [13; 14; 15; 16]], (mkworld [] 0 0 "").
  eexists. split; [apply (small_sized 3); auto|]. split; [reflexivity|]. split.
  { intros k. unfold PropsReport.rx_env. cbn [e_s3]. destruct (Nat.eqb_spec k 3); cbn [negb]; split; intros X; auto; try discriminate X; contradiction. }
  split; [reflexivity|]. split; [vm_compute; reflexivity|]. eexists. vm_compute. reflexivity.
Qed.

(** *** The hypotheses can be met: any use the other theorems speak of is sized, multiscale streams included *)
Lemma fair_sized u : fair_use u -> sized (u_set u) (u_frame u).
Proof.
  intros U. constructor; [apply (fu_typed _ U)|apply (fu_strings _ U)|]. destruct (fu_dims _ U) as (l & L & D).
  exists l, (u_d0 u), (u_mids u), (u_dy u), (u_dx u), (u_bpp u). split; [exact L|]. split; [exact D|]. split; [apply (fu_bpp _ U)|]. split; [reflexivity|].
  split; [apply (fu_fits _ U)|]. split; [intros V; apply (fu_shards _ U V)|apply (fu_multi _ U)].
Qed.
Example C52_files_hypotheses : forall v, v = 2 \/ v = 3 -> statable Examples.ex_env /\ st_s3 (u_set (ex_comp v false true)) = None /\ sized (u_set (ex_comp v false true)) 35 /\
  st_multi (u_set (ex_comp v false true)) = true /\ whole_calls 35 [zrep 1 35; zrep 2 70; []].
Proof.
  intros v V. split; [intros k p; reflexivity|]. split; [reflexivity|]. split; [exact (fair_sized _ (ex_comp_fair v false true V))|]. split; [reflexivity|].
  repeat constructor; [exists 1%nat|exists 2%nat|exists 0%nat]; reflexivity.
Qed.
Example C52_s3_v2_hypotheses : st_version (rx_set 2) = 2 /\ st_s3 (rx_set 2) <> None /\ sized (rx_set 2) 4 /\ whole_calls 4 [[1; 2; 3; 4]; []].
Proof. split; [reflexivity|]. split; [discriminate|]. split; [apply (small_sized 2); auto|]. repeat constructor; [exists 1%nat|exists 0%nat]; reflexivity. Qed.

Print Assumptions C52_files_partial.
Print Assumptions C52_status_query_refuted.
Print Assumptions C52_s3_v2_partial.
Print Assumptions C52_s3_v3_refuted.
Print Assumptions C52_later_success_refuted.
