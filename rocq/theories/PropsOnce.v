(** C59: every object a stream puts on S3 appears whole, by one upload, and never changes again. *)
Require Import ZArith List Bool String Ascii Lia.
Require Import Verif.Base Verif.Spec Verif.Dim Verif.Limits Verif.Json Verif.World Verif.Writer Verif.Stream Verif.Api Verif.GridSpec Verif.LayoutSpec Verif.OnceSpec Verif.Examples.
Require Verif.DimProofs Verif.Radix Verif.FrameStream Verif.OnceProofs Verif.OnceStream Verif.PropsLayout.
Import ListNotations.
Open Scope string_scope. Open Scope list_scope. Open Scope Z_scope.

(** *** The frames of a stream *)
Lemma frame_is st frame : frame_has st frame -> (forall s n, commit st = Ok s -> bytes_of_frame (s_dims s) (s_dtype s) = Ok n -> n = frame) /\
  (forall s, commit st = Ok s -> (3 <= List.length (s_dims s))%nat) /\ 0 < frame.
Proof.
  intros (l & d0 & mids & dy & dx & bpp & H1 & H2 & H3 & H4 & H5 & H6 & H7).
  assert (C : forall s, commit st = Ok s -> s_dims s = d0 :: mids ++ [dy; dx] /\ s_dtype s = st_dtype st).
  { intros s. unfold commit. rewrite H1, H2. unfold make_dimensions. destruct (Nat.ltb 2 _); cbn [obind]; [|discriminate]. intros X. injection X as <-. auto. }
  split; [|split; [|apply H7]].
  - intros s n Hs. destruct (C s Hs) as [-> ->]. unfold bytes_of_frame. rewrite H3. cbn [obind]. rewrite DimProofs.height_dim_eq, DimProofs.width_dim_eq. intros X. injection X as <-.
    unfold u64. rewrite Zmult_mod_idemp_l. rewrite Z.mod_small; rewrite H4 in *; [ring|]. replace (bpp * d_array dy * d_array dx) with (bpp * (d_array dy * d_array dx)) by ring. lia.
  - intros s Hs. destruct (C s Hs) as [-> _]. cbn. rewrite app_length. cbn. lia.
Qed.

(** Whatever the environment does (failing requests included), whatever is appended, and wherever the store is: a stream that
    is given fewer than 2^32 frames uploads no object twice. *)
Theorem C59_uploaded_once : forall E st calls frame b k w,
  frame_has st frame -> bytes_given calls + frame * (zlen calls + 1) < 2 ^ 32 * frame ->
  uploads b k (w_trace (fst (session E st calls w))) <= uploads b k (w_trace w) + 1.
Proof.
  intros E st calls frame b k w HF HB. destruct (frame_is st frame HF) as (F1 & F2 & F3).
  set (nd := match commit st with Ok s => List.length (s_dims s) | _ => 3%nat end).
  assert (Hnd : (3 <= nd)%nat) by (unfold nd; destruct (commit st) as [s|e| |] eqn:C; try lia; apply F2; reflexivity).
  assert (Hcs : exists cs, (forall s ws, commit st = Ok s -> create_writers s = Ok ws -> Forall2 (OnceProofs.bw (st_version st =? 3)) cs ws /\ Forall OnceStream.new_w ws) /\
    forall i c, nth_error cs i = Some c -> c_level c = Z.of_nat i /\ c_root c = snd (FrameStream.place st) /\ c_bucket c = fst (FrameStream.place st) /\ List.length (c_dims c) = nd).
  { unfold nd. destruct (commit st) as [s|e| |] eqn:C; [|exists []; split; [discriminate|intros [|i] c; discriminate]..]. destruct (create_writers s) as [ws|e| |] eqn:W; [|exists []; split; [intros s' ws' X Y; injection X as <-; congruence|intros [|i] c; discriminate]..].
    destruct (OnceStream.writers_cfgs s ws W) as (cs & C1 & C2 & C3). destruct (FrameStream.commit_place _ _ C) as (P1 & P2 & _). exists cs. split.
    - intros s' ws' X Y. injection X as <-. rewrite W in Y. injection Y as <-. rewrite <- P2. auto.
    - intros i c Hi. rewrite <- P1. cbn [fst snd]. apply (C3 i c Hi). }
  destruct Hcs as (cs & Hw & Hc).
  assert (G : forall it, (fst (FrameStream.place st) = Some b -> forall it', sensible (st_version st =? 3) (nd - 1) it' -> where_is (st_version st =? 3) (snd (FrameStream.place st)) it' = k -> it = Some it') ->
    uploads b k (w_trace (fst (session E st calls w))) <= uploads b k (w_trace w) + 1).
  { intros it Role. set (v := st_version st =? 3) in *. set (root := snd (FrameStream.place st)) in *. set (bk := fst (FrameStream.place st)) in *. set (c := uploads b k (w_trace w)) in *.
    assert (HT : forall m j f tw, OnceStream.T b k v cs frame it (c + 1) (fun _ _ => True) m j f tw -> OnceProofs.cnt b k (snd tw) <= c + 1) by (intros m j f tw; apply (OnceStream.T_cnt b k v nd cs frame it Hnd)).
    apply (OnceStream.t_session E b k v root bk nd cs frame it Hnd Hc Role (c + 1) (fun _ _ => True) (fun _ _ _ _ _ _ _ _ _ _ _ _ => I) F3 (c + 1) (HT 0 0%nat 0) st calls c);
      [lia|lia|unfold bk, root; destruct (FrameStream.place st); reflexivity|reflexivity|exact F1|intros s ws X Y; split; [exact (Hw s ws X Y)|auto]| |lia|reflexivity].
    intros s ws X Y. destruct (Hw s ws X Y) as [_ Nw]. pose proof (OnceStream.fresh_total b k v root bk nd it Hnd Role ws Nw). lia. }
  destruct (Z_le_gt_dec (uploads b k (w_trace (fst (session E st calls w)))) (uploads b k (w_trace w) + 1)) as [Q|Q]; [exact Q|exfalso].
  assert (No : forall it, sensible (st_version st =? 3) (nd - 1) it -> where_is (st_version st =? 3) (snd (FrameStream.place st)) it = k -> False).
  { intros it S1 S2. enough (uploads b k (w_trace (fst (session E st calls w))) <= uploads b k (w_trace w) + 1) by lia. apply (G (Some it)). intros _ it' T1 T2. f_equal. apply (PropsLayout.C38_distinct_paths (st_version st =? 3) (snd (FrameStream.place st)) (nd - 1)); [lia|exact S1|exact T1|]. congruence. }
  enough (uploads b k (w_trace (fst (session E st calls w))) <= uploads b k (w_trace w) + 1) by lia. apply (G None). intros _ it' T1 T2. destruct (No it' T1 T2).
Qed.

(** *** Seen from outside *)
Lemma rev_quiet E b k l : forall r, Forall (fun e => upload_of b k e = false) l -> object_rev E b k (l ++ r) = object_rev E b k r.
Proof. induction l as [|e l IH]; intros r H; inversion H as [|? ? H1 H2]; subst; [reflexivity|]. cbn [app]. destruct e; cbn in *; try rewrite H1; auto. Qed.
Lemma quiet_none b k l : uploads b k l = 0 -> Forall (fun e => upload_of b k e = false) l.
Proof.
  unfold uploads, zlen. intros H. apply Forall_forall. intros e He. destruct (upload_of b k e) eqn:U; [|reflexivity]. assert (In e (filter (upload_of b k) l)) by (apply filter_In; auto).
  destruct (filter (upload_of b k) l); [contradiction|cbn in H; lia].
Qed.
Lemma same_object E b k tr mid : uploads b k mid = 0 -> object_of E (tr ++ mid) b k = object_of E tr b k.
Proof. intros H. unfold object_of. rewrite rev_app_distr. apply rev_quiet. apply Forall_rev. apply quiet_none. exact H. Qed.
Lemma uploads_nonneg b k l : 0 <= uploads b k l. Proof. apply Radix.zlen_nonneg. Qed.

(** At every moment [seen] of the session - also if the process is killed there - an object is what it was before the stream
    was created, or what it is at the end; and once it has changed it does not change again. *)
Theorem C59_whole_or_as_before : forall E st calls frame b k w seen later,
  frame_has st frame -> bytes_given calls + frame * (zlen calls + 1) < 2 ^ 32 * frame ->
  w_trace w = [] -> w_trace (fst (session E st calls w)) = seen ++ later ->
  object_of E seen b k = e_obj0 E b k \/ object_of E seen b k = object_of E (seen ++ later) b k.
Proof.
  intros E st calls frame b k w seen later HF HB W T. pose proof (C59_uploaded_once E st calls frame b k w HF HB) as U. rewrite W, T, OnceProofs.uploads_app in U. change (uploads b k []) with 0 in U.
  pose proof (uploads_nonneg b k seen). pose proof (uploads_nonneg b k later). destruct (Z.eq_dec (uploads b k seen) 0) as [Z0|Z0].
  - left. exact (same_object E b k [] seen Z0).
  - right. symmetry. apply same_object. lia.
Qed.
Theorem C59_never_changes_again : forall E st calls frame b k w seen between later,
  frame_has st frame -> bytes_given calls + frame * (zlen calls + 1) < 2 ^ 32 * frame ->
  w_trace w = [] -> w_trace (fst (session E st calls w)) = seen ++ between ++ later ->
  object_of E seen b k <> e_obj0 E b k -> object_of E (seen ++ between) b k = object_of E seen b k.
Proof.
  intros E st calls frame b k w seen between later HF HB W T N. pose proof (C59_uploaded_once E st calls frame b k w HF HB) as U. rewrite W, T, !OnceProofs.uploads_app in U. change (uploads b k []) with 0 in U.
  pose proof (uploads_nonneg b k seen). pose proof (uploads_nonneg b k later). pose proof (uploads_nonneg b k between). destruct (Z.eq_dec (uploads b k seen) 0) as [Z0|Z0].
  - destruct N. exact (same_object E b k [] seen Z0).
  - apply same_object. lia.
Qed.
(** *** The hypotheses can be met: 12 frames to S3, in two calls; once with all requests answered, once with the 20th failing *)
Definition once_env (bad : nat) : env :=
  mkenv (fun _ => None) (fun _ => false) (fun _ k => if String.eqb k "out/0/0/0/0/0" || String.eqb k "out/data/root/0/c1/0/0/0" then Some [9] else None) (fun _ => false) (fun j => negb (Nat.eqb j bad)) 2
        (fun _ _ d => Some d) (fun _ => true) (fun s => Some s) (fun _ _ => true).
Definition once_calls : list (list Z) := [zrep 1 280; zrep 2 560].
Definition once_end (bad : nat) : list event := w_trace (fst (session (once_env bad) (ex_s3_settings 2) once_calls ex_world)).
(** object out/0/0/0/0/0 was there before, is replaced after the fourth request, and stays; if the 20th request fails,
    object out/0/0/1/2/1 never appears; bucket and credentials are as in [ex_s3_settings] *)
Example C59_hypotheses : frame_has (ex_s3_settings 2) 70 /\ bytes_given once_calls + 70 * (zlen once_calls + 1) < 2 ^ 32 * 70 /\ w_trace ex_world = [] /\
  uploads "bucket" "out/0/0/0/0/0" (once_end 100) = 1 /\ uploads "bucket" "out/0/0/1/2/1" (once_end 100) = 1 /\ uploads "bucket" "out/0/0/1/2/1" (once_end 20) = 0 /\
  object_of (once_env 100) (firstn 1 (once_end 100)) "bucket" "out/0/0/0/0/0" <> e_obj0 (once_env 100) "bucket" "out/0/0/0/0/0".
Proof.
  split; [|split; [vm_compute; reflexivity|split; [reflexivity|]]].
  - unfold frame_has. eexists _, _, [_], _, _, _. repeat split; try reflexivity; try (cbn; lia). all: vm_compute; intuition discriminate.
  - split; [vm_compute; reflexivity|]. split; [vm_compute; reflexivity|]. split; [vm_compute; reflexivity|]. vm_compute. discriminate.
Qed.

(** *** An older object can outlive the stream that should have replaced it: 7 frames of a Zarr v3 stream, all calls succeed,
    and the object of the second row of shards is still the one from before (compare C14_v3_s3_refuted). *)
Theorem C14_v3_s3_stale_refuted : exists E st calls w b k old,
  w_trace w = [] /\ e_obj0 E b k = Some old /\ st_version st = 3 /\ where_is true "out" (Piece 0 1 [0; 0; 0]) = k /\
  snd (session E st calls w) = Ok (Some ([(0, Some 490)], true)) /\ object_of E (w_trace (fst (session E st calls w))) b k = Some old.
Proof.
  exists (once_env 1000), (ex_s3_settings 3), [zrep 1 490], ex_world, "bucket", "out/data/root/0/c1/0/0/0", [9].
  split; [reflexivity|]. split; [reflexivity|]. split; [reflexivity|]. split; [vm_compute; reflexivity|]. split; vm_compute; reflexivity.
Qed.

Print Assumptions C59_uploaded_once.
Print Assumptions C59_whole_or_as_before.
Print Assumptions C59_never_changes_again.
Print Assumptions C14_v3_s3_stale_refuted.
