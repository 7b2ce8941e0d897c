(** C03, C04, C05: append calls of any sizes. Vocabulary: AppendSpec.v, SessionSpec.v. *)
Require Import ZArith List Bool String Ascii Lia Zify.
Require Import Verif.Base Verif.Spec Verif.Dim Verif.Limits Verif.World Verif.Stream Verif.Api
  Verif.SettingsSpec Verif.SessionSpec Verif.SessionProofs Verif.AppendSpec Verif.AppendProofs Verif.Examples Verif.ExamplesUse.
Import ListNotations.
Open Scope string_scope.
Open Scope list_scope.
Open Scope Z_scope.

(** create, the append calls [cs], destroy *)
Definition run (u : use) (cs : list (list Z)) : world * outcome (option (list (Z * option Z) * bool)) :=
  session (u_env u) (u_set u) cs (u_world u).
(** create and destroy succeed, every append returns Success, and *bytes_out has these values *)
Definition returns (u : use) (cs : list (list Z)) (outs : list Z) : Prop :=
  snd (run u cs) = Ok (Some (map (fun n => (st_success, Some n)) outs, true)).
(** fewer than 2^32 frames *)
Definition countable (u : use) (cs : list (list Z)) : Prop := zlen (List.concat cs) < u_frame u * 2 ^ 32.

(** *** C03, C04 when no frame is split between calls: calls of whole frames, and after them calls that together bring less than a
    frame. However the bytes are cut up, the machine ends in the same state: that of one call with the
    whole frames among the bytes; every call reports all its bytes. *)
Theorem C03_C04_unsplit_frames_partial : forall u cs,
  fair_use u -> countable u cs -> never_finishes (u_frame u) 0 cs ->
  let F := whole (u_frame u) (List.concat cs) in
  whole_frames u [F] /\ fst (run u cs) = after u [F] /\ returns u cs (map (@zlen Z) cs).
Proof.
  intros u cs HU HL NF F. pose proof (any_calls u HU cs (or_intror NF) HL) as A.
  destruct (never_takes_all (u_frame u) cs (f_pos u HU) 0) as (o' & T & _); [pose proof (f_pos u HU); lia|exact NF|].
  rewrite T in A. cbn [Z.eqb] in A. destruct A as [A1 A2]. split; [exact A1|]. unfold returns, run. rewrite A2. split; [reflexivity|]. reflexivity.
Qed.
Corollary C03_cutting_partial : forall u cs cs',
  fair_use u -> countable u cs -> never_finishes (u_frame u) 0 cs -> never_finishes (u_frame u) 0 cs' ->
  List.concat cs = List.concat cs' -> fst (run u cs) = fst (run u cs').
Proof.
  intros u cs cs' HU HL N1 N2 EQ. destruct (C03_C04_unsplit_frames_partial u cs HU HL N1) as (_ & -> & _).
  destruct (C03_C04_unsplit_frames_partial u cs' HU) as (_ & -> & _); auto; [unfold countable; rewrite <- EQ; exact HL|]. rewrite EQ. reflexivity.
Qed.

(** *** What really happens with calls of any sizes (no multiscale): exactly what [takes_all] says *)
Theorem C03_C04_C05_exact : forall u cs,
  fair_use u -> countable u cs -> st_multi (u_set u) = false ->
  match takes_all (u_frame u) 0 cs with
  | None => snd (run u cs) = UB
  | Some (F, _, outs) => whole_frames u [F] /\ fst (run u cs) = after u [F] /\ returns u cs outs
  end.
Proof.
  intros u cs HU HL M. pose proof (any_calls u HU cs (or_introl M) HL) as A.
  destruct (takes_all (u_frame u) 0 cs) as [[[F o] outs]|]; [|exact A]. destruct A as [A1 A2].
  split; [exact A1|]. unfold returns, run. rewrite A2. split; reflexivity.
Qed.

(** *** C05 for calls as the header documents them: "should be at least the size of a single frame" *)
Theorem C05_calls_of_a_frame_or_more_partial : forall u cs,
  fair_use u -> countable u cs -> st_multi (u_set u) = false ->
  Forall (fun d => d = [] \/ u_frame u <= zlen d) cs ->
  exists outs, returns u cs outs.
Proof.
  intros u cs HU HL M HD. pose proof (C03_C04_C05_exact u cs HU HL M) as A. pose proof (f_pos u HU) as Fp.
  pose proof (documented_takes (u_frame u) cs Fp HD 0 ltac:(lia)) as T.
  destruct (takes_all (u_frame u) 0 cs) as [[[F o] outs]|]; [|congruence]. exists outs. apply A.
Qed.

(** *** C03 refuted: 70 bytes in one call, and cut after 10 bytes: both succeed, and different pixels are read back *)
Definition ex_bytes (n : Z) : list Z := map (fun k => k mod 251 + 1) (zseq n).
Theorem C03_refuted : exists u cs cs' k c c',
  fair_use u /\ st_version (u_set u) = 2 /\ List.concat cs = List.concat cs' /\
  (exists outs, returns u cs outs) /\ (exists outs, returns u cs' outs) /\
  stored (u_env u) (w_trace (fst (run u cs))) (u_bk u) k = Some c /\
  stored (u_env u) (w_trace (fst (run u cs'))) (u_bk u) k = Some c' /\ c <> c'.
Proof.
  exists (ex_comp 2 false false), [ex_bytes 70], [slice (ex_bytes 70) 0 10; slice (ex_bytes 70) 10 60], "out/0/0/0/0/0".
  eexists. eexists. split; [apply ex_comp_fair; auto|]. split; [reflexivity|]. split; [reflexivity|].
  split; [exists [70]; vm_compute; reflexivity|]. split; [exists [10; 60]; vm_compute; reflexivity|]. split; [vm_compute; reflexivity|]. split; [vm_compute; reflexivity|]. discriminate.
Qed.
(** *** C04 refuted: the second call gets 35 bytes (one frame) and reports 50 *)
Theorem C04_refuted : exists u cs,
  fair_use u /\ map (@zlen Z) cs = [10; 35] /\ returns u cs [10; 50].
Proof.
  exists (ex_comp 2 false false), [ex_bytes 10; ex_bytes 35]. split; [apply ex_comp_fair; auto|]. split; [reflexivity|]. vm_compute. reflexivity.
Qed.
(** *** C05 refuted: a frame of 35 bytes in two calls; the second reads 10 bytes behind its buffer *)
Theorem C05_refuted : exists u cs,
  fair_use u /\ map (@zlen Z) cs = [10; 25] /\ zlen (List.concat cs) = u_frame u /\ snd (run u cs) = UB.
Proof.
  exists (ex_comp 2 false false), [ex_bytes 10; ex_bytes 25]. split; [apply ex_comp_fair; auto|]. split; [reflexivity|]. split; [reflexivity|]. vm_compute. reflexivity.
Qed.

(** *** The hypotheses can be met *)
Example C03_C04_unsplit_hypotheses : let u := ex_comp 3 true true in let cs := [ex_bytes 70; []; ex_bytes 115; ex_bytes 4; ex_bytes 20] in
  fair_use u /\ countable u cs /\ never_finishes (u_frame u) 0 cs /\ zlen (whole (u_frame u) (List.concat cs)) = 5.
Proof. split; [apply ex_comp_fair; auto|]. split; [vm_compute; reflexivity|]. split; [vm_compute; auto|reflexivity]. Qed.
Example C05_hypotheses : let u := ex_comp 2 false false in let cs := [ex_bytes 70; ex_bytes 45; ex_bytes 48; []] in
  fair_use u /\ countable u cs /\ st_multi (u_set u) = false /\ Forall (fun d => d = [] \/ u_frame u <= zlen d) cs.
Proof. split; [apply ex_comp_fair; auto|]. split; [vm_compute; reflexivity|]. split; [reflexivity|]. repeat apply Forall_cons; try apply Forall_nil; try (right; vm_compute; discriminate). left; reflexivity. Qed.

Print Assumptions C03_C04_unsplit_frames_partial.
Print Assumptions C03_cutting_partial.
Print Assumptions C03_C04_C05_exact.
Print Assumptions C05_calls_of_a_frame_or_more_partial.
Print Assumptions C03_refuted.
Print Assumptions C04_refuted.
Print Assumptions C05_refuted.
