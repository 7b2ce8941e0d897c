(** C65: what is in the bucket is right, whichever requests were refused. The part that holds is C63 (PropsDurable.v): rows of chunks that
    successful calls have acknowledged are right and stay. The full statement is false of the code. *)
Require Import ZArith List Bool String Lia.
Require Import Verif.Base Verif.Spec Verif.Dim Verif.Limits Verif.World Verif.Stream Verif.Api Verif.SessionSpec Verif.S3Spec Verif.AnswerSpec.
Require Verif.PropsReport.
Import ListNotations.
Open Scope string_scope.
Open Scope list_scope.
Open Scope Z_scope.

(** 4x4 pixels of one byte, chunks of 2x2 and of one frame, a pyramid *)
Definition px_set (v : Z) : settings :=
  mksettings (Some "out") None (Some (mks3set (Some "http://host") (Some "bucket") (Some "key") (Some "secret"))) None
    (Some [mkudim (Some "t") ty_time 0 1 1; mkudim (Some "y") ty_space 4 2 1; mkudim (Some "x") ty_space 4 2 1]) true dt_uint8 v.
(** six frames, each of one value: 10, 20, 30, ... *)
Definition px_frames : list (list Z) := map (fun i => zrep (10 * i) 16) [1; 2; 3; 4; 5; 6].
(** the server refuses request n, or none *)
Definition px_env (n : option nat) : env := answering (PropsReport.rx_env 0) (fun k => match n with Some m => negb (Nat.eqb k m) | None => true end).
Definition px_end (n : option nat) : world * outcome (option (list (Z * option Z) * bool)) := session (px_env n) (px_set 2) px_frames (mkworld [] 0 0 "").
(** the object of chunk (r, 0, 0) of a level *)
Definition px_object (n : option nat) (level r : Z) : option (list Z) :=
  object_of (px_env n) (w_trace (fst (px_end n))) "bucket" (path_of_coords (("out/" ++ dec level)%string) [r; 0; 0]).

(** One request is refused, that for the array document of level 0. The append call during which this happens reports an error; the five calls after it
    and destroy report success. All six frames are in their place at level 0. At level 1 the frames are paired wrongly: chunk 0 holds the mean of
    frames 1 and 2 (25) instead of 0 and 1 (15), chunk 1 that of frames 3 and 4, and the last is missing. *)
Theorem C65_refuted : exists n rs rs',
  (forall k, e_s3 (px_env (Some n)) k = false <-> k = n) /\ (forall k, e_s3 (px_env None) k = true) /\
  snd (px_end None) = Ok (Some (rs, true)) /\ map fst rs = repeat st_success 6 /\
  snd (px_end (Some n)) = Ok (Some (rs', true)) /\ map fst rs' = st_internal_error :: repeat st_success 5 /\
  (forall i, (i < 6)%nat -> let r := Z.of_nat i in px_object None 0 r = Some (zrep (10 * (r + 1)) 4) /\ px_object (Some n) 0 r = Some (zrep (10 * (r + 1)) 4)) /\
  px_object None 1 0 = Some (zrep 15 4) /\ px_object None 1 1 = Some (zrep 35 4) /\ px_object None 1 2 = Some (zrep 55 4) /\
  px_object (Some n) 1 0 = Some (zrep 25 4) /\ px_object (Some n) 1 1 = Some (zrep 45 4) /\ px_object (Some n) 1 2 = None.
Proof.
  exists 7%nat, (repeat (st_success, Some 16) 6), ((st_internal_error, None) :: repeat (st_success, Some 16) 5).
  split. { intros k. unfold px_env, answering. cbn [e_s3]. destruct (Nat.eqb_spec k 7); cbn [negb]; split; intros Y; auto; try discriminate Y; contradiction. }
  split; [intros k; reflexivity|]. split; [vm_compute; reflexivity|]. split; [reflexivity|]. split; [vm_compute; reflexivity|]. split; [reflexivity|].
  split; [|vm_compute; repeat split].
  intros i Hi. do 6 (destruct i as [|i]; [vm_compute; split; reflexivity|]). lia.
Qed.
Print Assumptions C65_refuted.
