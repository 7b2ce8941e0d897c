(** C51: the status codes of the C interface. *)
Require Import ZArith List Bool String Lia.
Require Import Verif.Base Verif.Spec Verif.Dim Verif.World Verif.Writer Verif.Stream Verif.Api.
Require Verif.PropsReport Verif.RepStream.
Import ListNotations.
Open Scope string_scope. Open Scope list_scope. Open Scope Z_scope.

(** A null pointer for the stream, for the data or for bytes_out: ZarrStatusCode_InvalidArgument, nothing changes, *bytes_out is not written. *)
Theorem C51_null_pointers : forall E data out,
  api_append_null data out = (st_invalid_argument, None) /\
  (data = None \/ out = false -> forall s w, api_append E data out (s, w) = ((s, w), Ok (st_invalid_argument, None))).
Proof. intros E data out. split; [reflexivity|]. intros [->| ->] s w; [reflexivity|]. destruct data; reflexivity. Qed.

(** Otherwise: success and *bytes_out is written, or ZarrStatusCode_InternalError and it is not; which of the two says whether the append failed with
    an exception, and the exception does not reach the caller. *)
Theorem C51_append : forall E d s w, exists s' w',
  (exists n, append E d (s, w) = ((s', w'), Ok n) /\ api_append E (Some d) true (s, w) = ((s', w'), Ok (st_success, Some n))) \/
  (exists m, append E d (s, w) = ((s', w'), Throw m) /\ api_append E (Some d) true (s, w) = ((s', w'), Ok (st_internal_error, None))) \/
  (append E d (s, w) = ((s', w'), UB) /\ api_append E (Some d) true (s, w) = ((s', w'), UB)) \/
  (append E d (s, w) = ((s', w'), Hang) /\ api_append E (Some d) true (s, w) = ((s', w'), Hang)).
Proof.
  intros E d s w. unfold api_append, catchM, bind, ret. destruct (append E d (s, w)) as [[s' w'] [n|m| |]] eqn:X; exists s', w'; eauto 7.
Qed.
(** the codes are those of the header *)
Theorem C51_codes : st_success = 0 /\ st_invalid_argument = 1 /\ st_internal_error = 5.
Proof. repeat split. Qed.
(** an error message on the stream makes every later append call fail at once, with no effect *)
Theorem C51_after_error : forall E d s w, w_err w <> "" -> api_append E (Some d) true (s, w) = ((s, w), Ok (st_internal_error, None)).
Proof. intros. apply RepStream.append_refused. auto. Qed.

(** ZarrStream_create returns a stream or NULL; NULL iff the construction failed with an exception, which does not reach the caller. Null settings
    are refused before anything is done. *)
Theorem C51_create : forall E o w, exists w',
  (exists s, new_stream E o w = (w', Ok s) /\ api_create E o w = (w', Ok (Some s))) \/
  (exists m, new_stream E o w = (w', Throw m) /\ api_create E o w = (w', Ok None)) \/
  (new_stream E o w = (w', UB) /\ api_create E o w = (w', UB)) \/
  (new_stream E o w = (w', Hang) /\ api_create E o w = (w', Hang)).
Proof.
  intros E o w. unfold api_create, catchM, bind, ret. destruct (new_stream E o w) as [w' [s|m| |]] eqn:X; exists w'; eauto 7.
Qed.
Theorem C51_create_null : forall E w, api_create E None w = (w, Ok None).
Proof. reflexivity. Qed.

(** What may leave the library: ZarrStream_destroy has no handler. *)
Example C51_outcomes : exists s w w1 w2,
  api_create (PropsReport.fx_env (fun _ => false)) (Some (PropsReport.fx_set 2 None)) (mkworld [] 0 0 "") = (w, Ok (Some s)) /\
  snd (api_append (PropsReport.fx_env (fun _ => false)) (Some [1; 2; 3; 4]) true (s, w)) = Ok (st_success, Some 4) /\
  w_err w1 <> "" /\ snd (api_append (PropsReport.fx_env (fun _ => false)) (Some [1; 2; 3; 4]) true (s, w1)) = Ok (st_internal_error, None) /\
  api_create (PropsReport.fx_env (Nat.eqb 0)) (Some (PropsReport.fx_set 2 None)) (mkworld [] 0 0 "") = (w2, Ok None).
Proof.
  destruct (api_create (PropsReport.fx_env (fun _ => false)) (Some (PropsReport.fx_set 2 None)) (mkworld [] 0 0 "")) as [w [[s|]| | |]] eqn:X; try (vm_compute in X; discriminate).
  exists s, w, (mkworld [] 0 0 "an error"). eexists. split; [reflexivity|]. split; [|split; [discriminate|split; [reflexivity|vm_compute; reflexivity]]].
  vm_compute in X. injection X as <- <-. vm_compute. reflexivity.
Qed.

Print Assumptions C51_null_pointers.
Print Assumptions C51_append.
Print Assumptions C51_codes.
Print Assumptions C51_after_error.
Print Assumptions C51_create.
Print Assumptions C51_create_null.
