(** The stream and the machine between two calls: after create and some append calls, before destroy. *)
Require Import ZArith List Bool String.
Require Import Verif.Base Verif.World Verif.Stream Verif.Api Verif.SessionSpec.
Import ListNotations.
Open Scope Z_scope.

(** create succeeds, and every append accepts all its bytes; [s] and [w] are the stream and the machine then *)
Definition running (u : use) (groups : list (list (list Z))) (s : stream) (w : world) : Prop :=
  exists s1 w1,
    api_create (u_env u) (Some (u_set u)) (u_world u) = (w1, Ok (Some s1)) /\
    api_appends (u_env u) (calls groups) (s1, w1) = ((s, w), Ok (map (fun c => (st_success, Some (zlen c))) (calls groups))).
