(** Concrete settings used by the non-vacuity examples beside the theorems. *)
Require Import ZArith List Bool String Lia Zify.
Require Import Verif.Base Verif.Spec Verif.Dim Verif.Limits Verif.World Verif.Writer Verif.Stream.
Import ListNotations.
Open Scope string_scope.
Open Scope list_scope.
Open Scope Z_scope.

(** 2 time points per chunk, 3 channels in chunks of 2, 5 x 7 pixels in ragged 2 x 3 tiles; 2 x 2 tiles per shard *)
Definition ex_d0 : dim := mkdim "t" ty_time 0 2 1.
Definition ex_mids : list dim := [mkdim "c" ty_channel 3 2 1].
Definition ex_dy : dim := mkdim "y" ty_space 5 2 2.
Definition ex_dx : dim := mkdim "x" ty_space 7 3 2.
Definition ex_dims : list dim := ex_d0 :: ex_mids ++ [ex_dy; ex_dx].

Example ex_fits : fits 2 ex_d0 ex_mids ex_dy ex_dx.
Proof. constructor; cbn; unfold inner_ok; repeat constructor; cbn; intros; try lia; vm_compute; try reflexivity; intros; discriminate. Qed.
Example ex_fits_shards : fits_shards ex_d0 ex_mids ex_dy ex_dx.
Proof. constructor; cbn; unfold inner_ok; repeat constructor; cbn; intros; try lia; vm_compute; try reflexivity; intros; discriminate. Qed.
Example ex_fits_epoch : fits_epoch 2 ex_d0 ex_mids ex_dy ex_dx.
Proof. vm_compute; reflexivity. Qed.

(** A machine where every request succeeds, the current directory is writable, nothing exists yet,
    and a toy compressor puts one byte in front of the data. *)
Definition ex_env : env := {|
  e_file0 := fun _ => None; e_dir0 := fun _ => false; e_obj0 := fun _ _ => None;
  e_fault := fun _ => false; e_s3 := fun _ => true; e_conns := 2%nat;
  e_compress := fun _ _ d => Some (7 :: d);
  e_writable := fun _ => true;
  e_parse := fun s => if String.eqb s "{}" then Some "{}" else None; e_stat := fun _ _ => true |}.
Definition ex_world : world := mkworld [] 0 0 "".
Definition ex_udim (d : dim) : udim := mkudim (Some (d_name d)) (d_type d) (d_array d) (d_chunk d) (d_shard d).
Definition ex_settings (version : Z) : settings :=
  mksettings (Some " out ") (Some "{}") None None (Some (map ex_udim ex_dims)) false dt_uint16 version.
Definition ex_s3_settings (version : Z) : settings :=
  mksettings (Some "out") (Some "{}") (Some (mks3set (Some "http://host") (Some " bucket ") (Some "key") (Some "secret")))
             None (Some (map ex_udim ex_dims)) false dt_uint16 version.
