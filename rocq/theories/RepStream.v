(** Reporting, continued: streams to S3 in version 2. *)
Require Import ZArith List Bool String Ascii Lia.
Require Import Verif.Base Verif.Dim Verif.Json Verif.World Verif.Writer Verif.RepProofs Verif.Stream Verif.Api.
Import ListNotations.
Open Scope string_scope. Open Scope list_scope. Open Scope Z_scope.

Section Rep.
Variable E : env.
Notation rt := (rep E (fun tw : TW => snd tw) (fun tw => Forall arr (s_writers (fst tw)))).
Lemma t_on_writer {A} (P Q : A -> Prop) i m : rep E (fun aw : AW => snd aw) (fun aw => arr (fst aw)) P Q m -> rt P Q (on_writer i m).
Proof.
  intros H [s w] HI. unfold on_writer. cbn [fst snd] in *. destruct (nth_error (s_writers s) i) as [a|] eqn:N.
  - assert (HA : arr a) by (rewrite Forall_forall in HI; apply HI; eapply nth_error_In; eauto). destruct (H (a, w) HA) as (A1 & A2 & A3 & A4 & A5). destruct (m (a, w)) as [[a' w'] r]. cbn [fst snd] in *. split; [|repeat split; auto]. cbn. apply Forall_upd; auto.
  - exact (rep_ub E (fun tw : TW => snd tw) (fun tw => Forall arr (s_writers (fst tw))) P Q (s, w) HI).
Qed.
Lemma t_getT Q : rt anyv Q getT.
Proof. apply rep_calm. intros [s w] H. repeat split; auto. Qed.
Lemma t_modT Q f : (forall s, s_writers (f s) = s_writers s) -> rt anyv Q (modT f).
Proof. intros H. apply rep_calm. intros [s w] X. cbn in *. rewrite H. repeat split; auto. Qed.
Lemma t_onT {A} (P Q : A -> Prop) m : rep E (fun w : world => w) (fun _ => True) P Q m -> rt P Q (onT m).
Proof. intros H [s w] HI. unfold onT. cbn [snd fst] in *. destruct (H w Logic.I) as (_ & A2 & A3 & A4 & A5). destruct (m w) as [w' r]. cbn in *. repeat split; auto. Qed.
Ltac rs := first
  [ apply rep_ret; first [exact Logic.I|assumption|solve [auto]]
  | apply rep_throw | apply rep_ub | apply rep_hang
  | apply rep_expect; first [intros _; exact Logic.I|assumption|solve [auto]]
  | apply rep_lift; intros; first [exact Logic.I|assumption|solve [auto]]
  | apply t_getT | apply t_modT; intros; reflexivity | apply t_on_writer, r_write_frame ].
Ltac nx := eapply rep_seq with (P := anyv); [rs|intros ? _].
Lemma t_multi bpp : forall fuel i d nb wd ht, rt anyv never (multiscale_loop E bpp fuel i d nb wd ht).
Proof.
  induction fuel as [|f IH]; intros i d nb wd ht; cbn [multiscale_loop]; [rs|]. nx. eapply rep_seq with (P := anyv); [rs|intros [[[px nb'] w'] h'] _]. destruct (nth i (s_scaled v) None).
  - cbv zeta. nx. nx. nx. apply IH.
  - rs.
Qed.
Lemma t_multiscale d nb : rt anyv never (write_multiscale E d nb).
Proof. unfold write_multiscale. nx. destruct (s_multi v); [|rs]. destruct (dt_count <=? s_dtype v); [rs|]. nx. apply t_multi. Qed.
Ltac brk := match goal with |- rep _ _ _ _ _ (if ?b then _ else _) => destruct b end.
Lemma t_append_loop : forall fuel d pos wr, rt anyv never (append_loop E fuel d pos wr).
Proof.
  induction fuel as [|f IH]; intros d pos wr; cbn [append_loop]; [rs|]. brk; [|rs]. nx. cbv zeta. brk.
  - brk; [rs|]. nx. brk; [|apply IH]. brk; [rs|]. nx. brk; [rs|]. nx. apply IH.
  - brk; brk; try rs.
    + nx. apply IH.
    + nx. brk; [rs|]. eapply rep_seq with (P := anyv); [apply t_multiscale|intros ? _]. apply IH.
Qed.
Lemma t_append d : rt anyv never (append E d).
Proof.
  unfold append. eapply rep_seq with (P := anyv).
  - apply rep_calm. intros [s w] H. repeat split; auto.
  - intros w _. nx. apply t_append_loop.
Qed.
Definition told (r : Z * option Z) : Prop := fst r = st_internal_error.
Lemma t_api_append d : rt anyv told (api_append E (Some d) true).
Proof.
  unfold api_append. apply rep_catch.
  - eapply rep_seq with (P := anyv); [apply t_append|intros n _]. rs.
  - intros e. rs.
  - intros e. apply bad_ret. reflexivity.
Qed.
Lemma t_appends : forall l, rt anyv (fun l0 => Exists told l0) (api_appends E l).
Proof.
  induction l as [|d l IH]; cbn [api_appends]; [rs|]. eapply rep_bind with (P := anyv) (Q := told); [apply t_api_append| |].
  - intros r _. eapply rep_bind with (P := anyv) (Q := fun l0 => Exists told l0); [exact IH|intros l0 _; rs|]. intros l0 _ X. apply bad_ret. apply Exists_cons_tl. exact X.
  - intros r _ X. eapply bad_bind; [exact IH|]. intros l0 _. apply bad_ret. apply Exists_cons_hd. exact X.
Qed.

(** the writers of a new stream *)
Lemma writer_arr c a : c_bucket c <> None -> make_writer false c = Ok a -> arr a /\ a_cfg a = c.
Proof. intros H X. cbn in X. injection X as <-. repeat split; auto; constructor. Qed.
Lemma down_bucket c c' b : downsample c = Ok (c', b) -> c_bucket c' = c_bucket c.
Proof. unfold downsample. destruct (omap _ _) as [ds| | |]; try discriminate. cbn [obind]. destruct (make_dimensions ds) as [ds'| | |]; try discriminate. cbn [obind]. intros X. injection X as <- _. reflexivity. Qed.
Lemma pyramid_arr : forall fuel c l, c_bucket c <> None -> pyramid fuel false c = Ok l -> Forall arr l.
Proof.
  induction fuel as [|f IH]; intros c l H X; [discriminate|]. cbn [pyramid] in X. destruct (downsample c) as [[c' b]| | |] eqn:D; try discriminate. cbn [obind] in X. pose proof (down_bucket _ _ _ D) as HB.
  destruct (make_writer false c') as [a| | |] eqn:W; try discriminate. cbn [obind] in X. assert (HC : c_bucket c' <> None) by (rewrite HB; auto). destruct (writer_arr _ _ HC W) as [HA _].
  destruct b; [|injection X as <-; constructor; [exact HA|constructor]]. destruct (pyramid f false c') as [l'| | |] eqn:P; try discriminate. injection X as <-. constructor; [auto|eapply IH; eauto].
Qed.
Lemma create_arr s l : s_v3 s = false -> s_bucket s <> None -> create_writers s = Ok l -> Forall arr l.
Proof.
  intros V B. unfold create_writers. rewrite V. destruct (make_writer false (base_config s)) as [a| | |] eqn:W; try discriminate. cbn [obind]. destruct (writer_arr (base_config s) _ B W) as [HA _].
  destruct (s_multi s); [|intros X; injection X as <-; constructor; [exact HA|constructor]]. destruct (pyramid pyramid_fuel false (base_config s)) as [l'| | |] eqn:P; try discriminate. cbn [obind]. intros X. injection X as <-. constructor; auto. eapply pyramid_arr; [|exact P]. exact B.
Qed.
Lemma ok_inv {A} (x : outcome A) : (exists a, x = Ok a) \/ forall a, x <> Ok a.
Proof. destruct x; [left; eauto|right; discriminate..]. Qed.
Lemma keep_writers {A} (m : M TW A) s w : (forall x, s_writers (fst (fst (m x))) = s_writers (fst x)) -> s_writers (fst (fst (m (s, w)))) = s_writers s.
Proof. intros H. apply H. Qed.
Lemma kb {A B} (m : M TW A) (f : A -> M TW B) : (forall x, s_writers (fst (fst (m x))) = s_writers (fst x)) -> (forall a x, s_writers (fst (fst (f a x))) = s_writers (fst x)) -> forall x, s_writers (fst (fst (bind m f x))) = s_writers (fst x).
Proof. intros H1 H2 x. unfold bind. specialize (H1 x). destruct (m x) as [x' [a|e| |]]; cbn [fst] in *; auto. rewrite H2. auto. Qed.
Lemma kw k d e : forall x, s_writers (fst (fst (write_metadata E k d e x))) = s_writers (fst x).
Proof.
  intros [s w]. unfold write_metadata. destruct (find_key k (s_msinks s)) as [i|]; [|reflexivity]. destruct (nth i (s_msinks s) (k, None)) as [k' [sk|]]; [|reflexivity].
  destruct (sink_write E 0 d (sk, w)) as [[sk' w'] r]. destruct r as [[]|m| |]; reflexivity.
Qed.
Lemma ke c m : forall x : TW, s_writers (fst (fst (expectM c m x))) = s_writers (fst x).
Proof. destruct c; reflexivity. Qed.
Lemma kc : forall x, s_writers (fst (fst (create_metadata_sinks E x))) = s_writers (fst x).
Proof.
  unfold create_metadata_sinks. apply kb; [reflexivity|]. intros s. cbv zeta. apply kb; [intros [s0 w]; unfold onT; destruct (catchM _ _ _); reflexivity|]. intros [l|]; [|reflexivity]. apply kb; reflexivity.
Qed.
Lemma new_arr st w w' s : st_version st = 2 -> st_s3 st <> None -> new_stream E (Some st) w = (w', Ok s) -> Forall arr (s_writers s).
Proof.
  intros V S. unfold new_stream. destruct (validate_settings E w (Some st)) as [[]| | |]; try discriminate. unfold bind at 1. unfold liftM at 1. destruct (commit st) as [s0| | |] eqn:C; try discriminate.
  assert (C0 : s_v3 s0 = false /\ s_bucket s0 <> None). { unfold commit in C. destruct (make_dimensions _); try discriminate. cbn [obind] in C. injection C as <-. cbn. rewrite V. split; [reflexivity|]. destruct (st_s3 st); [discriminate|congruence]. }
  unfold bind at 1. unfold liftM at 1. destruct (bytes_of_frame _ _) as [n| | |]; try discriminate. cbv zeta. set (s1 := set_fbuf s0 _ 0). assert (C1 : s_v3 s1 = false /\ s_bucket s1 <> None) by exact C0. clearbody s1. clear C0 C.
  unfold bind at 1. destruct (create_store E s1 w) as [w1 [ok| | |]]; try discriminate. unfold bind at 1. destruct ok; cbn [expectM ret]; [|discriminate].
  unfold bind at 1. unfold liftM at 1. destruct (create_writers s1) as [ws| | |] eqn:W; try discriminate.
  pose proof (create_arr s1 ws (proj1 C1) (proj2 C1) W) as HA. set (s2 := if s_multi (set_writers s1 ws) then _ else _). assert (HW : s_writers s2 = ws) by (unfold s2; destruct (s_multi (set_writers s1 ws)); reflexivity). clearbody s2.
  match goal with |- context [let '(_, _) := ?m (s2, w1) in _] => assert (K : s_writers (fst (fst (m (s2, w1)))) = s_writers s2) end.
  { apply keep_writers. apply kb; [apply kc|intros ok]. apply kb; [apply ke|intros _]. apply kb.
    - unfold write_base_metadata. apply kb; [reflexivity|]. intros a. destruct (base_metadata a). apply kw.
    - intros ok2. apply kb; [apply ke|intros _]. apply kb.
      + unfold write_group_metadata. apply kb; [reflexivity|]. intros a. destruct (group_metadata a). apply kw.
      + intros ok3. apply kb; [apply ke|intros _]. apply kb; [|intros; apply ke]. unfold write_external_metadata. apply kb; [reflexivity|]. intros a. destruct (String.eqb _ _); [reflexivity|apply kw]. }
  match goal with |- context [let '(_, _) := ?m (s2, w1) in _] => destruct (m (s2, w1)) as [[s3 w3] r] end. cbn [fst] in K. destruct r; cbn [obind]; try discriminate. intros X. injection X as _ <-. rewrite K, HW. exact HA.
Qed.
End Rep.
(** an append after an error was recorded *)
Lemma append_refused E d s w : w_err w <> "" -> api_append E (Some d) true (s, w) = ((s, w), Ok (st_internal_error, None)).
Proof. intros H. unfold api_append, append, catchM, bind, onT, getM. cbn [fst snd]. apply String.eqb_neq in H. rewrite H. reflexivity. Qed.
Lemma appends_refused E s w : w_err w <> "" -> forall l, api_appends E l (s, w) = ((s, w), Ok (map (fun _ => (st_internal_error, None)) l)).
Proof.
  intros H. induction l as [|d l IH]; [reflexivity|]. cbn [api_appends]. unfold bind. rewrite (append_refused E d s w H). rewrite IH. reflexivity.
Qed.
