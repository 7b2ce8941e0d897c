(** Streams to separate stores do not influence each other: invariants of the process of Multi.v. *)
Require Import ZArith List Bool String Ascii Lia.
Require Import Verif.Base Verif.Dim Verif.Json Verif.World Verif.PathProofs Verif.Writer Verif.Stream Verif.Api Verif.SettingsSpec Verif.ValidProofs Verif.FrameSpec Verif.PropsFrame Verif.Multi Verif.MultiSpec.
Require Verif.Radix Verif.FrameProofs Verif.FrameStream Verif.IndepProofs Verif.IndepStream Verif.OpenProofs.
Import ListNotations.
Open Scope string_scope. Open Scope list_scope. Open Scope Z_scope.
Notation Rw := IndepProofs.Rw.

(** *** one client: what it looks at *)
Definition vpath (st : settings) (p : string) : Prop := st_s3 st = None /\ exists q, st_path st = Some q /\ (p = q \/ below q p \/ p = parent_path q).
Definition okpath (st : settings) (p : string) : Prop := st_s3 st = None /\ exists q, st_path st = Some q /\ below q p.
Definition clean (st : settings) : Prop := st_s3 st = None -> forall q, st_path st = Some q -> trimmed_to q q /\ String.prefix "file:" q = false.
Lemma settled_clean E st : settled E st -> clean st.
Proof. intros H N q Q. destruct (H N q Q) as (A & B & _). auto. Qed.
Lemma okpath_vpath st p : okpath st p -> vpath st p.
Proof. intros (N & q & Q & B). split; auto. exists q. auto. Qed.
Lemma okpath_parent st p : okpath st p -> vpath st (parent_path p).
Proof. intros (N & q & Q & (x & ->)). split; auto. exists q. split; auto. destruct (parent_sub q x) as [->|(y & ->)]; [auto|right; left; exists y; auto]. Qed.
Lemma okpath_sub st p x : okpath st p -> okpath st (p ++ "/" ++ x)%string.
Proof. intros (N & q & Q & B). split; auto. exists q. split; auto. apply below_sub; auto. Qed.
Lemma okpath_ext st p k : okpath st p -> okpath st (p ++ (if String.eqb p "" then dec k else "/" ++ dec k))%string.
Proof. intros (N & q & Q & B). split; auto. exists q. split; auto. apply below_ext; auto. Qed.
Lemma trim_id q : trimmed_to q q -> trim q = q.
Proof. intros H. exact (trimmed_unique _ _ _ (trim_spec q) H). Qed.
Lemma indep_place st : clean st -> st_path st <> None -> IndepStream.okplace (vpath st) (okpath st) st.
Proof.
  intros C P. unfold IndepStream.okplace, IndepStream.splace. cbn [fst snd]. destruct (st_path st) as [q|] eqn:Q; [|contradiction]. cbn [opt_trim].
  destruct (st_s3 st) as [x|] eqn:X; cbn [option_map].
  - split; [discriminate|]. split; [exact I|]. split; [exact I|discriminate].
  - destruct (C X q Q) as [T F]. rewrite (trim_id q T). split; [intros _; split; auto; exists q; auto|]. unfold IndepStream.okroot. rewrite strip_root by auto.
    split; [split; [split; auto; exists q; auto|intros x; split; auto; exists q; split; auto; exists x; auto]|]. split.
    + intros x. rewrite strip_sub by auto. split; auto. exists q. split; auto. exists x. auto.
    + intros _ p Hp. injection Hp as <-. split; auto. exists q. auto.
Qed.
(** the settings of a client name a store, or they do not *)
Lemma placed st : (exists b r, store_at st b r) \/ (forall b r, ~ store_at st b r).
Proof.
  destruct (st_path st) as [p|] eqn:P.
  - destruct (st_s3 st) as [x|] eqn:X.
    + destruct (x_bucket x) as [b|] eqn:B.
      * left. exists (Some (trim b)), (trim p). split; [exists p; split; [auto|apply trim_spec]|]. rewrite X. exists b, (trim b). repeat split; auto. apply trim_spec.
      * right. intros b r [_ H]. rewrite X in H. destruct H as (b' & t & H & _). congruence.
    + left. exists None, (trim p). split; [exists p; split; [auto|apply trim_spec]|]. rewrite X. reflexivity.
  - right. intros b r [(p & H & _) _]. congruence.
Qed.
Lemma placed_path st b r : store_at st b r -> st_path st <> None.
Proof. intros [(p & H & _) _]. congruence. Qed.
Lemma placed_clean st b r : store_at st b r -> clean st -> b = None -> String.prefix "file:" r = false.
Proof.
  intros [(p & H & T) S] C ->. destruct (st_s3 st) as [x|] eqn:X; [destruct S as (? & ? & ? & ? & ?); discriminate|]. destruct (C X p H) as [T' F]. rewrite <- (trimmed_unique _ _ _ T' T). exact F.
Qed.
Lemma noplace_validate E st : (forall b r, ~ store_at st b r) -> exists o, o <> Ok true /\ forall w, validate_settings E w (Some st) = o.
Proof.
  intros H. unfold validate_settings. destruct (_ || _)%bool; [exists (Ok false); split; [discriminate|auto]|]. destruct (st_path st) as [p|] eqn:P; [|exists (Ok false); split; [discriminate|auto]]. destruct (String.eqb p ""); [exists (Ok false); split; [discriminate|auto]|].
  destruct (st_s3 st) as [x|] eqn:X.
  - destruct (x_bucket x) as [b|] eqn:B.
    + exfalso. apply (H (Some (trim b)) (trim p)). split; [exists p; split; [exact P|apply trim_spec]|]. rewrite X. exists b, (trim b). repeat split; auto. apply trim_spec.
    + eexists. split; [|intros w; reflexivity].
      unfold validate_s3, is_empty_string. rewrite B. destruct (x_endpoint x), (x_key x), (x_secret x); cbn; try discriminate; repeat (destruct (String.eqb _ ""); cbn); discriminate.
  - exfalso. apply (H None (trim p)). split; [exists p; split; [exact P|apply trim_spec]|]. rewrite X. reflexivity.
Qed.

(** *** what a client keeps *)
Notation fev b r := (FrameProofs.okev (ok_dir b r) (ok_p b r) (ok_rm b r) (ok_obj b r)).
Notation fstream b r := (FrameStream.okstream (ok_p b r) (ok_obj b r) (fun _ => True) (ok_p b r)).
Definition cinv (tr : list event) (k : client) : Prop :=
  (exists b r, store_at (k_set k) b r /\ Forall (fev b r) tr /\
     match k_phase k with Live s => fstream b r s /\ IndepStream.okstream (okpath (k_set k)) s | _ => True end) \/
  (forall b r, ~ store_at (k_set k) b r) /\ tr = [] /\ match k_phase k with Live _ => False | _ => True end.
(** two histories look the same to a stream with these settings *)
Definition view (E : env) (st : settings) (t1 t2 : list event) : Prop :=
  forall p, vpath st p -> dir_of E t1 p = dir_of E t2 p /\ (p <> ""%string -> file_of E t1 p = file_of E t2 p).
Lemma view_rw E a st t1 t2 k : view E st t1 t2 -> Rw (client_env E a) (vpath st) t1 t2 (client_world t1 k) (client_world t2 k).
Proof.
  intros V. constructor; cbn [client_world w_tick w_conns w_err w_trace]; auto.
  - exists []. rewrite !app_nil_r. auto.
  - intros p Hp. exact (proj1 (V p Hp)).
  - intros p Hp. exact (proj2 (V p Hp)).
Qed.
Lemma rw_view E a st t1 t2 w1 w2 : Rw (client_env E a) (vpath st) t1 t2 w1 w2 -> view E st (w_trace w1) (w_trace w2).
Proof. intros W p Hp. split; [exact (IndepProofs.r_dir _ _ _ _ _ _ W p Hp)|exact (IndepProofs.r_file _ _ _ _ _ _ W p Hp)]. Qed.

Section Frame.
Variables (b : option string) (r : string) (e : env).
Notation Iw := (FrameProofs.Iw (ok_dir b r) (ok_p b r) (ok_rm b r) (ok_obj b r) (fun _ => True)).
Notation It := (FrameStream.It (ok_dir b r) (ok_p b r) (ok_rm b r) (ok_obj b r) (fun _ => True) (ok_p b r)).
Lemma okp_dir0 p : ok_p b r p -> ok_dir b r p. Proof. intros [X Y]. split; auto. Qed.
Lemma okp_par0 p : ok_p b r p -> ok_dir b r (parent_path p).
Proof. intros [X (y & ->)]. split; auto. destruct (parent_sub r y) as [->|(z & ->)]; [auto|right; exists z; auto]. Qed.
Lemma okp_sub0 p x : ok_p b r p -> ok_p b r (p ++ "/" ++ x)%string. Proof. intros [X Y]. split; auto using below_sub. Qed.
Lemma okp_ext0 p k : ok_p b r p -> ok_p b r (p ++ (if String.eqb p "" then dec k else "/" ++ dec k))%string. Proof. intros [X Y]. split; auto using below_ext. Qed.
Lemma okobj_sub0 c p x : ok_obj b r c p -> ok_obj b r c (p ++ "/" ++ x)%string. Proof. intros [X Y]. split; auto using below_sub. Qed.
Lemma okobj_ext0 c p k : ok_obj b r c p -> ok_obj b r c (p ++ (if String.eqb p "" then dec k else "/" ++ dec k))%string. Proof. intros [X Y]. split; auto using below_ext. Qed.
Lemma f_create st w : store_at st b r -> clean st -> Forall (fev b r) (w_trace w) ->
  Forall (fev b r) (w_trace (fst (api_create e (Some st) w))) /\ forall s, snd (api_create e (Some st) w) = Ok (Some s) -> fstream b r s.
Proof.
  intros P C F. assert (N : FrameProofs.pres Iw (fun o : option stream => match o with Some s => fstream b r s | None => True end) (api_create e (Some st))).
  { unfold api_create. apply FrameProofs.pres_catch; [|intros; apply FrameProofs.pres_ret; exact I]. eapply FrameProofs.pres_bind.
    - eapply (FrameStream.p_new e (ok_dir b r) (ok_p b r) (ok_rm b r) (ok_obj b r) (fun _ => True) (ok_p b r)); auto using okp_dir0. apply ok_place; [apply store_place; auto|]. intros X. eapply placed_clean; eauto.
    - intros s Hs. apply FrameProofs.pres_ret. exact Hs. }
  destruct (N w (conj F I)) as [[A _] B]. split; [exact A|]. intros s Hs. exact (B _ Hs).
Qed.
Lemma f_append d s w : fstream b r s -> Forall (fev b r) (w_trace w) ->
  Forall (fev b r) (w_trace (snd (fst (api_append e (Some d) true (s, w))))) /\ fstream b r (fst (fst (api_append e (Some d) true (s, w)))).
Proof.
  intros S F. destruct (FrameStream.t_api_append e (ok_dir b r) (ok_p b r) (ok_rm b r) (ok_obj b r) (fun _ => True) (ok_p b r)) with (d := Some d) (o := true) (s := (s, w)) as [[[A _] B] _]; auto using okp_dir0, okp_par0, okp_sub0, okp_ext0, okobj_sub0, okobj_ext0.
  repeat split; auto; apply S.
Qed.
Lemma f_destroy s w : fstream b r s -> Forall (fev b r) (w_trace w) -> Forall (fev b r) (w_trace (snd (fst (api_destroy e (s, w))))).
Proof.
  intros S F. destruct (FrameStream.t_finalize e (ok_dir b r) (ok_p b r) (ok_rm b r) (ok_obj b r) (fun _ => True) (ok_p b r)) with (s := (s, w)) as [[[A _] B] _]; auto using okp_dir0, okp_par0, okp_sub0, okp_ext0, okobj_sub0, okobj_ext0.
  repeat split; auto; apply S.
Qed.
End Frame.

(** *** a turn is the same in two processes that look the same to the client *)
Lemma turn_same E t1 t2 k : clean (k_set k) -> view E (k_set k) t1 t2 -> cinv t2 k ->
  exists l go k', turn E t1 k = (t1 ++ l, go, k') /\ turn E t2 k = (t2 ++ l, go, k') /\ k_set k' = k_set k /\ view E (k_set k) (t1 ++ l) (t2 ++ l) /\ cinv (t2 ++ l) k'.
Proof.
  intros C V CI. pose proof (view_rw E (k_ans k) _ t1 t2 k V) as W.
  assert (FIN : forall w1 w2, Rw (client_env E (k_ans k)) (vpath (k_set k)) t1 t2 w1 w2 -> exists l, w_trace w1 = t1 ++ l /\ w_trace w2 = t2 ++ l /\ view E (k_set k) (t1 ++ l) (t2 ++ l) /\ w_tick w1 = w_tick w2 /\ w_conns w1 = w_conns w2 /\ w_err w1 = w_err w2).
  { intros w1 w2 X. pose proof (rw_view _ _ _ _ _ _ _ X) as VV. destruct X as [X1 X2 X3 (l & L1 & L2) _ _]. exists l. rewrite <- L1, <- L2. repeat split; auto; apply VV; auto. }
  assert (AC : forall w1 w2 ph rest rp, w_tick w1 = w_tick w2 -> w_conns w1 = w_conns w2 -> w_err w1 = w_err w2 -> after_call k w1 ph rest rp = after_call k w2 ph rest rp) by (intros w1 w2 ph rest rp A1 A2 A3; unfold after_call; rewrite A1, A2, A3; reflexivity).
  unfold turn. destruct (k_phase k) as [|s| |] eqn:PH.
  - destruct CI as [(b & r & P & F & _)|(NP & T & _)].
    + destruct (IndepStream.r_api_create (client_env E (k_ans k)) (vpath (k_set k)) t1 t2 (okpath (k_set k))) with (st := k_set k) (s1 := client_world t1 k) (s2 := client_world t2 k) as (R1 & R2 & R3);
        eauto using okpath_vpath, okpath_parent, okpath_sub, okpath_ext, indep_place, placed_path.
      destruct (f_create b r (client_env E (k_ans k)) (k_set k) (client_world t2 k) P C F) as [G1 G2].
      destruct (api_create (client_env E (k_ans k)) (Some (k_set k)) (client_world t1 k)) as [w1 r1], (api_create (client_env E (k_ans k)) (Some (k_set k)) (client_world t2 k)) as [w2 r2]. cbn [fst snd] in *. subst r2.
      destruct (FIN _ _ R1) as (l & L1 & L2 & L3 & L4 & L5 & L6). rewrite L1, L2. rewrite L2 in G1.
      destruct r1 as [[s|]|m| |]; (eexists l, _, _; split; [reflexivity|]; split; [rewrite (AC w1 w2) by assumption; reflexivity|]; split; [reflexivity|]; split; [exact L3|]; left; exists b, r; split; [exact P|]; split; [exact G1|]; cbn [after_call k_phase k_set]; try exact I).
      split; [apply G2; reflexivity|exact (R3 _ eq_refl)].
    + assert (Z : exists o, o <> Ok true /\ forall w, validate_settings (client_env E (k_ans k)) w (Some (k_set k)) = o) by (apply noplace_validate; exact NP). destruct Z as (o & O1 & O2).
      unfold api_create, catchM, bind, new_stream. rewrite !O2.
      destruct o as [[]|m| |]; try contradiction; cbn [ret fst snd w_trace client_world]; (eexists [], _, _; rewrite !app_nil_r; split; [reflexivity|]; split; [reflexivity|]; split; [reflexivity|]; split; [exact V|]; right; split; [exact NP|]; split; [exact T|]; exact I).
  - unfold cinv in CI. rewrite PH in CI. destruct CI as [(b & r & P & F & S1 & S2)|(_ & _ & [])].
    assert (RT : IndepStream.Rt (client_env E (k_ans k)) (vpath (k_set k)) t1 t2 (okpath (k_set k)) (s, client_world t1 k) (s, client_world t2 k)) by (split; [reflexivity|split; [exact W|exact S2]]).
    destruct (k_todo k) as [|d rest].
    + destruct (IndepStream.t_finalize (client_env E (k_ans k)) (vpath (k_set k)) t1 t2 (okpath (k_set k))) with (s1 := (s, client_world t1 k)) (s2 := (s, client_world t2 k)) as ((R1 & R2 & R3) & R4 & _);
        eauto using okpath_vpath, okpath_parent, okpath_sub, okpath_ext.
      pose proof (f_destroy b r (client_env E (k_ans k)) s (client_world t2 k) S1 F) as G1. unfold api_destroy in *.
      destruct (finalize_stream (client_env E (k_ans k)) (s, client_world t1 k)) as [[s1 w1] r1], (finalize_stream (client_env E (k_ans k)) (s, client_world t2 k)) as [[s2 w2] r2]. cbn [fst snd] in *. subst r2 s2.
      destruct (FIN _ _ R2) as (l & L1 & L2 & L3 & L4 & L5 & L6). rewrite L1, L2. rewrite L2 in G1.
      destruct r1 as [x|m| |]; (eexists l, _, _; split; [reflexivity|]; split; [rewrite (AC w1 w2) by assumption; reflexivity|]; split; [reflexivity|]; split; [exact L3|]; left; exists b, r; split; [exact P|]; split; [exact G1|]; exact I).
    + destruct (IndepStream.t_api_append (client_env E (k_ans k)) (vpath (k_set k)) t1 t2 (okpath (k_set k))) with (d := Some d) (o := true) (s1 := (s, client_world t1 k)) (s2 := (s, client_world t2 k)) as ((R1 & R2 & R3) & R4 & _);
        eauto using okpath_vpath, okpath_parent, okpath_sub, okpath_ext.
      destruct (f_append b r (client_env E (k_ans k)) d s (client_world t2 k) S1 F) as [G1 G2].
      destruct (api_append (client_env E (k_ans k)) (Some d) true (s, client_world t1 k)) as [[s1 w1] r1], (api_append (client_env E (k_ans k)) (Some d) true (s, client_world t2 k)) as [[s2 w2] r2]. cbn [fst snd] in *. subst r2 s2.
      destruct (FIN _ _ R2) as (l & L1 & L2 & L3 & L4 & L5 & L6). rewrite L1, L2. rewrite L2 in G1.
      destruct r1 as [[c o]|m| |]; (eexists l, _, _; split; [reflexivity|]; split; [rewrite (AC w1 w2) by assumption; reflexivity|]; split; [reflexivity|]; split; [exact L3|]; left; exists b, r; split; [exact P|]; split; [exact G1|]; cbn [after_call k_phase k_set]; try exact I).
      split; [exact G2|exact R3].
  - exists [], true, k. rewrite !app_nil_r. repeat split; auto; apply V; auto.
  - exists [], true, k. rewrite !app_nil_r. repeat split; auto; apply V; auto.
Qed.

(** *** what others do elsewhere does not change what a client sees *)
Definition from (E : env) (t : list event) : env :=
  mkenv (file_of E t) (fun p => fold_left (dir_step p) t (e_dir0 E p)) (e_obj0 E) (e_fault E) (e_s3 E) (e_conns E) (e_compress E) (e_writable E) (e_parse E) (e_stat E).
Lemma file_from E t l p : file_of E (t ++ l) p = file_of (from E t) l p.
Proof. unfold file_of. rewrite fold_left_app. reflexivity. Qed.
Lemma dir_from E t l p : dir_of E (t ++ l) p = dir_of (from E t) l p.
Proof. unfold dir_of. rewrite fold_left_app. reflexivity. Qed.
Lemma last_slash_some l r : last_slash l = Some r -> exists m, l = r ++ "/"%char :: m.
Proof.
  revert r. induction l as [|c l IH]; intros r; cbn [last_slash]; [discriminate|]. destruct (last_slash l) as [r'|].
  - intros H. injection H as <-. destruct (IH r' eq_refl) as (m & ->). exists m. reflexivity.
  - destruct (Ascii.eqb_spec c "/"%char) as [->|]; [|discriminate]. intros H. injection H as <-. exists l. reflexivity.
Qed.
Lemma parent_join q : parent_path q <> ""%string -> exists x, q = (parent_path q ++ "/" ++ x)%string.
Proof.
  unfold parent_path. destruct (last_slash (list_ascii_of_string q)) as [r|] eqn:L; [|contradiction]. intros _. destruct (last_slash_some _ _ L) as (m & M). exists (string_of_list_ascii m).
  rewrite <- (string_of_list_ascii_of_string q), M, sol_app. reflexivity.
Qed.
Lemma under_outside r p : under r p = false -> outside r p.
Proof. intros H. split; [intros ->|intros x ->]; [|rewrite under_sub in H; discriminate]. assert (under r r = true) by (apply under_iff; auto). congruence. Qed.
Lemma apart_outside q r2 p : outside q r2 -> outside r2 q -> under q p = true -> outside r2 p /\ ~ ancestor p r2.
Proof.
  intros O1 O2 U. split.
  - apply under_outside. eapply unrelated; [exact O1| |exact U]. intros (x & X). exact (proj2 O2 x X).
  - intros (x & X). apply under_iff in U as [->|(y & ->)]; [exact (proj2 O1 x X)|]. apply (proj2 O1 (y ++ "/" ++ x)%string). rewrite X, !sapp_assoc. reflexivity.
Qed.
Lemma some_store_fs b r t E p : Forall (in_store (Some b) r) t -> file_of E t p = e_file0 E p /\ dir_of E t p = negb (String.eqb p "") && e_dir0 E p.
Proof. intros F. split; [eapply files_outside; [exact F|discriminate]|eapply dirs_outside; [exact F|discriminate]]. Qed.
Lemma view_foreign E st b1 r1 b2 r2 t1 t2 l : store_at st b1 r1 -> settled E st -> apart b1 r1 b2 r2 -> Forall (in_store b1 r1) t2 -> Forall (in_store b2 r2) l -> view E st t1 t2 -> view E st (t1 ++ l) t2.
Proof.
  intros P S A F1 F2 V p (N & q & Q & Hp). specialize (V p (conj N (ex_intro _ q (conj Q Hp)))). destruct V as [V1 V2]. destruct (S N q Q) as (T & _ & D).
  assert (B1 : b1 = None /\ r1 = q). { pose proof (store_place _ _ _ P) as X. unfold FrameStream.place in X. rewrite N, Q in X. cbn in X. rewrite (trim_id q T) in X. injection X as <- <-. auto. } destruct B1 as [-> ->].
  rewrite file_from, dir_from. destruct b2 as [b2|].
  { destruct (some_store_fs b2 r2 l (from E t1) p F2) as [-> ->]. split; [exact V1|exact V2]. }
  destruct A as [A|[O1 O2]]; [contradiction|].
  assert (IN : under q p = true -> dir_of (from E t1) l p = dir_of E t2 p /\ (p <> ""%string -> file_of (from E t1) l p = file_of E t2 p)).
  { intros U. destruct (apart_outside q r2 p O1 O2 U) as [X Y]. rewrite (files_outside None r2 (from E t1) l p F2) by auto. rewrite (dirs_outside None r2 (from E t1) l p F2) by auto. split; [exact V1|exact V2]. }
  destruct Hp as [->|[(x & ->)| ->]]; [apply IN, under_iff; auto|apply IN, under_sub|].
  destruct (String.eqb_spec (parent_path q) "") as [Z|Z]; [rewrite Z; split; [reflexivity|contradiction]|]. destruct D as [D|D]; [contradiction|]. destruct (parent_join q Z) as (x & X).
  assert (O : outside r2 (parent_path q)).
  { split; [intros Y; rewrite Y in X; exact (proj2 O2 x X)|]. intros y Y. rewrite Y in X. apply (proj2 O2 (y ++ "/" ++ x)%string). rewrite X, !sapp_assoc. reflexivity. }
  assert (OQ : outside q (parent_path q)).
  { split; [|intros y Y]; [intros Y; rewrite <- Y in X at 1; apply (sub_neq (parent_path q) x); auto|].
    apply (f_equal String.length) in X. rewrite Y in X. rewrite !slength_app in X. cbn in X. lia. }
  assert (T2 : dir_of E t2 (parent_path q) = true). { unfold dir_of. rewrite (dirs_above None q E t2 (parent_path q) F1 OQ D). destruct (String.eqb_spec (parent_path q) ""); [contradiction|reflexivity]. }
  rewrite T2 in *. split; [|intros _; rewrite (files_outside None r2 (from E t1) l _ F2) by auto; exact (V2 Z)].
  unfold dir_of. rewrite (dirs_above None r2 (from E t1) l (parent_path q) F2 O); [destruct (String.eqb_spec (parent_path q) ""); [contradiction|reflexivity]|].
  cbn [from e_dir0]. unfold dir_of in V1. destruct (String.eqb (parent_path q) ""); [discriminate|exact V1].
Qed.

(** *** the events of a store *)
Lemma in_storeb_iff b r e : in_storeb b r e = true <-> in_store b r e.
Proof.
  destruct e; cbn [in_storeb in_store]; destruct b as [b'|]; try (split; [discriminate|intros (X & _); discriminate]); rewrite ?andb_true_iff, ?negb_true_iff.
  all: try (split; intros H; [split; [reflexivity|auto]|tauto]).
  all: try (split; [intros (A & B)|intros (_ & A & B)]; [split; [reflexivity|split; [exact A|intros Z; rewrite Z, String.eqb_refl in B; discriminate]]|split; [exact A|destruct (String.eqb_spec p r); congruence]]).
  all: (split; [intros (A & B & C)|intros (A & B & C)]; [split; [apply String.eqb_eq in A; congruence|split; [exact B|intros Z; rewrite Z, String.eqb_refl in C; discriminate]]|injection A as ->; split; [apply String.eqb_refl|split; [exact B|destruct (String.eqb_spec k r); congruence]]]).
Qed.
Lemma not_both b1 r1 b2 r2 e : apart b1 r1 b2 r2 -> in_store b1 r1 e -> in_store b2 r2 e -> False.
Proof.
  intros A H1 H2.
  assert (U : forall p, outside r1 r2 /\ outside r2 r1 -> under r1 p = true -> under r2 p = true -> False). { intros p [O1 O2] U1 U2. destruct (apart_outside r1 r2 p O1 O2 U1) as [O _]. rewrite (outside_under _ _ O) in U2. discriminate. }
  destruct e; cbn [in_store] in *; (destruct A as [A|A]; [apply A; destruct H1 as (X & _), H2 as (Y & _); congruence|]); (first [exact (U _ A (proj2 H1) (proj2 H2))|exact (U _ A (proj1 (proj2 H1)) (proj1 (proj2 H2)))]).
Qed.
Lemma filter_all {A} (f : A -> bool) l : Forall (fun x => f x = true) l -> filter f l = l.
Proof. induction 1 as [|x l H _ IH]; [reflexivity|]. cbn. rewrite H, IH. reflexivity. Qed.
Lemma filter_none {A} (f : A -> bool) l : Forall (fun x => f x = false) l -> filter f l = [].
Proof. induction 1 as [|x l H _ IH]; [reflexivity|]. cbn. rewrite H, IH. reflexivity. Qed.
Lemma filter_own b r l : Forall (in_store b r) l -> filter (in_storeb b r) l = l.
Proof. intros H. apply filter_all. eapply Forall_impl; [|exact H]. intros e. apply in_storeb_iff. Qed.
Lemma filter_foreign b1 r1 b2 r2 l : apart b1 r1 b2 r2 -> Forall (in_store b2 r2) l -> filter (in_storeb b1 r1) l = [].
Proof. intros A H. apply filter_none. eapply Forall_impl; [|exact H]. intros e He. destruct (in_storeb b1 r1 e) eqn:X; [|reflexivity]. apply in_storeb_iff in X. destruct (not_both _ _ _ _ _ A X He). Qed.
Lemma cinv_in_store t k b r : cinv t k -> store_at (k_set k) b r -> Forall (in_store b r) t.
Proof.
  intros [(b' & r' & P & F & _)|(N & _)] P'; [|destruct (N _ _ P')]. assert (X : (b', r') = (b, r)) by (rewrite <- (store_place _ _ _ P), <- (store_place _ _ _ P'); reflexivity). injection X as -> ->.
  eapply Forall_impl; [|exact F]. intros e. apply in_store_okev.
Qed.

(** *** the process *)
Lemma run_snoc E cs l i : run E cs (l ++ [i]) = step E (run E cs l) i.
Proof. unfold run. rewrite fold_left_app. reflexivity. Qed.
Lemma only_snoc i l j : only i (l ++ [j]) = if Nat.eqb i j then only i l ++ [j] else only i l.
Proof. unfold only. rewrite filter_app. cbn. destruct (Nat.eqb i j); [reflexivity|apply app_nil_r]. Qed.
Lemma step_alive E p i : p_alive (step E p i) = true -> p_alive p = true.
Proof. unfold step. destruct (p_alive p) eqn:A; [auto|congruence]. Qed.
Lemma step_length E p i : List.length (p_clients (step E p i)) = List.length (p_clients p).
Proof. unfold step. destruct (p_alive p); [|reflexivity]. destruct (nth_error (p_clients p) i); [|reflexivity]. destruct (turn E (p_trace p) c) as [[? ?] ?]. cbn. apply Radix.upd_length. Qed.
Lemma run_length E cs l : List.length (p_clients (run E cs l)) = List.length cs.
Proof. induction l as [|i l IH] using rev_ind; [reflexivity|]. rewrite run_snoc, step_length. exact IH. Qed.
Definition agree (E : env) (cs : list client) (l : list nat) : Prop :=
  forall i k0, nth_error cs i = Some k0 -> exists k,
    p_alive (run E cs (only i l)) = true /\ nth_error (p_clients (run E cs l)) i = Some k /\ nth_error (p_clients (run E cs (only i l))) i = Some k /\ k_set k = k_set k0 /\
    cinv (p_trace (run E cs (only i l))) k /\ view E (k_set k0) (p_trace (run E cs l)) (p_trace (run E cs (only i l))) /\
    forall b r, store_at (k_set k0) b r -> filter (in_storeb b r) (p_trace (run E cs l)) = p_trace (run E cs (only i l)).
Lemma fresh_cinv k : fresh k -> cinv [] k.
Proof. intros (st & a & calls & ->). destruct (placed st) as [(b & r & P)|N]; [left; exists b, r; split; [exact P|split; [constructor|exact I]]|right; split; [exact N|split; [reflexivity|exact I]]]. Qed.
Section Process.
Variables (E : env) (cs : list client).
Hypothesis HF : Forall fresh cs.
Hypothesis HS : Forall (fun k => settled E (k_set k)) cs.
Hypothesis HP : separate cs.
Lemma set_at i k : nth_error cs i = Some k -> settled E (k_set k).
Proof. intros H. rewrite Forall_forall in HS. apply HS. eapply nth_error_In; eauto. Qed.
Lemma agree_nil : agree E cs [].
Proof.
  intros i k H. exists k. split; [reflexivity|]. split; [exact H|]. split; [exact H|]. split; [reflexivity|]. split; [apply fresh_cinv; rewrite Forall_forall in HF; apply HF; eapply nth_error_In; eauto|]. split; [|intros; reflexivity]. intros p _. split; auto.
Qed.
Lemma one_step l j : p_alive (run E cs l) = true -> agree E cs l ->
  (forall k, nth_error cs j = Some k -> p_alive (run E cs (l ++ [j])) = p_alive (run E cs (only j (l ++ [j])))) /\ (p_alive (run E cs (l ++ [j])) = true -> agree E cs (l ++ [j])).
Proof.
  intros AL AG. destruct (nth_error cs j) as [kj|] eqn:NJ.
  - destruct (AG j kj NJ) as (k & A1 & A2 & A3 & A4 & A5 & A6 & A7). pose proof (set_at j kj NJ) as SJ. rewrite <- A4 in SJ, A6.
    destruct (turn_same E (p_trace (run E cs l)) (p_trace (run E cs (only j l))) k (settled_clean _ _ SJ) A6 A5) as (ev & go & k' & T1 & T2 & T3 & T4 & T5).
    assert (R1 : run E cs (l ++ [j]) = mkprocess (p_trace (run E cs l) ++ ev) go (upd (p_clients (run E cs l)) j k')) by (rewrite run_snoc; unfold step; rewrite AL, A2, T1; reflexivity).
    assert (R2 : run E cs (only j (l ++ [j])) = mkprocess (p_trace (run E cs (only j l)) ++ ev) go (upd (p_clients (run E cs (only j l))) j k')) by (rewrite only_snoc, Nat.eqb_refl, run_snoc; unfold step; rewrite A1, A3, T2; reflexivity).
    split; [intros _ _; rewrite R1, R2; reflexivity|]. intros GO. rewrite R1 in GO. cbn in GO. subst go.
    assert (IJ : (j < List.length cs)%nat) by (apply nth_error_Some; congruence).
    intros i k0 NI. destruct (Nat.eqb_spec i j) as [->|NE].
    + rewrite NJ in NI. injection NI as <-. exists k'. rewrite R1, R2. cbn [p_alive p_trace p_clients]. split; [reflexivity|].
      split; [rewrite OpenProofs.nth_error_upd by (rewrite run_length; auto); rewrite Nat.eqb_refl; reflexivity|]. split; [rewrite OpenProofs.nth_error_upd by (rewrite run_length; auto); rewrite Nat.eqb_refl; reflexivity|].
      split; [congruence|]. split; [exact T5|]. split; [rewrite <- A4; exact T4|]. intros b r P. rewrite filter_app, (A7 b r P). f_equal. apply filter_own.
      rewrite <- A4, <- T3 in P. pose proof (cinv_in_store _ _ _ _ T5 P) as X. apply Forall_app in X. tauto.
    + destruct (AG i k0 NI) as (ki & B1 & B2 & B3 & B4 & B5 & B6 & B7). exists ki. rewrite only_snoc. destruct (Nat.eqb_spec i j); [contradiction|]. rewrite R1. cbn [p_alive p_trace p_clients].
      split; [exact B1|]. split; [rewrite OpenProofs.nth_error_upd by (rewrite run_length; auto); destruct (Nat.eqb_spec i j); [contradiction|exact B2]|]. split; [exact B3|]. split; [exact B4|]. split; [exact B5|].
      destruct (placed (k_set kj)) as [(bj & rj & PJ)|NPJ].
      * assert (FE : Forall (in_store bj rj) ev). { assert (PJ' : store_at (k_set k') bj rj) by (rewrite T3, A4; exact PJ). pose proof (cinv_in_store _ _ _ _ T5 PJ') as X. apply Forall_app in X. tauto. }
        destruct (placed (k_set k0)) as [(bi & ri & PI)|NPI].
        -- assert (AP : apart bi ri bj rj) by (eapply (HP i j); eauto). split; [eapply view_foreign; eauto; [apply (set_at i); auto|rewrite <- B4 in PI; eapply cinv_in_store; eauto]|].
           intros b r P. rewrite filter_app, (B7 b r P). assert (AP' : apart b r bj rj) by (eapply (HP i j); eauto). rewrite (filter_foreign _ _ _ _ _ AP' FE). apply app_nil_r.
        -- split; [|intros b r P; destruct (NPI _ _ P)]. intros p (N & q & Q & _). exfalso. apply (NPI None (trim q)). split; [exists q; split; [exact Q|apply trim_spec]|]. rewrite N. reflexivity.
      * destruct T5 as [(b & r & P & _)|(_ & X & _)]; [rewrite T3, A4 in P; destruct (NPJ _ _ P)|]. apply app_eq_nil in X as [_ ->]. rewrite app_nil_r. split; [exact B6|exact B7].
  - split; [intros k H; discriminate|]. intros GO i k0 NI. assert (NE : i <> j) by (intros ->; congruence).
    assert (R1 : run E cs (l ++ [j]) = run E cs l). { rewrite run_snoc. unfold step. rewrite AL. destruct (nth_error (p_clients (run E cs l)) j) eqn:X; [|reflexivity]. exfalso. apply nth_error_None in NJ. assert (j < List.length (p_clients (run E cs l)))%nat by (apply nth_error_Some; congruence). rewrite run_length in *. lia. }
    rewrite R1, only_snoc. destruct (Nat.eqb_spec i j); [contradiction|]. exact (AG i k0 NI).
Qed.
Lemma alone_and_together l :
  (p_alive (run E cs l) = true <-> forall i k, nth_error cs i = Some k -> p_alive (run E cs (only i l)) = true) /\ (p_alive (run E cs l) = true -> agree E cs l).
Proof.
  induction l as [|j l (IH1 & IH2)] using rev_ind; [split; [split; intros; reflexivity|intros _; apply agree_nil]|].
  assert (MO : forall i k, nth_error cs i = Some k -> p_alive (run E cs (only i (l ++ [j]))) = true -> p_alive (run E cs (only i l)) = true).
  { intros i k _. rewrite only_snoc. destruct (Nat.eqb i j); [rewrite run_snoc; apply step_alive|auto]. }
  assert (AG : p_alive (run E cs (l ++ [j])) = true -> agree E cs (l ++ [j])).
  { intros X. assert (AL : p_alive (run E cs l) = true) by (rewrite run_snoc in X; eapply step_alive; eauto). apply one_step; auto. }
  split; [|exact AG]. split.
  - intros X i k N. destruct (AG X i k N) as (k' & A & _). exact A.
  - intros H. assert (AL : p_alive (run E cs l) = true) by (apply IH1; intros i k N; eapply MO; eauto). destruct (one_step l j AL (IH2 AL)) as [O _].
    destruct (nth_error cs j) as [kj|] eqn:NJ; [rewrite (O kj eq_refl); eauto|].
    rewrite run_snoc. unfold step. rewrite AL. destruct (nth_error (p_clients (run E cs l)) j) eqn:X; [|exact AL]. exfalso. apply nth_error_None in NJ. assert (j < List.length (p_clients (run E cs l)))%nat by (apply nth_error_Some; congruence). rewrite run_length in *. lia.
Qed.
End Process.
