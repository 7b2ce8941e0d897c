(** The number of sinks a stream holds does not grow with the number of frames. *)
Require Import ZArith List Bool String Ascii Lia.
Require Import Verif.Base Verif.Dim Verif.Json Verif.World Verif.Writer Verif.FrameProofs Verif.Stream Verif.Api Verif.OpenProofs.
Import ListNotations.
Open Scope string_scope. Open Scope list_scope. Open Scope Z_scope.

Section Bound.
Variable E : env.
(** number of paths make_data_sink_paths returns *)
Definition cnt (parts : dim -> outcome Z) (d : dim) : nat := match parts d with Ok n => Z.to_nat n | _ => 1%nat end.
Definition plen (ds : list dim) (parts : dim -> outcome Z) : nat :=
  (fold_left (fun n d => n * cnt parts d)%nat (firstn (List.length ds - 2) (tl ds)) 1%nat * cnt parts (width_dim ds))%nat.
Lemma flat_len {A B} (f : A -> list B) k l : (forall a, List.length (f a) = k) -> List.length (flat_map f l) = (List.length l * k)%nat.
Proof. intros H. induction l as [|a l IH]; cbn; [reflexivity|]. rewrite app_length, H, IH. reflexivity. Qed.
Lemma extend_len ps n : List.length (extend_paths ps n) = (List.length ps * Z.to_nat n)%nat.
Proof. unfold extend_paths. apply flat_len. intros a. rewrite map_length. unfold zseq. rewrite map_length, seq_length. reflexivity. Qed.
Lemma final_len ps n : List.length (final_paths ps n) = (List.length ps * Z.to_nat n)%nat.
Proof. unfold final_paths. apply flat_len. intros a. rewrite map_length. unfold zseq. rewrite map_length, seq_length. reflexivity. Qed.
Lemma b_ok {S A B} (m : M S A) (f : A -> M S B) s s' v : bind m f s = (s', Ok v) -> exists s1 a, m s = (s1, Ok a) /\ f a s1 = (s', Ok v).
Proof. unfold bind. destruct (m s) as [s1 [a|e| |]]; try discriminate. eauto. Qed.
Lemma l_ok {S A} (o : outcome A) (s s' : S) v : liftM o s = (s', Ok v) -> o = Ok v /\ s' = s.
Proof. unfold liftM. intros X. injection X as <- ->. auto. Qed.
Lemma paths_len base ds parts mk w w' l : make_data_sink_paths E base ds parts mk w = (w', Ok l) -> List.length l = plen ds parts.
Proof.
  unfold make_data_sink_paths. intros X. apply b_ok in X as (w1 & u & _ & X). apply b_ok in X as (w2 & ps & F & X). apply b_ok in X as (w3 & n & N & X). apply l_ok in N as [N ->]. apply b_ok in X as (w4 & u2 & _ & X).
  assert (L : List.length ps = fold_left (fun n d => n * cnt parts d)%nat (firstn (List.length ds - 2) (tl ds)) 1%nat).
  { clear X N. revert F. generalize (firstn (List.length ds - 2) (tl ds)) as l1. intros l1. change 1%nat with (List.length [base]). generalize [base] as acc. revert w1. induction l1 as [|d l0 IH]; intros w1 acc F; cbn [mfold fold_left] in *; [injection F as _ <-; reflexivity|].
    apply b_ok in F as (w5 & ps1 & F1 & F). apply b_ok in F1 as (w6 & k & K & F1). apply l_ok in K as [K ->]. apply b_ok in F1 as (w7 & u3 & _ & F1). cbv zeta in F1. apply b_ok in F1 as (w8 & u4 & _ & F1). injection F1 as _ <-.
    rewrite (IH _ _ F), extend_len. assert (CK : cnt parts d = Z.to_nat k) by (unfold cnt; rewrite K; reflexivity). rewrite CK. reflexivity. }
  injection X as _ <-. rewrite final_len, L. unfold plen. assert (CK : cnt parts (width_dim ds) = Z.to_nat n) by (unfold cnt; rewrite N; reflexivity). rewrite CK. reflexivity.
Qed.
Lemma files_len l w w' v : make_files E l w = (w', Ok v) -> List.length v = List.length l.
Proof.
  unfold make_files. enough (G : forall acc w w' v, mfold (fun acc p => s <- file_sink E p ;; job_done (true, "") ;;; ret (acc ++ [Some (SFile s)])%list) l acc w = (w', Ok v) -> List.length v = (List.length acc + List.length l)%nat) by (apply (G [])).
  induction l as [|p l IH]; intros acc w0 w1 v0 X; cbn [mfold] in X; [injection X as _ <-; cbn; lia|]. apply b_ok in X as (w2 & a & X1 & X). apply b_ok in X1 as (w3 & f & _ & X1). apply b_ok in X1 as (w4 & u & _ & X1). injection X1 as _ <-.
  rewrite (IH _ _ _ _ X), app_length. cbn. lia.
Qed.
Lemma s3s_len b l w w' v : mfold (fun acc k => s <- s3_sink b k ;; ret (acc ++ [Some (SS3 s)])%list) l [] w = (w', Ok v) -> List.length v = List.length l.
Proof.
  enough (G : forall acc w w' v, mfold (fun acc k => s <- s3_sink b k ;; ret (acc ++ [Some (SS3 s)])%list) l acc w = (w', Ok v) -> List.length v = (List.length acc + List.length l)%nat) by (apply (G [])).
  induction l as [|p l IH]; intros acc w0 w1 v0 X; cbn [mfold] in X; [injection X as _ <-; cbn; lia|]. apply b_ok in X as (w2 & a & X1 & X). apply b_ok in X1 as (w3 & f & _ & X1). injection X1 as _ <-.
  rewrite (IH _ _ _ _ X), app_length. cbn. lia.
Qed.

(** *** one array *)
Definition slots_of (a : writer) : nat := plen (c_dims (a_cfg a)) (parts_along a).
Variables (c0 : config) (v0 : bool).
Definition few (a : writer) : Prop := a_cfg a = c0 /\ a_v3 a = v0 /\ (List.length (a_sinks a) <= slots_of a)%nat.
Definition Fa (aw : AW) : Prop := few (fst aw).
Notation pa := (pres Fa any).
Lemma fa_onWd {A} (m : M world A) : pa (onWd m).
Proof. intros [a w] X. unfold onWd. cbn [fst snd]. destruct (m w). split; [exact X|intros; exact I]. Qed.
Lemma fa_getA : pres Fa few getA.
Proof. intros [a w] X. split; [exact X|]. cbn. intros v Y. injection Y as <-. exact X. Qed.
Lemma fa_modA f : (forall a, few a -> few (f a)) -> pa (modA f).
Proof. intros H [a w] X. split; [apply H; exact X|intros; exact I]. Qed.
Lemma upd_len {A} (l : list A) i x : List.length (upd l i x) = List.length l.
Proof. unfold upd. rewrite app_length, firstn_length. pose proof (skipn_length i l). destruct (skipn i l) eqn:S0; cbn in *; lia. Qed.
Lemma fa_on_sink {A} i (m : M KW A) : pa (on_sink i m).
Proof.
  intros [a w] (X & Y & Z). unfold on_sink. cbn [fst] in *. destruct (nth i (a_sinks a) None); [|split; [split; [exact X|split; [exact Y|exact Z]]|intros; exact I]]. destruct (m (s, w)) as [[s' w'] r]. split; [|intros; exact I]. split; [exact X|split; [exact Y|]]. cbn. rewrite upd_len. exact Z.
Qed.
Lemma fa_on_slot {A} i (m : M (option sink * world) A) : pa (on_slot i m).
Proof. intros [a w] (X & Y & Z). unfold on_slot. cbn [fst] in *. destruct (m _) as [[s' w'] r]. split; [|intros; exact I]. split; [exact X|split; [exact Y|]]. cbn. rewrite upd_len. exact Z. Qed.
Lemma fa_on_meta {A} (m : M KW A) : pa (on_meta m).
Proof. intros [a w] X. unfold on_meta. destruct (a_meta a); [|split; [exact X|intros; exact I]]. destruct (m (s, w)) as [[s' w'] r]. split; [exact X|intros; exact I]. Qed.
Lemma fa_on_meta_slot {A} (m : M (option sink * world) A) : pa (on_meta_slot m).
Proof. intros [a w] X. unfold on_meta_slot. destruct (m _) as [[s' w'] r]. split; [exact X|intros; exact I]. Qed.
Ltac st := first
  [ apply pres_ret; exact I | apply pres_throw | apply pres_ub | apply pres_hang | apply pres_expect; exact I | apply pres_lift; intros; exact I
  | apply fa_onWd | apply fa_modA; intros ? X; exact X | apply fa_on_sink | apply fa_on_slot | apply fa_on_meta | apply fa_on_meta_slot
  | eapply pres_bind; [apply fa_getA|intros ? ?]
  | eapply pres_bind with (P := any); [|intros ? _]
  | match goal with |- pres _ _ (if ?b then _ else _) => destruct b end
  | apply pres_catch; [|intros ?] ].
Lemma fa_compress : pa (compress_buffers E).
Proof. unfold compress_buffers. st. destruct (c_comp (a_cfg a)) as [pr|]; [|st]. st; [st|]. apply pres_miter. intros i _. st. destruct (e_compress E pr _ _); repeat st. Qed.
Lemma fa_make_data : pa (make_data_sinks E).
Proof.
  intros [a w] X. split; [|intros; exact I]. unfold make_data_sinks, bind at 1, getA. cbn [fst]. unfold bind at 1, onWd. cbn [fst snd].
  match goal with |- Fa (fst (match (let '(_, _) := ?m w in _) with _ => _ end)) => destruct (m w) as [w' r] eqn:R end. destruct r as [[l|]|e| |]; try exact X.
  cbn. destruct X as (X & Y & Z). split; [exact X|]. split; [exact Y|]. cbn. assert (L : List.length l = slots_of a); [|unfold slots_of, parts_along in *; cbn in *; lia].
  destruct (c_bucket (a_cfg a)) as [b|].
  - unfold make_data_sinks_s3 in R. apply b_ok in R as (w1 & u & _ & R). apply b_ok in R as (w2 & ps & P & R). destruct (String.eqb b ""); [discriminate|]. apply b_ok in R as (w3 & l' & F & R). injection R as _ <-. rewrite (s3s_len _ _ _ _ _ F). eapply paths_len; eauto.
  - unfold make_data_sinks_fs in R. cbv zeta in R. apply b_ok in R as (w1 & u & _ & R). apply b_ok in R as (w2 & ps & P & R). destruct ps as [ps|]; [|discriminate]. apply b_ok in R as (w3 & l' & F & R). injection R as _ <-. rewrite (files_len _ _ _ _ F).
    unfold catchM in P. destruct (bind (make_data_sink_paths _ _ _ _ _) _ w1) as [w4 [x|m| |]] eqn:Q; try discriminate. injection P as _ ->. apply b_ok in Q as (w5 & ps2 & Q & Q2). injection Q2 as _ ->. eapply paths_len; eauto.
Qed.
Lemma fa_make_meta : pa (make_metadata_sink E).
Proof. unfold make_metadata_sink. st. destruct (a_meta a); [st|]. st; [st|]. destruct a0; repeat st. Qed.
Lemma fa_write_meta : pa (write_array_metadata E).
Proof. unfold write_array_metadata. st; [apply fa_make_meta|]. st; [|st]. st. cbv zeta. st; [st; [st|]|]; [destruct (dtype_v3 _); st|]. destruct (dtype_v2 _); [|st]. st; st. Qed.
Lemma fa_v2_job i : pa (v2_job E i).
Proof. unfold v2_job. repeat st. Qed.
Lemma fa_flush_v2 : pa (flush_impl_v2 E).
Proof. unfold flush_impl_v2. st. st; [st|]. st; [apply fa_make_data|]. st; [|st]. st. st; [st|]. st; [|st]. apply pres_miter. intros i _. apply fa_v2_job. Qed.
Lemma fa_v3_chunk s b ci : pa (v3_chunk E s b ci).
Proof. unfold v3_chunk. st. cbv zeta. st; [repeat st|]. destruct a0 as [[] [m|]]; try (apply pres_ret; exact I). repeat st. Qed.
Lemma fa_v3_chunks s : forall cs b, pa (v3_chunks E s cs b).
Proof. induction cs as [|c cs IH]; intros b; cbn [v3_chunks]; [st|]. st; [apply fa_v3_chunk|]. destruct a as [[] [m|]]; try (apply pres_ret; exact I). apply IH. Qed.
Lemma fa_v3_table s : pa (v3_table E s).
Proof. unfold v3_table. repeat st. Qed.
Lemma fa_v3_job tb cis s : pa (v3_job E tb cis s).
Proof. unfold v3_job. st; [apply fa_v3_chunks|]. st; [destruct a as [[] [m|]]; [st|destruct tb; [apply fa_v3_table|st]|st|st]|]. destruct a0 as [b [m|]]; st. Qed.
Lemma fa_flush_v3 : pa (flush_impl_v3 E).
Proof.
  unfold flush_impl_v3. st. st; [destruct (a_sinks a); [apply fa_make_data|st]|]. st; [|st]. st. cbv zeta. st; [st|]. st; [st|]. st; [st|]. st; [st; st|]. st; [apply pres_miter; intros i _; apply fa_v3_job|]. repeat st.
Qed.
Lemma fa_flush_impl : pa (flush_impl E).
Proof. unfold flush_impl. st. st; [apply fa_flush_v3|apply fa_flush_v2]. Qed.
Lemma fa_nil a b : few a -> few (set_sinks (set_bufs a b) []).
Proof. intros (X & Y & Z). split; [exact X|]. split; [exact Y|]. cbn. lia. Qed.
Lemma fa_close : pa (close_sinks E).
Proof.
  unfold close_sinks. st. st; [apply pres_miter; intros i _; st; st|]. apply fa_modA. intros a' (X & Y & Z). split; [exact X|]. split; [exact Y|]. cbn. lia.
Qed.
Lemma fa_rollover : pa (rollover E).
Proof. unfold rollover. st; [apply fa_close|]. st. Qed.
Lemma few_bufs a a' : few a -> make_buffers a = Ok a' -> few a'.
Proof. unfold make_buffers. intros H. destruct (number_of_chunks_in_memory _); try discriminate. destruct (bytes_per_chunk _ _); try discriminate. intros X. injection X as <-. exact H. Qed.
Lemma fa_flush : pa (flush E).
Proof.
  unfold flush. st. st; [st|]. st; [apply fa_compress|]. st; [apply fa_flush_impl|]. st; [st|]. st. st; [st|]. st; [st; [apply fa_rollover|st]|]. st. st; [st; [st; [apply fa_write_meta|st]|st]|].
  eapply pres_bind; [apply fa_getA|intros a9 H9]. eapply pres_bind with (P := few); [apply pres_lift; intros v V; eapply few_bufs; eauto|]. intros a' Ha. apply fa_modA. intros _ _. exact Ha.
Qed.
Lemma fa_write_frame d : pa (write_frame E d).
Proof.
  unfold write_frame. st. st; [st|]. st; [st|]. st.
  - destruct (a_bufs a); [|st]. eapply pres_bind with (P := few); [apply pres_lift; intros v V; eapply few_bufs; eauto|]. intros a' Ha. apply fa_modA. intros _ _. exact Ha.
  - st. eapply pres_bind with (P := any); [st|]. intros [bufs wr] _. st; [st|]. st; [st|]. st; [st|]. st. st; [st|]. st; [st; [apply fa_flush|st]|]. st.
Qed.
End Bound.

(** *** the stream *)
Section Stream.
Variable E : env.
Variable shape : list (config * bool).
Definition few_all (l : list writer) : Prop := Forall2 (fun x a => few (fst x) (snd x) a) shape l.
Definition Ft (tw : TW) : Prop := few_all (s_writers (fst tw)) /\ (List.length (s_msinks (fst tw)) <= 4)%nat.
Notation pt := (pres Ft any).
Lemma f2_upd {A B} (R : A -> B -> Prop) l1 l2 i x y : Forall2 R l1 l2 -> nth_error l1 i = Some x -> R x y -> Forall2 R l1 (upd l2 i y).
Proof.
  intros H. revert i. induction H as [|a b l1 l2 X Y IH]; intros i N Z; [destruct i; discriminate|]. destruct i as [|i].
  - injection N as ->. cbn. constructor; auto.
  - change (upd (b :: l2) (S i) y) with (b :: upd l2 i y). constructor; auto.
Qed.
Lemma f2_nth {A B} (R : A -> B -> Prop) l1 l2 i y : Forall2 R l1 l2 -> nth_error l2 i = Some y -> exists x, nth_error l1 i = Some x /\ R x y.
Proof.
  intros H. revert i. induction H as [|a b l1 l2 X Y IH]; intros i N; [destruct i; discriminate|]. destruct i as [|i]; cbn in *; [injection N as <-; eauto|eauto].
Qed.
Lemma ft_on_writer {A} i (m : M AW A) : (forall c v, pres (Fa c v) any m) -> pt (on_writer i m).
Proof.
  intros H [s w] [X Y]. cbn [fst] in *. unfold on_writer. destruct (nth_error (s_writers s) i) as [a|] eqn:N; [|split; [split; auto|intros; exact I]].
  destruct (f2_nth _ _ _ _ _ X N) as ([c v] & N1 & F). destruct (H c v (a, w) F) as [G _]. destruct (m (a, w)) as [[a' w'] r]. split; [|intros; exact I]. split; [|exact Y]. cbn. eapply f2_upd; eauto.
Qed.
Lemma ft_onT {A} (m : M world A) : pt (onT m).
Proof. intros [s w] X. unfold onT. cbn [fst snd]. destruct (m w). split; [exact X|intros; exact I]. Qed.
Lemma ft_getT : pt getT. Proof. intros s X. split; [exact X|intros; exact I]. Qed.
Lemma ft_modT f : (forall s, s_writers (f s) = s_writers s /\ s_msinks (f s) = s_msinks s) -> pt (modT f).
Proof. intros H [s w] [X Y]. split; [|intros; exact I]. destruct (H s) as [H1 H2]. unfold Ft. cbn in *. rewrite H1, H2. auto. Qed.
Ltac st := first
  [ apply pres_ret; exact I | apply pres_throw | apply pres_ub | apply pres_hang | apply pres_expect; exact I | apply pres_lift; intros; exact I
  | apply ft_onT | apply ft_getT | apply ft_modT; intros; split; reflexivity
  | eapply pres_bind with (P := any); [|intros ? _]
  | match goal with |- pres _ _ (if ?b then _ else _) => destruct b end
  | apply pres_catch; [|intros ?] ].
Lemma ft_frame i d : pt (on_writer i (write_frame E d)).
Proof. apply ft_on_writer. intros. apply fa_write_frame. Qed.
Lemma ft_multi bpp : forall fuel i d nb wd ht, pt (multiscale_loop E bpp fuel i d nb wd ht).
Proof.
  induction fuel as [|f IH]; intros i d nb wd ht; cbn [multiscale_loop]; [st|]. st; [st|]. st; [st|]. destruct a0 as [[[px nb'] w'] h']. destruct (nth i (s_scaled a) None).
  - cbv zeta. st; [apply ft_frame|]. st; [st|]. st; [st|]. apply IH.
  - st.
Qed.
Lemma ft_multiscale d nb : pt (write_multiscale E d nb).
Proof. unfold write_multiscale. st; [st|]. st; [|st]. st; [st|]. st; [st|]. apply ft_multi. Qed.
Lemma ft_append_loop : forall fuel d pos wr, pt (append_loop E fuel d pos wr).
Proof.
  induction fuel as [|f IH]; intros d pos wr; cbn [append_loop]; [st|]. st; [|st]. st; [st|]. cbv zeta. st.
  - st; [st|]. st; [st|]. st; [|apply IH]. st; [st|]. st; [apply ft_frame|]. st; [st|]. st; [st|]. apply IH.
  - st; st; try st.
    + st. + apply IH. + apply ft_frame. + st; [st|]. st; [apply ft_multiscale|]. apply IH.
Qed.
Lemma ft_api_append d o : pt (api_append E d o).
Proof. unfold api_append. destruct d as [d|]; [|st]. destruct o; [|st]. st; [|st]. st; [|st]. unfold append. st; [st|]. st; [st|]. apply ft_append_loop. Qed.
Lemma ft_appends l : pt (api_appends E l).
Proof. induction l as [|d l IH]; cbn [api_appends]; [st|]. st; [apply ft_api_append|]. st; [apply IH|]. st. Qed.
(** what the invariant bounds *)
Definition bound : Z := 4 + fold_right (fun (x : config * bool) n => Z.of_nat (plen (c_dims (fst x)) (if snd x then shards_along_dimension else chunks_along_dimension)) + 1 + n) 0 shape.
Lemma slot_le o : h_slot o None <= 1.
Proof. destruct o as [[f|s]|]; cbn; [unfold h_file; cbn; destruct (f_open f)| |]; lia. Qed.
Lemma slots_le l : h_slots l None <= Z.of_nat (List.length l).
Proof. induction l as [|o l IH]; cbn [h_slots List.length]; [lia|]. pose proof (slot_le o). lia. Qed.
Lemma stream_le s w : Ft (s, w) -> h_stream s None <= bound.
Proof.
  intros [X Y]. cbn [fst] in *. unfold h_stream, bound. pose proof (slots_le (map snd (s_msinks s))) as L. rewrite map_length in L.
  assert (G : h_writers (s_writers s) None <= fold_right (fun (x : config * bool) n => Z.of_nat (plen (c_dims (fst x)) (if snd x then shards_along_dimension else chunks_along_dimension)) + 1 + n) 0 shape); [|lia].
  clear -X. unfold few_all in X. induction X as [|[c v] a l1 l2 F G IH]; cbn; [lia|]. destruct F as (F1 & F2 & F3). cbn in *. pose proof (slots_le (a_sinks a)). pose proof (slot_le (a_meta a)). unfold slots_of, parts_along in F3. rewrite F1, F2 in F3. unfold h_writer. lia.
Qed.
End Stream.
(** a new stream *)
Section New.
Variable E : env.
Lemma few_new v3 c a : make_writer v3 c = Ok a -> few (a_cfg a) (a_v3 a) a.
Proof. intros X. split; [reflexivity|]. split; [reflexivity|]. unfold make_writer in X. destruct v3; [destruct (number_of_shards (c_dims c)); try discriminate; cbn in X|]; injection X as <-; cbn; lia. Qed.
Definition shape_of (l : list writer) : list (config * bool) := map (fun a => (a_cfg a, a_v3 a)) l.
Definition news (l : list writer) : Prop := Forall (fun a => few (a_cfg a) (a_v3 a) a) l.
Lemma news_all l : news l -> few_all (shape_of l) l.
Proof. unfold few_all. induction 1 as [|a l X Y IH]; cbn; constructor; auto. Qed.
Lemma pyramid_news v3 : forall fuel c l, pyramid fuel v3 c = Ok l -> news l.
Proof.
  induction fuel as [|f IH]; intros c l; cbn [pyramid]; [discriminate|]. destruct (downsample c) as [[c' again]| | |]; try discriminate. cbn [obind].
  destruct (make_writer v3 c') as [a| | |] eqn:MW; try discriminate. cbn [obind]. destruct again.
  - destruct (pyramid f v3 c') as [l'| | |] eqn:P; try discriminate. intros X. injection X as <-. constructor; [eapply few_new; eauto|eapply IH; eauto].
  - intros X. injection X as <-. constructor; [eapply few_new; eauto|constructor].
Qed.
Lemma writers_news s l : create_writers s = Ok l -> news l.
Proof.
  unfold create_writers. destruct (make_writer (s_v3 s) (base_config s)) as [a| | |] eqn:MW; try discriminate. cbn [obind]. destruct (s_multi s).
  - destruct (pyramid pyramid_fuel (s_v3 s) (base_config s)) as [l'| | |] eqn:P; try discriminate. intros X. injection X as <-. constructor; [eapply few_new; eauto|eapply pyramid_news; eauto].
  - intros X. injection X as <-. constructor; [eapply few_new; eauto|constructor].
Qed.
Definition ok4 (tw : TW) : Prop := (List.length (s_msinks (fst tw)) <= 4)%nat.
Lemma m_write_metadata k d err : pres ok4 any (write_metadata E k d err).
Proof.
  intros [s w] X. split; [|intros; exact I]. unfold ok4, write_metadata in *. cbn [fst] in *. destruct (find_key k (s_msinks s)) as [i|]; [|exact X].
  destruct (nth i (s_msinks s) (k, None)) as [k' [sk|]]; [|exact X]. destruct (sink_write E 0 d (sk, w)) as [[sk' w'] r]. destruct r as [[]|m| |]; cbn; rewrite upd_len; exact X.
Qed.
Lemma m_get : pres ok4 any getT. Proof. intros s X. split; [exact X|intros; exact I]. Qed.
Lemma m_expect b m : pres ok4 any (expectM b m). Proof. apply pres_expect. exact I. Qed.
Lemma m_base : pres ok4 any (write_base_metadata E).
Proof. unfold write_base_metadata. eapply pres_bind with (P := any); [apply m_get|]. intros s _. destruct (base_metadata s). apply m_write_metadata. Qed.
Lemma m_group : pres ok4 any (write_group_metadata E).
Proof. unfold write_group_metadata. eapply pres_bind with (P := any); [apply m_get|]. intros s _. destruct (group_metadata s). apply m_write_metadata. Qed.
Lemma m_external : pres ok4 any (write_external_metadata E).
Proof. unfold write_external_metadata. eapply pres_bind with (P := any); [apply m_get|]. intros s _. destruct (String.eqb _ _); [apply pres_ret; exact I|]. apply m_write_metadata. Qed.
Lemma names_le v names : metadata_paths v = Ok names -> (List.length names <= 4)%nat.
Proof. unfold metadata_paths. destruct (v =? 2); [intros X; injection X as <-; cbn; lia|]. destruct (v =? 3); [intros X; injection X as <-; cbn; lia|discriminate]. Qed.
Lemma msinks_len {A} (f : string -> M world A) (g : string -> A -> string * option sink) l : forall acc w w' v, mfold (fun acc n => s <- f n ;; ret (acc ++ [g n s])%list) l acc w = (w', Ok v) -> List.length v = (List.length acc + List.length l)%nat.
Proof.
  induction l as [|p l IH]; intros acc w0 w1 v0 X; cbn [mfold] in X; [injection X as _ <-; cbn; lia|]. apply b_ok in X as (w2 & a & X1 & X). apply b_ok in X1 as (w3 & x & _ & X1). injection X1 as _ <-. rewrite (IH _ _ _ _ X), app_length. cbn. lia.
Qed.
Lemma msinks_len2 {A} (f : string -> M world A) (h : M world unit) (g : string -> A -> string * option sink) l : forall acc w w' v, mfold (fun acc n => s <- f n ;; h ;;; ret (acc ++ [g n s])%list) l acc w = (w', Ok v) -> List.length v = (List.length acc + List.length l)%nat.
Proof.
  induction l as [|p l IH]; intros acc w0 w1 v0 X; cbn [mfold] in X; [injection X as _ <-; cbn; lia|]. apply b_ok in X as (w2 & a & X1 & X). apply b_ok in X1 as (w3 & x & _ & X1). apply b_ok in X1 as (w4 & u & _ & X1). injection X1 as _ <-. rewrite (IH _ _ _ _ X), app_length. cbn. lia.
Qed.
Lemma m_create : pres ok4 any (create_metadata_sinks E).
Proof.
  intros [s w] X. split; [|intros; exact I]. unfold create_metadata_sinks, bind at 1, getT. cbn [fst]. cbv zeta. unfold bind at 1, onT. cbn [fst snd].
  match goal with |- ok4 (fst (match (let '(_, _) := ?m w in _) with _ => _ end)) => destruct (m w) as [w' r] eqn:R end. destruct r as [[l|]|e| |]; try exact X. unfold ok4. cbn.
  unfold catchM in R. match type of R with (match ?m with _ => _ end) = _ => destruct m as [w1 [o|m'| |]] eqn:Q end; try discriminate.
  - injection R as -> ->. apply b_ok in Q as (w2 & o & Q1 & Q2). destruct o as [l'|]; [|discriminate]. injection Q2 as _ ->. destruct (s_bucket s) as [b|].
    + unfold make_metadata_sinks_s3 in Q1. apply b_ok in Q1 as (w3 & u & _ & Q1). apply b_ok in Q1 as (w4 & u2 & _ & Q1). apply b_ok in Q1 as (w5 & ok & _ & Q1). destruct ok; [|discriminate]. apply b_ok in Q1 as (w6 & names & N & Q1). apply l_ok in N as [N ->]. apply b_ok in Q1 as (w7 & l2 & F & Q1). injection Q1 as _ ->.
      rewrite (msinks_len (fun n => s3_sink b (s_root s ++ "/" ++ n)%string) (fun n s => (n, Some (SS3 s))) _ _ _ _ _ F). apply names_le in N. cbn. lia.
    + apply b_ok in Q1 as (w3 & l2 & Q1 & Q2). injection Q2 as _ ->. unfold make_metadata_sinks_fs in Q1. cbv zeta in Q1. apply b_ok in Q1 as (w4 & u2 & _ & Q1). apply b_ok in Q1 as (w6 & names & N & Q1). apply l_ok in N as [N ->]. apply b_ok in Q1 as (w5 & ok & _ & Q1). apply b_ok in Q1 as (w7 & u3 & _ & Q1). apply b_ok in Q1 as (w8 & ok2 & _ & Q1). apply b_ok in Q1 as (w9 & u4 & _ & Q1).
      rewrite (msinks_len2 (fun n => file_sink E (strip_file (s_root s) ++ "/" ++ n)%string) (job_done (true, "")) (fun n s => (n, Some (SFile s))) _ _ _ _ _ Q1). apply names_le in N. cbn. lia.
Qed.
Lemma new_few o w w' s : new_stream E o w = (w', Ok s) -> Ft (shape_of (s_writers s)) (s, w').
Proof.
  unfold new_stream. destruct (validate_settings E w o) as [[]|e| |]; try discriminate; destruct o as [st|]; try discriminate. intros X.
  apply b_ok in X as (w1 & s0 & C & X). apply b_ok in X as (w2 & n & _ & X). cbv zeta in X. apply b_ok in X as (w3 & ok & _ & X). apply b_ok in X as (w4 & u & _ & X). apply b_ok in X as (w5 & ws & CW & X). apply l_ok in CW as [CW ->]. apply l_ok in C as [C ->].
  match type of X with (let '(_, _) := ?m (?s', ?w0) in _) = _ => set (s1 := s') in X; set (m0 := m) in X; set (w6 := w0) in X end. clearbody w6.
  assert (S1 : s_msinks s1 = [] /\ s_writers s1 = ws).
  { assert (SM : s_msinks s0 = []). { unfold commit in C. destruct (make_dimensions _); try discriminate. cbn [obind] in C. injection C as <-. reflexivity. }
    unfold s1. cbn [s_multi set_writers set_fbuf]. destruct (s_multi s0); split; try exact SM; reflexivity. }
  destruct S1 as [S1 S2].
  assert (K : pres (wr ws) any m0) by (unfold m0; repeat (eapply pres_bind with (P := any); [first [apply k_create|apply k_expect|apply k_base|apply k_group|apply k_external]|intros ? _]); apply k_expect).
  assert (K4 : pres ok4 any m0) by (unfold m0; repeat (eapply pres_bind with (P := any); [first [apply m_create|apply m_expect|apply m_base|apply m_group|apply m_external]|intros ? _]); apply m_expect).
  destruct (K (s1, w6) S2) as [K1 _]. destruct (K4 (s1, w6) ltac:(unfold ok4; cbn; rewrite S1; cbn; lia)) as [K2 _]. destruct (m0 (s1, w6)) as [[s' w8] r]. destruct r as [u1|m| |]; try discriminate. cbn in X. injection X as <- <-.
  unfold wr in K1. cbn [fst] in K1. split; [|exact K2]. apply (news_all (s_writers s')). rewrite K1. eapply writers_news; eauto.
Qed.
End New.
