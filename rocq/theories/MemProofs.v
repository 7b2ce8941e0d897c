(** The image data a stream keeps in memory is bounded. *)
Require Import ZArith List Bool String Ascii Lia.
Require Import Verif.Base Verif.Radix Verif.Dim Verif.Json Verif.World Verif.Writer Verif.FrameProofs Verif.Stream Verif.Api Verif.OpenProofs Verif.BoundProofs Verif.GridProofs Verif.MemSpec.
Import ListNotations.
Open Scope string_scope. Open Scope list_scope. Open Scope Z_scope.

(** *** copying does not change the size of a buffer *)
Lemma floop_keep {A S} (f : S -> A -> outcome (S * bool)) (I : S -> Prop) l : (forall s a s' b, In a l -> I s -> f s a = Ok (s', b) -> I s') ->
  forall s s' b, I s -> floop f l s = Ok (s', b) -> I s'.
Proof.
  induction l as [|a l IH]; intros H s s' b X; cbn [floop]; [intros Y; injection Y as <- _; exact X|]. destruct (f s a) as [[s1 c]| | |] eqn:F; try discriminate. cbn [obind].
  assert (X1 : I s1) by (eapply H; eauto; left; auto). destruct c; [intros Y; injection Y as <- _; exact X1|]. apply IH; auto. intros. eapply H; eauto. right; auto.
Qed.
Lemma slice_le d o n : zlen (slice d o n) <= Z.max 0 n.
Proof. unfold zlen, slice. rewrite firstn_length. lia. Qed.
Lemma splice_same buf off d : 0 <= off -> off + zlen d <= zlen buf -> zlen (splice buf off d) = zlen buf.
Proof. unfold zlen, splice. intros A B. rewrite !app_length, firstn_length, skipn_length. lia. Qed.
Lemma copy_row_len data bpp H W Ty Tx off i j st k st' b : copy_row data bpp H W Ty Tx off i j st k = Ok (st', b) -> zlen (fst st') = zlen (fst st).
Proof.
  destruct st as [ch w]. unfold copy_row. cbv zeta. destruct (_ <? H); [|intros X; injection X as <- _; reflexivity]. destruct (_ <? u64 _); [intros X; injection X as <- _; reflexivity|].
  match goal with |- context [zlen ch - ?p <? ?n] => set (pos := p); set (nb := n) end. destruct (Z.ltb_spec (zlen ch - pos) nb) as [L|L]; [intros X; injection X as <- _; reflexivity|].
  destruct (Z.ltb_spec pos 0) as [P|P]; [discriminate|]. cbn [orb]. match goal with |- context [?r <? 0] => destruct (Z.ltb_spec r 0) as [R|R]; [discriminate|] end. cbn [orb]. destruct (Z.ltb_spec nb 0) as [N|N]; [discriminate|].
  intros X. injection X as <- _. cbn [fst]. apply splice_same; auto. match goal with |- context [slice ?d ?o nb] => pose proof (slice_le d o nb) end. lia.
Qed.
Lemma map_upd_same {A} (f : A -> Z) l i x y : nth_error l i = Some x -> f y = f x -> map f (upd l i y) = map f l.
Proof.
  revert i. induction l as [|a l IH]; intros i N H; [destruct i; discriminate|]. destruct i as [|i].
  - injection N as ->. cbn. rewrite H. reflexivity.
  - change (upd (a :: l) (S i) y) with (a :: upd l i y). cbn [map]. f_equal. apply IH; auto.
Qed.
Lemma chunks_len a data bufs w : write_frame_to_chunks a data = Ok (bufs, w) -> map zlen bufs = map zlen (a_bufs a).
Proof.
  unfold write_frame_to_chunks. destruct (bytes_of_type _) as [bpp| | |]; try discriminate. cbn [obind]. destruct (_ || _); [intros X; injection X as <- _; reflexivity|].
  destruct (tile_group_offset _ _) as [g| | |]; try discriminate. cbn [obind]. destruct (chunk_internal_offset _ _ _) as [c| | |]; try discriminate. cbn [obind].
  unfold int_range. destruct (_ <? 2 ^ 31); try discriminate. cbn [obind]. destruct (_ <? 2 ^ 31); try discriminate. cbn [obind]. destruct (_ <? 2 ^ 31); try discriminate. cbn [obind].
  match goal with |- context [floop ?F ?l ?z] => destruct (floop F l z) as [[[b2 w2] st]| | |] eqn:FL end; try discriminate. cbn [obind fst]. intros X. injection X as -> _.
  set (J := fun st : list (list Z) * Z => map zlen (fst st) = map zlen (a_bufs a)). change (J (bufs, w2)). revert FL. apply floop_keep with (I := J); [|reflexivity].
  intros s i s' b _ Hs. apply floop_keep with (I := J); [|exact Hs]. clear s s' b Hs. intros [bs wr] j s' b _ Hs. destruct (nth_error bs _) as [ch|] eqn:N; try discriminate.
  match goal with |- context [floop ?F ?l ?z] => destruct (floop F l z) as [[[ch' w'] st']| | |] eqn:FL end; try discriminate. cbn [obind]. intros X. injection X as <- _. unfold J in *. cbn [fst] in *. rewrite <- Hs. eapply map_upd_same; [exact N|].
  set (K := fun st : list Z * Z => zlen (fst st) = zlen ch). change (K (ch', w')). revert FL. apply floop_keep with (I := K); [|reflexivity]. intros s0 k s1 b1 _ H0 F1. unfold K. rewrite (copy_row_len _ _ _ _ _ _ _ _ _ _ _ _ _ F1). exact H0.
Qed.

(** *** one array *)
Section Arr.
Variable E : env.
Definition size0 (c : config) : Z := match bytes_per_chunk (c_dims c) (c_dtype c) with Ok n => Z.max 0 n | _ => 0 end.
Definition count0 (c : config) : Z := match number_of_chunks_in_memory (c_dims c) with Ok n => Z.max 0 n | _ => 0 end.
Definition grow (c : config) : Z := match c_comp c with Some _ => 16 | None => 0 end.
Variable c0 : config.
Definition small (f : Z) (a : writer) : Prop := a_cfg a = c0 /\ Forall (fun b => zlen b <= size0 c0 + grow c0 * f) (a_bufs a) /\ zlen (a_bufs a) <= count0 c0.
Definition Sa (f : Z) (aw : AW) : Prop := small f (fst aw).
Lemma grow_nonneg : 0 <= grow c0.
Proof. unfold grow. destruct (c_comp c0); lia. Qed.
Lemma small_mono f g a : f <= g -> small f a -> small g a.
Proof. intros L (A & B & C). split; [exact A|]. split; [|exact C]. eapply Forall_impl; [|exact B]. cbn. intros b H. pose proof grow_nonneg. nia. Qed.
Section Fixed.
Variable f : Z.
Notation pa := (pres (Sa f) any).
Lemma sa_onWd {A} (m : M world A) : pa (onWd m).
Proof. intros [a w] X. unfold onWd. cbn [fst snd]. destruct (m w). split; [exact X|intros; exact I]. Qed.
Lemma sa_getA : pa getA.
Proof. intros [a w] X. split; [exact X|intros; exact I]. Qed.
Lemma sa_modA g : (forall a, small f a -> small f (g a)) -> pa (modA g).
Proof. intros H [a w] X. split; [apply H; exact X|intros; exact I]. Qed.
Lemma sa_on_sink {A} i (m : M KW A) : pa (on_sink i m).
Proof. intros [a w] X. unfold on_sink. destruct (nth i (a_sinks a) None); [|split; [exact X|intros; exact I]]. destruct (m (s, w)) as [[s' w'] r]. split; [exact X|intros; exact I]. Qed.
Lemma sa_on_slot {A} i (m : M (option sink * world) A) : pa (on_slot i m).
Proof. intros [a w] X. unfold on_slot. destruct (m _) as [[s' w'] r]. split; [exact X|intros; exact I]. Qed.
Lemma sa_on_meta {A} (m : M KW A) : pa (on_meta m).
Proof. intros [a w] X. unfold on_meta. destruct (a_meta a); [|split; [exact X|intros; exact I]]. destruct (m (s, w)) as [[s' w'] r]. split; [exact X|intros; exact I]. Qed.
Lemma sa_on_meta_slot {A} (m : M (option sink * world) A) : pa (on_meta_slot m).
Proof. intros [a w] X. unfold on_meta_slot. destruct (m _) as [[s' w'] r]. split; [exact X|intros; exact I]. Qed.
Ltac st := first
  [ apply pres_ret; exact I | apply pres_throw | apply pres_ub | apply pres_hang | apply pres_expect; exact I | apply pres_lift; intros; exact I
  | apply sa_onWd | apply sa_getA | apply sa_modA; intros ? X; exact X | apply sa_on_sink | apply sa_on_slot | apply sa_on_meta | apply sa_on_meta_slot
  | eapply pres_bind with (P := any); [|intros ? _]
  | match goal with |- pres _ _ (if ?b then _ else _) => destruct b end
  | apply pres_catch; [|intros ?] ].
Lemma sa_make_data : pa (make_data_sinks E).
Proof. unfold make_data_sinks. st; [st|]. st; [st|]. destruct a0; repeat st. Qed.
Lemma sa_make_meta : pa (make_metadata_sink E).
Proof. unfold make_metadata_sink. st; [st|]. destruct (a_meta a); [st|]. st; [st|]. destruct a0; repeat st. Qed.
Lemma sa_write_meta : pa (write_array_metadata E).
Proof. unfold write_array_metadata. st; [apply sa_make_meta|]. st; [|st]. st; [st|]. cbv zeta. st; [st; [st|]|]; [destruct (dtype_v3 _); st|]. destruct (dtype_v2 _); [|st]. st; st. Qed.
Lemma sa_v2_job i : pa (v2_job E i).
Proof. unfold v2_job. repeat st. Qed.
Lemma sa_flush_v2 : pa (flush_impl_v2 E).
Proof. unfold flush_impl_v2. st; [st|]. st; [st|]. st; [apply sa_make_data|]. st; [|st]. st; [st|]. st; [st|]. st; [|st]. apply pres_miter. intros i _. apply sa_v2_job. Qed.
Lemma sa_v3_chunk s b ci : pa (v3_chunk E s b ci).
Proof. unfold v3_chunk. st; [st|]. cbv zeta. st; [repeat st|]. destruct a0 as [[] [m|]]; try (apply pres_ret; exact I). repeat st. Qed.
Lemma sa_v3_chunks s : forall cs b, pa (v3_chunks E s cs b).
Proof. induction cs as [|c cs IH]; intros b; cbn [v3_chunks]; [st|]. st; [apply sa_v3_chunk|]. destruct a as [[] [m|]]; try (apply pres_ret; exact I). apply IH. Qed.
Lemma sa_v3_table s : pa (v3_table E s).
Proof. unfold v3_table. repeat st. Qed.
Lemma sa_v3_job tb cis s : pa (v3_job E tb cis s).
Proof. unfold v3_job. st; [apply sa_v3_chunks|]. st; [destruct a as [[] [m|]]; [st|destruct tb; [apply sa_v3_table|st]|st|st]|]. destruct a0 as [b [m|]]; st. Qed.
Lemma sa_flush_v3 : pa (flush_impl_v3 E).
Proof.
  unfold flush_impl_v3. st; [st|]. st; [destruct (a_sinks a); [apply sa_make_data|st]|]. st; [|st]. st; [st|]. cbv zeta. st; [st|]. st; [st|]. st; [st|]. st; [st; st|]. st; [apply pres_miter; intros i _; apply sa_v3_job|]. repeat st.
Qed.
Lemma sa_flush_impl : pa (flush_impl E).
Proof. unfold flush_impl. st; [st|]. st; [apply sa_flush_v3|apply sa_flush_v2]. Qed.
Lemma sa_close : pa (close_sinks E).
Proof. unfold close_sinks. st; [st|]. st; [apply pres_miter; intros i _; st; st|]. st. Qed.
Lemma sa_rollover : pa (rollover E).
Proof. unfold rollover. st; [apply sa_close|]. st. Qed.
End Fixed.
(** new buffers: as if no flush had failed *)
Lemma small_new a a' : a_cfg a = c0 -> make_buffers a = Ok a' -> small 0 a'.
Proof.
  unfold make_buffers, small, size0, count0. intros Hc. rewrite Hc. destruct (number_of_chunks_in_memory _) as [n| | |]; try discriminate. destruct (bytes_per_chunk _ _) as [k| | |]; try discriminate. intros X. injection X as <-. cbn [set_bufs a_cfg a_bufs].
  split; [|split].
  - exact Hc.
  - apply Forall_forall. intros b Hb. unfold zrep in Hb at 1. apply repeat_spec in Hb. subst b. unfold zlen, zrep. rewrite repeat_length. lia.
  - unfold zlen, zrep. rewrite repeat_length. lia.
Qed.

(** compression: at most 16 bytes more *)
Definition mid (f : Z) (i : nat) (a : writer) : Prop :=
  a_cfg a = c0 /\ zlen (a_bufs a) <= count0 c0 /\ forall j b, nth_error (a_bufs a) j = Some b -> zlen b <= size0 c0 + grow c0 * (if Nat.ltb j i then f + 1 else f).
Lemma upd_nth {A} (l : list A) i x j y : nth_error (upd l i x) j = Some y -> (j = i /\ y = x /\ exists o, nth_error l i = Some o) \/ (j <> i /\ nth_error l j = Some y).
Proof.
  revert i j. induction l as [|a l IH]; intros i j; [destruct i, j; discriminate|]. destruct i as [|i], j as [|j]; cbn; auto.
  - intros X. injection X as <-. eauto.
  - change (nth_error (upd l i x) j = Some y -> (S j = S i /\ y = x /\ exists o, nth_error l i = Some o) \/ (S j <> S i /\ nth_error l j = Some y)). intros X. destruct (IH _ _ X) as [(-> & -> & o)|[N Y]]; auto.
Qed.
Lemma mid_0 f a : small f a -> mid f 0 a.
Proof. intros (A & B & C). split; [exact A|]. split; [exact C|]. intros j b N. cbn. rewrite Forall_forall in B. apply B. eapply nth_error_In; eauto. Qed.
Lemma mid_n f n a : 0 <= f -> (List.length (a_bufs a) <= n)%nat -> mid f n a -> small (f + 1) a.
Proof.
  intros F L (A & B & C). split; [exact A|]. split; [|exact B]. apply Forall_forall. intros b N. apply In_nth_error in N as [j N]. specialize (C j b N). assert (J : (j < List.length (a_bufs a))%nat) by (apply nth_error_Some; congruence).
  rewrite (proj2 (Nat.ltb_lt j n)) in C by lia. exact C.
Qed.
Lemma mid_small f i a : 0 <= f -> mid f i a -> small (f + 1) a.
Proof.
  intros F (A & B & C). split; [exact A|]. split; [|exact B]. apply Forall_forall. intros b N. apply In_nth_error in N as [j N]. specialize (C j b N). pose proof grow_nonneg. destruct (Nat.ltb j i); nia.
Qed.
Lemma mid_step f i a : 0 <= f -> mid f i a -> mid f (S i) a.
Proof.
  intros F (A & B & C). split; [exact A|]. split; [exact B|]. intros j b N. specialize (C j b N). pose proof grow_nonneg. destruct (Nat.ltb_spec j i), (Nat.ltb_spec j (S i)); try lia; nia.
Qed.
Lemma hx_onWd {A} (P : AW -> Prop) (m : M world A) : (forall a w w', P (a, w) -> P (a, w')) -> hx P (onWd m) (fun _ => P) P.
Proof. intros H [a w] X. unfold onWd. cbn [fst snd]. destruct (m w) as [w' [v|e| |]]; eauto. Qed.
Hypothesis Hhon : c_comp c0 <> None -> honest_compressor E.
Lemma sa_compress f : 0 <= f -> hx (Sa f) (compress_buffers E) (fun _ => Sa (f + 1)) (Sa (f + 1)).
Proof.
  intros F. assert (UP : forall s, Sa f s -> Sa (f + 1) s) by (intros s; apply small_mono; lia).
  unfold compress_buffers. apply hx_getA. intros a. destruct (c_comp (a_cfg a)) as [p|] eqn:CP; [|apply hx_ret; intros s [X _]; auto].
  eapply hx_bind with (Q := fun _ aw => Sa f aw /\ fst aw = a); [apply hx_lift; [auto|intros s [X _]; auto]|]. intros bpp.
  assert (G : c_comp c0 = Some p -> forall k i, hx (fun aw => mid f i (fst aw)) (miter (fun i => a <- getA ;; match e_compress E p bpp (nth i (a_bufs a) []) with
      | Some out => modA (fun a => set_bufs a (upd (a_bufs a) i out)) ;;; onWd (job_done (true, ""))
      | None => onWd (job_done (false, "Failed to compress chunk: vector::_M_default_append")) end) (seq i k)) (fun _ aw => mid f (i + k)%nat (fst aw)) (Sa (f + 1))).
  { intros CC. assert (GR : grow c0 = 16) by (unfold grow; rewrite CC; reflexivity). induction k as [|k IH]; intros i; cbn [seq miter].
    - apply hx_ret. intros s X. rewrite Nat.add_0_r. exact X.
    - eapply hx_bind with (Q := fun _ aw => mid f (S i) (fst aw)); [|intros _; specialize (IH (S i)); rewrite Nat.add_succ_comm in IH; exact IH].
      apply hx_getA. intros b. destruct (e_compress E p bpp (nth i (a_bufs b) [])) as [out|] eqn:CO.
      + eapply hx_bind with (Q := fun _ aw => mid f (S i) (fst aw)).
        * apply hx_mod. intros b' w [X Y]. cbn [fst] in *. subst b'. destruct X as (A & B & C). split; [exact A|]. cbn [a_bufs set_bufs].
          split; [unfold zlen in *; rewrite upd_length; exact B|]. intros j y N. apply upd_nth in N as [(-> & -> & old & NE)|[N Y]].
          -- rewrite (proj2 (Nat.ltb_lt i (S i))) by lia. apply (Hhon ltac:(congruence)) in CO.
             specialize (C i old NE). rewrite (proj2 (Nat.ltb_ge i i)) in C by lia. rewrite (nth_error_nth _ _ _ NE) in CO.
             rewrite GR in *. lia.
          -- specialize (C j y Y). pose proof grow_nonneg. destruct (Nat.ltb_spec j i), (Nat.ltb_spec j (S i)); try lia; nia.
        * intros _. eapply hx_weak; [apply (hx_onWd (fun aw => mid f (S i) (fst aw))); intros; assumption|auto|auto|]. intros s X. exact (mid_small f (S i) _ F X).
      + eapply hx_weak; [apply (hx_onWd (fun aw => mid f (S i) (fst aw))); intros; assumption| |auto|].
        * intros s [X _]. apply mid_step; auto.
        * intros s X. exact (mid_small f (S i) _ F X). }
  intros s [X Y]. assert (CC : c_comp c0 = Some p) by (rewrite <- CP, <- Y; f_equal; symmetry; apply X). specialize (G CC (List.length (a_bufs a)) 0%nat s (mid_0 _ _ X)). unfold hx in G.
  destruct (miter _ _ s) as [s' [v|e| |]]; auto. exact (mid_small f _ _ F G).
Qed.

Definition keeps {A} (f : Z) (m : M AW A) : Prop := hx (Sa f) m (fun _ => Sa f) (Sa f).
Lemma kp f {A} (m : M AW A) : pres (Sa f) any m -> keeps f m.
Proof. intros H. eapply hx_weak; [apply hx_pres; exact H|auto|intros v s [X _]; exact X|auto]. Qed.
Lemma sa_flush f : 0 <= f -> hx (Sa f) (flush E) (fun _ => Sa f) (Sa (f + 1)).
Proof.
  intros F. unfold flush. apply hx_getA. intros a. destruct (a_toflush a =? 0).
  - apply hx_ret. intros s [X _]. exact X.
  - eapply hx_bind with (Q := fun _ => Sa (f + 1)); [eapply hx_pre; [apply sa_compress; exact F|intros s [X _]; exact X]|]. intros _.
    eapply hx_bind with (Q := fun _ => Sa (f + 1)); [apply kp, sa_flush_impl|]. intros ok. eapply hx_bind with (Q := fun _ => Sa (f + 1)); [apply hx_expect; auto|]. intros _.
    apply hx_getA. intros b. eapply hx_bind with (Q := fun _ => Sa (f + 1)); [apply hx_lift; [intros s v _ [X _]; exact X|intros s [X _]; exact X]|]. intros roll.
    eapply hx_bind with (Q := fun _ => Sa (f + 1)); [destruct roll; [apply kp, sa_rollover|apply hx_ret; auto]|]. intros _.
    apply hx_getA. intros c. eapply hx_bind with (Q := fun _ => Sa (f + 1)).
    { eapply hx_pre; [|intros s [X _]; exact X]. destruct (roll || a_final c); [|apply hx_ret; auto]. eapply hx_bind with (Q := fun _ => Sa (f + 1)); [apply kp, sa_write_meta|]. intros ok2. apply hx_expect; auto. }
    intros _. apply hx_getA. intros d. eapply hx_bind with (Q := fun d' _ => small f d').
    { apply hx_lift; [|intros s [X _]; exact X]. intros [d1 w] v Hv [X Y]. cbn [fst] in *. subst d1. apply small_mono with (f := 0); [lia|]. eapply small_new; [apply X|exact Hv]. }
    intros d'. apply hx_mod. intros a' w X. exact X.
Qed.
Lemma sa_write_frame f d : 0 <= f -> hx (Sa f) (write_frame E d) (fun _ => Sa f) (Sa (f + 1)).
Proof.
  intros F. assert (UP : forall s, Sa f s -> Sa (f + 1) s) by (intros s; apply small_mono; lia).
  unfold write_frame. apply hx_getA. intros a. eapply hx_bind with (Q := fun _ aw => Sa f aw /\ fst aw = a); [apply hx_lift; [auto|intros s [X _]; auto]|]. intros nf.
  destruct (negb _); [apply hx_ret; intros s [X _]; exact X|].
  eapply hx_bind with (Q := fun _ => Sa f).
  { destruct (a_bufs a); [|apply hx_ret; intros s [X _]; exact X]. eapply hx_bind with (Q := fun d' _ => small f d').
    - apply hx_lift; [|intros s [X _]; auto]. intros [d1 w] v Hv [X Y]. cbn [fst] in *. subst d1. apply small_mono with (f := 0); [lia|]. eapply small_new; [apply X|exact Hv].
    - intros d'. apply hx_mod. intros a' w X. exact X. }
  intros _. apply hx_getA. intros b. eapply hx_bind with (Q := fun x aw => Sa f aw /\ fst aw = b /\ map zlen (fst x) = map zlen (a_bufs b)).
  { apply hx_lift; [|intros s [X _]; auto]. intros s [bufs wr] Hv [X Y]. split; [exact X|]. split; [exact Y|]. eapply chunks_len; eauto. }
  intros [bufs wr]. cbn [fst]. eapply hx_bind with (Q := fun _ => Sa f).
  { apply hx_mod. intros b' w (X & Y & L). cbn [fst] in *. subst b'. destruct X as (A & B & C). split; [exact A|]. cbn [fst set_bufs a_bufs]. split.
    - rewrite Forall_forall in *. intros x Hx. apply (in_map zlen) in Hx. rewrite L in Hx. apply in_map_iff in Hx as (y & <- & Hy). auto.
    - assert (LL : List.length bufs = List.length (a_bufs b)) by (rewrite <- (map_length zlen bufs), L, map_length; reflexivity). clear L. unfold zlen in *. rewrite LL. exact C. }
  intros _. eapply hx_bind with (Q := fun _ => Sa f); [apply hx_expect; auto|]. intros _. eapply hx_bind with (Q := fun _ => Sa f); [apply hx_mod; intros a' w X; exact X|]. intros _.
  apply hx_getA. intros c. eapply hx_bind with (Q := fun _ => Sa f); [apply hx_lift; [intros s v _ [X _]; exact X|intros s [X _]; auto]|]. intros sf.
  eapply hx_bind with (Q := fun _ => Sa f); [destruct sf; [apply sa_flush; exact F|apply hx_ret; auto]|]. intros _. apply hx_ret. auto.
Qed.
End Arr.

(** *** the stream *)
Section Str.
Variable E : env.
Variables (shape : list config) (F : Z).
Definition Ss (f : Z) (tw : TW) : Prop := Forall2 (fun c a => small c f a) shape (s_writers (fst tw)) /\ zlen (s_fbuf (fst tw)) = F.
Lemma ss_mono f g tw : f <= g -> Ss f tw -> Ss g tw.
Proof. intros L [A B]. split; [|exact B]. clear B. induction A as [|c a l1 l2 X _ IH]; constructor; auto. eapply small_mono; eauto. Qed.
Lemma hx_getT {B} (P : TW -> Prop) (g : stream -> M TW B) Q R : (forall a, hx (fun tw => P tw /\ fst tw = a) (g a) Q R) -> hx P (a <- getT ;; g a) Q R.
Proof. intros H [a w] X. unfold bind, getT. cbn. apply (H a (a, w)). auto. Qed.
Lemma hx_modT (P : TW -> Prop) (Q : unit -> TW -> Prop) R g : (forall a w, P (a, w) -> Q tt (g a, w)) -> hx P (modT g) Q R.
Proof. intros H [a w] X. cbn. auto. Qed.
Hypothesis Hhon : honest_compressor E \/ Forall (fun c => c_comp c = None) shape.
Lemma ss_frame f i d : 0 <= f -> hx (Ss f) (on_writer i (write_frame E d)) (fun _ => Ss f) (Ss (f + 1)).
Proof.
  intros P [s w] X. unfold on_writer. pose proof (ss_mono f (f + 1) _ ltac:(lia) X) as UP. destruct (nth_error (s_writers s) i) as [a|] eqn:N; [|exact UP].
  destruct X as [X Y]. cbn [fst] in *. destruct (f2_nth _ _ _ _ _ X N) as (c & N1 & C). assert (HC : c_comp c <> None -> honest_compressor E) by (destruct Hhon as [H|H]; [auto|]; rewrite Forall_forall in H; intros Z; destruct Z; apply H; eapply nth_error_In; eauto). pose proof (sa_write_frame E c HC f d P (a, w) C) as G.
  destruct (write_frame E d (a, w)) as [[a' w'] [v|e| |]]; cbn [fst] in *; (split; [|exact Y]); cbn [s_writers set_writers fst]; eapply f2_upd; eauto; apply UP.
Qed.
Lemma ss_scaled f s w l n : Ss f (s, w) -> Ss f (set_scaled s l n, w).
Proof. intros H. exact H. Qed.
Lemma ss_multi bpp f : 0 <= f -> forall fuel i d nb wd ht, hx (Ss f) (multiscale_loop E bpp fuel i d nb wd ht) (fun _ => Ss f) (Ss (f + 1)).
Proof.
  intros P. assert (UP : forall s, Ss f s -> Ss (f + 1) s) by (intros s; apply ss_mono; lia).
  induction fuel as [|n IH]; intros i d nb wd ht; cbn [multiscale_loop]; [apply hx_ret; auto|]. apply hx_getT. intros s. eapply hx_bind with (Q := fun _ => Ss f); [apply hx_lift; [intros s' v _ [X _]; exact X|intros s' [X _]; auto]|].
  intros [[[px nb'] w'] h']. destruct (nth i (s_scaled s) None) as [old|].
  - cbv zeta. eapply hx_bind with (Q := fun _ => Ss f); [apply ss_frame; exact P|]. intros k. eapply hx_bind with (Q := fun _ => Ss f); [apply hx_expect; auto|]. intros _. eapply hx_bind with (Q := fun _ => Ss f); [apply hx_modT; intros a w X; exact X|]. intros _. apply IH.
  - apply hx_modT. intros a w X. exact X.
Qed.
Lemma ss_multiscale f d nb : 0 <= f -> hx (Ss f) (write_multiscale E d nb) (fun _ => Ss f) (Ss (f + 1)).
Proof.
  intros P. assert (UP : forall s, Ss f s -> Ss (f + 1) s) by (intros s; apply ss_mono; lia).
  unfold write_multiscale. apply hx_getT. intros s. destruct (s_multi s); [|apply hx_ret; intros s' [X _]; exact X]. destruct (_ <=? _); [intros s' [X _]; cbn; auto|].
  eapply hx_bind with (Q := fun _ => Ss f); [apply hx_lift; [intros s' v _ [X _]; exact X|intros s' [X _]; auto]|]. intros bpp. apply ss_multi. exact P.
Qed.
Lemma ss_fbuf f s w o k off d n : Ss f (s, w) -> 0 <= off -> zlen d <= Z.max 0 n -> off + n <= zlen (s_fbuf s) \/ n <= 0 -> k = splice (s_fbuf s) off d -> Ss f (set_fbuf s k o, w).
Proof.
  intros [X Y] A B C ->. split; [exact X|]. cbn [fst s_fbuf set_fbuf] in *. rewrite <- Y. destruct (Z.le_gt_cases n 0) as [N|N].
  - assert (D0 : d = []) by (destruct d; [reflexivity|unfold zlen in B; cbn in B; lia]). subst d. unfold splice. cbn [app List.length]. rewrite Nat.add_0_r, firstn_skipn. reflexivity.
  - apply splice_same; lia.
Qed.
Lemma ss_append_loop f : 0 <= f -> forall fuel d pos wr, hx (Ss f) (append_loop E fuel d pos wr) (fun _ => Ss f) (Ss (f + 1)).
Proof.
  intros P. assert (UP : forall s, Ss f s -> Ss (f + 1) s) by (intros s; apply ss_mono; lia).
  induction fuel as [|n IH]; intros d pos wr; cbn [append_loop]; [intros s X; cbn; auto|]. destruct (Z.ltb_spec wr (zlen d)) as [L|L]; [|apply hx_ret; auto]. apply hx_getT. intros s. cbv zeta.
  destruct (Z.ltb_spec 0 (s_foff s)) as [O|O].
  - destruct (_ <? _); [intros s' [X _]; cbn; auto|]. eapply hx_bind with (Q := fun _ => Ss f).
    { apply hx_modT. intros s' w [X Y]. cbn [fst] in Y. subst s'. eapply ss_fbuf; [exact X| | | |reflexivity]; [lia|apply slice_le|]. lia. }
    intros _. destruct (_ =? _); [|apply IH]. destruct (_ <? _); [intros s' X; cbn; auto|]. eapply hx_bind with (Q := fun _ => Ss f); [apply ss_frame; exact P|]. intros r. destruct (r =? 0); [apply hx_ret; auto|].
    eapply hx_bind with (Q := fun _ => Ss f); [apply hx_modT; intros a w X; exact X|]. intros _. apply IH.
  - match goal with |- context [if ?c <? ?e then _ else _] => destruct (Z.ltb_spec c e) as [R|R] end.
    + destruct (_ <? _); [intros s' [X _]; cbn; auto|]. eapply hx_bind with (Q := fun _ => Ss f); [|intros _; apply IH].
      apply hx_modT. intros s' w [X Y]. cbn [fst] in Y. subst s'. eapply ss_fbuf; [exact X| | | |reflexivity]; [lia|apply slice_le|]. lia.
    + destruct (_ <? _); [intros s' [X _]; cbn; auto|]. eapply hx_bind with (Q := fun _ => Ss f); [eapply hx_pre; [apply ss_frame; exact P|intros s' [X _]; exact X]|]. intros r. destruct (r =? 0); [apply hx_ret; auto|].
      eapply hx_bind with (Q := fun _ => Ss f); [apply ss_multiscale; exact P|]. intros _. apply IH.
Qed.
Lemma ss_append f d : 0 <= f -> hx (Ss f) (append E d) (fun _ => Ss f) (Ss (f + 1)).
Proof.
  intros P. unfold append. eapply hx_bind with (Q := fun _ => Ss f); [intros [s w] X; exact X|]. intros w. eapply hx_bind with (Q := fun _ => Ss f); [apply hx_expect; [auto|intros s; apply ss_mono; lia]|]. intros _. apply ss_append_loop. exact P.
Qed.
Lemma ss_api f d tw tw' r : 0 <= f -> Ss f tw -> api_append E (Some d) true tw = (tw', Ok r) -> Ss (f + if fst r =? st_success then 0 else 1) tw'.
Proof.
  intros P X. unfold api_append, catchM, bind at 1. pose proof (ss_append f d P tw X) as G. destruct (append E d tw) as [t1 [v|e| |]]; try discriminate; intros Y; injection Y as <- <-; cbn [fst].
  - change (st_success =? st_success) with true. cbv iota. rewrite Z.add_0_r. exact G.
  - change (st_internal_error =? st_success) with false. cbv iota. exact G.
Qed.
Lemma failed_cons r rs : failed (r :: rs) = (if fst r =? st_success then 0 else 1) + failed rs.
Proof. unfold failed. cbn [filter]. destruct (fst r =? st_success); cbn [negb]; [reflexivity|]. unfold zlen. cbn [List.length]. lia. Qed.
Lemma ss_appends : forall calls f tw tw' rs, 0 <= f -> Ss f tw -> api_appends E calls tw = (tw', Ok rs) -> Ss (f + failed rs) tw'.
Proof.
  induction calls as [|d l IH]; intros f tw tw' rs P X; cbn [api_appends].
  - intros Y. injection Y as <- <-. change (failed []) with 0. rewrite Z.add_0_r. exact X.
  - intros Y. apply b_ok in Y as (t1 & r & A & Y). apply b_ok in Y as (t2 & rs' & B & Y). injection Y as <- <-. pose proof (ss_api f d _ _ _ P X A) as G. rewrite failed_cons, Z.add_assoc. eapply IH; eauto. destruct (_ =? _); lia.
Qed.
End Str.

(** *** a new stream *)
Section New.
Variable E : env.
Variable b0 : list Z.
Definition kb (tw : TW) : Prop := s_fbuf (fst tw) = b0.
Lemma b_write_metadata k d err : pres kb any (write_metadata E k d err).
Proof.
  intros [s w] X. split; [|intros; exact I]. unfold kb, write_metadata in *. cbn [fst] in *. destruct (find_key k (s_msinks s)) as [i|]; [|exact X].
  destruct (nth i (s_msinks s) (k, None)) as [k' [sk|]]; [|exact X]. destruct (sink_write E 0 d (sk, w)) as [[sk' w'] r]. destruct r as [[]|m| |]; exact X.
Qed.
Lemma b_get : pres kb any getT. Proof. intros s X. split; [exact X|intros; exact I]. Qed.
Lemma b_expect b m : pres kb any (expectM b m). Proof. apply pres_expect. exact I. Qed.
Lemma b_base : pres kb any (write_base_metadata E).
Proof. unfold write_base_metadata. eapply pres_bind with (P := any); [apply b_get|]. intros s _. destruct (base_metadata s). apply b_write_metadata. Qed.
Lemma b_group : pres kb any (write_group_metadata E).
Proof. unfold write_group_metadata. eapply pres_bind with (P := any); [apply b_get|]. intros s _. destruct (group_metadata s). apply b_write_metadata. Qed.
Lemma b_external : pres kb any (write_external_metadata E).
Proof. unfold write_external_metadata. eapply pres_bind with (P := any); [apply b_get|]. intros s _. destruct (String.eqb _ _); [apply pres_ret; exact I|]. apply b_write_metadata. Qed.
Lemma b_create : pres kb any (create_metadata_sinks E).
Proof.
  intros [s w] X. split; [|intros; exact I]. unfold create_metadata_sinks, bind at 1, getT. cbn [fst]. cbv zeta. unfold bind at 1, onT. cbn [fst snd].
  match goal with |- kb (fst (match (let '(_, _) := ?m w in _) with _ => _ end)) => destruct (m w) as [w' r] end. destruct r as [[l|]|e| |]; exact X.
Qed.
End New.
Lemma small_make v3 c a : make_writer v3 c = Ok a -> small (a_cfg a) 0 a.
Proof.
  intros X. split; [reflexivity|]. assert (B : a_bufs a = []) by (unfold make_writer in X; destruct v3; [destruct (number_of_shards (c_dims c)); try discriminate; cbn in X|]; injection X as <-; reflexivity). rewrite B.
  split; [constructor|]. unfold count0. change (zlen (@nil (list Z))) with 0. destruct (number_of_chunks_in_memory _); lia.
Qed.
Definition smalls (l : list writer) : Prop := Forall (fun a => small (a_cfg a) 0 a) l.
Lemma pyramid_smalls v3 : forall fuel c l, pyramid fuel v3 c = Ok l -> smalls l.
Proof.
  induction fuel as [|f IH]; intros c l; cbn [pyramid]; [discriminate|]. destruct (downsample c) as [[c' again]| | |]; try discriminate. cbn [obind].
  destruct (make_writer v3 c') as [a| | |] eqn:MW; try discriminate. cbn [obind]. destruct again.
  - destruct (pyramid f v3 c') as [l'| | |] eqn:P; try discriminate. intros X. injection X as <-. constructor; [eapply small_make; eauto|eapply IH; eauto].
  - intros X. injection X as <-. constructor; [eapply small_make; eauto|constructor].
Qed.
Lemma writers_smalls s l : create_writers s = Ok l -> smalls l.
Proof.
  unfold create_writers. destruct (make_writer (s_v3 s) (base_config s)) as [a| | |] eqn:MW; try discriminate. cbn [obind]. destruct (s_multi s).
  - destruct (pyramid pyramid_fuel (s_v3 s) (base_config s)) as [l'| | |] eqn:P; try discriminate. intros X. injection X as <-. constructor; [eapply small_make; eauto|eapply pyramid_smalls; eauto].
  - intros X. injection X as <-. constructor; [eapply small_make; eauto|constructor].
Qed.
Lemma create_mem E st w w' s : api_create E (Some st) w = (w', Ok (Some s)) ->
  exists s0 n, commit st = Ok s0 /\ bytes_of_frame (s_dims s0) (s_dtype s0) = Ok n /\ create_writers (set_fbuf s0 (zrep 0 n) 0) = Ok (s_writers s) /\ s_fbuf s = zrep 0 n.
Proof.
  unfold api_create, catchM, bind at 1. destruct (new_stream E (Some st) w) as [w1 [s1|m| |]] eqn:N; try discriminate. intros X. injection X as <- <-.
  revert N. unfold new_stream. destruct (validate_settings E w (Some st)) as [[]|e| |]; try discriminate. intros X.
  apply b_ok in X as (w2 & s0 & C & X). apply b_ok in X as (w3 & n & NB & X). cbv zeta in X. apply b_ok in X as (w4 & ok & _ & X). apply b_ok in X as (w5 & u & _ & X). apply b_ok in X as (w6 & ws & CW & X). apply l_ok in CW as [CW ->]. apply l_ok in C as [C ->]. apply l_ok in NB as [NB ->].
  exists s0, n. split; [exact C|]. split; [exact NB|]. rewrite CW.
  match type of X with (let '(_, _) := ?m (?s', ?w0) in _) = _ => set (s9 := s') in X; set (m0 := m) in X; set (w9 := w0) in X end. clearbody w9.
  assert (S2 : s_writers s9 = ws) by (unfold s9; cbn [s_multi set_writers set_fbuf]; destruct (s_multi s0); reflexivity).
  assert (S3 : s_fbuf s9 = zrep 0 n) by (unfold s9; cbn [s_multi set_writers set_fbuf]; destruct (s_multi s0); reflexivity).
  assert (K : pres (wr ws) any m0) by (unfold m0; repeat (eapply pres_bind with (P := any); [first [apply k_create|apply k_expect|apply k_base|apply k_group|apply k_external]|intros ? _]); apply k_expect).
  assert (K2 : pres (kb (zrep 0 n)) any m0) by (unfold m0; repeat (eapply pres_bind with (P := any); [first [apply b_create|apply b_expect|apply b_base|apply b_group|apply b_external]|intros ? _]); apply b_expect).
  destruct (K (s9, w9) S2) as [K1 _]. destruct (K2 (s9, w9) S3) as [K3 _]. destruct (m0 (s9, w9)) as [[s' w8] r]. destruct r as [u1|m| |]; try discriminate. injection X as _ <-. split; [f_equal; symmetry; exact K1|exact K3].
Qed.
Lemma smalls_all l : smalls l -> Forall2 (fun c a => small c 0 a) (map a_cfg l) l.
Proof. induction 1; cbn; constructor; auto. Qed.
(** what the invariant bounds *)
Definition room (F f : Z) (shape : list config) : Z := F + total (map (fun c => count0 c * (size0 c + grow c * f)) shape).
Lemma sum_le (l : list (list Z)) m : Forall (fun b => zlen b <= m) l -> total (map zlen l) <= zlen l * m.
Proof.
  induction 1 as [|b l X _ IH]; [reflexivity|]. cbn [map]. change (total (zlen b :: map zlen l)) with (zlen b + total (map zlen l)). assert (L : zlen (b :: l) = 1 + zlen l) by (unfold zlen; cbn [List.length]; lia). rewrite L. lia.
Qed.
Lemma ss_room shape F f s w : 0 <= f -> Ss shape F f (s, w) -> waiting s <= room F f shape.
Proof.
  intros P [X Y]. cbn [fst] in *. unfold waiting, room. rewrite Y. apply Z.add_le_mono_l. clear Y. induction X as [|c a l1 l2 H _ IH]; [reflexivity|]. destruct H as (A & B & C). apply sum_le in B.
  assert (0 <= size0 c + grow c * f). { pose proof (grow_nonneg c). assert (0 <= size0 c) by (unfold size0; destruct (bytes_per_chunk _ _); lia). nia. }
  assert (zlen (a_bufs a) * (size0 c + grow c * f) <= count0 c * (size0 c + grow c * f)) by (apply Z.mul_le_mono_nonneg_r; auto). cbn [map total fold_right]. unfold total in *. lia.
Qed.
Lemma run_room E st w w1 s calls w2 s2 rs : honest_compressor E \/ Forall (fun c => c_comp c = None) (map a_cfg (s_writers s)) -> api_create E (Some st) w = (w1, Ok (Some s)) -> api_appends E calls (s, w1) = ((s2, w2), Ok rs) ->
  waiting s2 <= room (zlen (s_fbuf s)) (failed rs) (map a_cfg (s_writers s)).
Proof.
  intros H C A. destruct (create_mem _ _ _ _ _ C) as (s0 & n & _ & _ & CW & _). apply writers_smalls in CW.
  assert (X : Ss (map a_cfg (s_writers s)) (zlen (s_fbuf s)) 0 (s, w1)) by (split; [apply smalls_all; exact CW|reflexivity]).
  pose proof (ss_appends E _ _ H calls 0 (s, w1) (s2, w2) rs ltac:(lia) X A) as G. eapply ss_room in G; [exact G|]. unfold failed, zlen. lia.
Qed.
(** every level has the compression of the stream *)
Lemma make_comp v3 c a : make_writer v3 c = Ok a -> c_comp (a_cfg a) = c_comp c.
Proof. intros X. unfold make_writer in X. destruct v3; [destruct (number_of_shards (c_dims c)); try discriminate; cbn in X|]; injection X as <-; reflexivity. Qed.
Lemma down_comp c c' b : downsample c = Ok (c', b) -> c_comp c' = c_comp c.
Proof. unfold downsample. cbv zeta. repeat (match goal with |- (match ?x with _ => _ end) = _ -> _ => destruct x | |- (let? _ := ?x in _) = _ -> _ => destruct x end; try discriminate; cbn [obind]); intros X; injection X as <- _; reflexivity. Qed.
Lemma pyramid_comp v3 : forall fuel c l, pyramid fuel v3 c = Ok l -> Forall (fun a => c_comp (a_cfg a) = c_comp c) l.
Proof.
  induction fuel as [|f IH]; intros c l; cbn [pyramid]; [discriminate|]. destruct (downsample c) as [[c' again]| | |] eqn:D; try discriminate. apply down_comp in D. cbn [obind].
  destruct (make_writer v3 c') as [a| | |] eqn:MW; try discriminate. apply make_comp in MW. cbn [obind]. destruct again.
  - destruct (pyramid f v3 c') as [l'| | |] eqn:P; try discriminate. intros X. injection X as <-. apply IH in P. constructor; [congruence|]. eapply Forall_impl; [|exact P]. cbn. congruence.
  - intros X. injection X as <-. constructor; [congruence|constructor].
Qed.
Lemma writers_comp s l : create_writers s = Ok l -> Forall (fun a => c_comp (a_cfg a) = s_comp s) l.
Proof.
  unfold create_writers. destruct (make_writer (s_v3 s) (base_config s)) as [a| | |] eqn:MW; try discriminate. apply make_comp in MW. cbn [obind]. destruct (s_multi s).
  - destruct (pyramid pyramid_fuel (s_v3 s) (base_config s)) as [l'| | |] eqn:P; try discriminate. intros X. injection X as <-. constructor; [exact MW|apply pyramid_comp in P; exact P].
  - intros X. injection X as <-. constructor; [exact MW|constructor].
Qed.
