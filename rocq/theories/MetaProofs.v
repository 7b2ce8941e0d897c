(** The metadata files of a store (make_metadata_sinks, write_metadata, finalize). *)
Require Import ZArith List Bool String Ascii Lia Zify.
Require Import Verif.Base Verif.Spec Verif.Dim Verif.Limits Verif.Radix Verif.PathProofs Verif.World Verif.Writer
  Verif.SinkProofs Verif.CreateProofs Verif.FlushProofs Verif.LayoutProofs Verif.Stream.
Import ListNotations.
Open Scope string_scope.
Open Scope list_scope.
Open Scope Z_scope.

Definition mnames (v3 : bool) : list string :=
  if v3 then ["zarr.json"; "meta/root.group.json"; "meta/acquire.json"]
  else [".zattrs"; ".zgroup"; "0/.zattrs"; "acquire.json"].
Definition mpath (root k : string) : string := (root ++ "/" ++ k)%string.

(** the name cut at its slashes *)
Definition mcomps (k : string) : list string :=
  if String.eqb k "meta/root.group.json" then ["meta"; "root.group.json"]
  else if String.eqb k "meta/acquire.json" then ["meta"; "acquire.json"]
  else if String.eqb k "0/.zattrs" then ["0"; ".zattrs"]
  else [k].

Lemma mpath_join root v3 k : In k (mnames v3) -> mpath root k = join_path root (mcomps k).
Proof.
  unfold mpath. intros H. destruct v3; cbn in H; decompose [or] H; subst; try contradiction;
    cbn [mcomps String.eqb Ascii.eqb Bool.eqb join_path]; rewrite ?sapp_assoc; auto.
Qed.
Lemma mcomps_ns v3 k : In k (mnames v3) -> Forall no_slash (mcomps k).
Proof.
  intros H. destruct v3; cbn in H; decompose [or] H; subst; try contradiction;
    cbn [mcomps String.eqb Ascii.eqb Bool.eqb]; repeat (apply Forall_cons; [ns|]); apply Forall_nil.
Qed.
Lemma mcomps_cons k : exists c cs, mcomps k = c :: cs.
Proof. unfold mcomps. repeat (destruct (String.eqb _ _)); eauto. Qed.
Lemma mpath_inj root k k' : mpath root k = mpath root k' -> k = k'.
Proof. unfold mpath. intros H. apply sapp_inj_l, sapp_inj_l in H. exact H. Qed.
Lemma mnames_nodup v3 : NoDup (mnames v3).
Proof. destruct v3; repeat constructor; cbn; intuition discriminate. Qed.

Lemma dec_not (n : Z) (s : string) c : In c (list_ascii_of_string s) -> ~ is_digit c -> dec n <> s.
Proof. intros H H2 <-. assert (D := dec_digits n). unfold all_chars in D. rewrite Forall_forall in D. exact (H2 (D _ H)). Qed.

Lemma array_json_not n s : (exists t, s = ("root" ++ t)%string) -> (dec n ++ ".array.json")%string <> s.
Proof.
  intros [t ->] H. assert (D := dec_digits n). assert (N := dec_nonempty n). destruct (dec n) as [|c r]; [congruence|].
  cbn in H. injection H as -> _. unfold all_chars in D. cbn in D. inversion D; subst. unfold is_digit in *. vm_compute in H1. lia.
Qed.

Section Paths.
Variables (v3 : bool) (root : string) (m : nat).

Lemma mpath_not_own k level : In k (mnames v3) -> ~ own v3 root m level (mpath root k).
Proof.
  intros H O. rewrite (mpath_join root v3 k H) in O. assert (N := mcomps_ns v3 k H).
  inversion O as [q l A B C Hp|Hp]; apply join_inj in Hp; auto using comps_ns, meta_comps_ns.
  - destruct v3; cbn in H; decompose [or] H; subst; try contradiction;
      cbn [mcomps String.eqb Ascii.eqb Bool.eqb data_comps app] in Hp; try discriminate;
      destruct l as [|? [|? ?]]; cbn in Hp, C; try discriminate; lia.
  - destruct v3; cbn in H; decompose [or] H; subst; try contradiction;
      cbn [mcomps String.eqb Ascii.eqb Bool.eqb meta_comps] in Hp; discriminate.
Qed.
Lemma mpath_not_dir k : In k (mnames v3) -> ~ data_dir v3 root m (mpath root k).
Proof.
  intros H (level & q & l & A & B & C & _ & Hp). rewrite (mpath_join root v3 k H) in Hp.
  apply join_inj in Hp; auto using comps_ns; [|apply (mcomps_ns v3 k H)].
  destruct v3; cbn in H; decompose [or] H; subst; try contradiction;
    cbn [mcomps String.eqb Ascii.eqb Bool.eqb data_comps app] in Hp; try discriminate.
  assert (X : dec q = ".zattrs") by congruence. revert X. apply (dec_not q _ "."%char); [left; auto|].
  intros D. unfold is_digit in D. vm_compute in D. lia.
Qed.
End Paths.

(** ** The sinks *)
Section Sinks.
Variable E : env.
Hypothesis HE : calm E.
Variables (v3 : bool) (root : string) (bk : option string).
Hypothesis Hroot : root <> "".
Hypothesis Hplain : bk = None -> String.prefix "file:" root = false.
Hypothesis Hbucket : bk <> Some "".

Definition kloc (k : string) : loc := mkloc bk (mpath root k).
Lemma kloc_inj k k' : kloc k = kloc k' -> k = k'.
Proof. intros H. apply mkloc_inj, mpath_inj in H. exact H. Qed.

Definition slot_holds (w : world) (ks : string * option sink) (kd : string * list Z) : Prop :=
  fst ks = fst kd /\ exists sk, snd ks = Some sk /\ loc_of sk = kloc (fst kd) /\ holds E w sk (snd kd).
Definition msinks_hold (w : world) (ms : list (string * option sink)) (docs : list (string * list Z)) : Prop :=
  Forall2 (slot_holds w) ms docs.

(** events on the metadata files named in [ks] *)
Definition meta_ev (ks : list string) (e : event) : Prop := is_mkdir e \/ exists k, In k ks /\ only (kloc k) e.

Lemma meta_ev_incl ks ks' e : (forall k, In k ks -> In k ks') -> meta_ev ks e -> meta_ev ks' e.
Proof. intros H [M|(k & A & B)]; [left; auto|right; exists k; auto]. Qed.
Lemma meta_ev_not ks e p : meta_ev ks e -> (forall k, In k ks -> p <> mpath root k) -> ~ affects (mkloc bk p) e.
Proof.
  intros [M|(k & A & B)] H C; [exact (mkdir_affects _ _ M C)|].
  apply (only_affects _ _ _ B) in C. apply mkloc_inj in C. exact (H k A C).
Qed.

Lemma msinks_hold_ext P w w' ms docs :
  extends P w w' -> (forall e k, P e -> In k (map fst docs) -> ~ affects (kloc k) e) ->
  msinks_hold w ms docs -> msinks_hold w' ms docs.
Proof.
  intros X HP H. unfold msinks_hold in *. induction H as [|ks kd ms docs (A & sk & B & C & D) H IH]; constructor.
  - split; auto. exists sk. split; auto. split; auto. eapply extends_holds; eauto. intros e He. rewrite C. apply HP; auto. left; auto.
  - apply IH. intros e k He Hk. apply HP; auto. right; auto.
Qed.

(** opening *)
Lemma open_files_ok (names : list string) : forall w acc docs,
  bk = None ->
  NoDup (names ++ map fst docs) ->
  Forall (fun n => dir_of E (w_trace w) (parent_path (mpath root n)) = true) names ->
  msinks_hold w acc docs ->
  exists w' ms,
    mfold (fun acc n => s <- file_sink E (root ++ "/" ++ n)%string ;; job_done (true, "") ;;; ret (acc ++ [(n, Some (SFile s))]))
          names acc w = (w', Ok ms)
    /\ extends (meta_ev names) w w' /\ msinks_hold w' ms (docs ++ map (fun n => (n, [])) names).
Proof.
  induction names as [|n names IH]; intros w acc docs Hb Hn Hd Hm.
  - exists w, acc. split; [reflexivity|]. split; [apply extends_refl|]. rewrite app_nil_r. exact Hm.
  - cbn [mfold]. inversion Hd as [|? ? Hd1 Hd2]; subst. cbn in Hn. inversion Hn as [|? ? Hn1 Hn2]; subst.
    destruct (file_sink_ok E (calm_fs E HE) (mpath root n) w Hd1) as (w1 & R1 & X1 & H1).
    assert (K : kloc n = LF (mpath root n)) by (unfold kloc; rewrite Hb; reflexivity).
    destruct (IH w1 (acc ++ [(n, Some (SFile (mkfsink (mpath root n) true)))]) (docs ++ [(n, [])])) as (w2 & ms & R2 & X2 & H2); auto.
    + rewrite map_app, app_assoc. cbn. apply NoDup_rev in Hn2. rewrite <- (rev_involutive (names ++ map fst docs)).
      apply NoDup_rev in Hn2. rewrite rev_involutive in *. apply NoDup_Add with (a := n) (l := names ++ map fst docs); auto.
      rewrite <- (app_nil_r (names ++ map fst docs)) at 1. apply Add_app.
    + eapply Forall_impl; [|exact Hd2]. intros k Hk. eapply extends_dir; [exact X1| |exact Hk]. apply only_no_remove.
    + apply Forall2_app.
      * eapply msinks_hold_ext; [exact X1| |exact Hm]. intros e k He Hk A. apply (only_affects _ _ _ He) in A.
        rewrite <- K in A. apply kloc_inj in A. subst k. apply Hn1. apply in_or_app; auto.
      * constructor; [|constructor]. split; auto. exists (SFile (mkfsink (mpath root n) true)). split; auto.
    + exists w2, ms. split; [|split].
      * erewrite bind_ok; [exact R2|]. erewrite bind_ok by exact R1. reflexivity.
      * eapply extends_trans; [eapply extends_impl; [|exact X1]|eapply extends_impl; [|exact X2]].
        -- intros e He. right. exists n. split; [left; auto|]. rewrite K. exact He.
        -- intros e. apply meta_ev_incl. intros; right; auto.
      * rewrite <- app_assoc in H2. exact H2.
Qed.

Lemma open_objects_ok b (names : list string) : forall w acc docs,
  bk = Some b -> (0 < w_conns w)%nat ->
  msinks_hold w acc docs ->
  exists ms,
    mfold (fun acc n => s <- s3_sink b (root ++ "/" ++ n)%string ;; ret (acc ++ [(n, Some (SS3 s))])) names acc w = (w, Ok ms)
    /\ msinks_hold w ms (docs ++ map (fun n => (n, [])) names).
Proof.
  induction names as [|n names IH]; intros w acc docs Hb Hc Hm.
  - exists acc. split; [reflexivity|]. rewrite app_nil_r. exact Hm.
  - cbn [mfold].
    assert (Nb : b <> "") by (intros ->; apply Hbucket; exact Hb).
    assert (Nk : mpath root n <> "") by (apply nonempty_app; auto).
    assert (R1 : s3_sink b (mpath root n) w = (w, Ok (mks3 b (mpath root n) [] 0 0 None))).
    { unfold s3_sink. apply String.eqb_neq in Nb, Nk. rewrite Nb, Nk. reflexivity. }
    destruct (IH w (acc ++ [(n, Some (SS3 (mks3 b (mpath root n) [] 0 0 None)))]) (docs ++ [(n, [])])) as (ms & R2 & H2); auto.
    + apply Forall2_app; auto. constructor; [|constructor]. split; auto.
      exists (SS3 (mks3 b (mpath root n) [] 0 0 None)). split; auto. split; [unfold kloc; rewrite Hb; reflexivity|].
      cbn. split; auto. unfold holds_s3. cbn. repeat split; auto; try lia; try discriminate.
      exists []. auto.
    + exists ms. split.
      * erewrite bind_ok; [exact R2|]. erewrite bind_ok by exact R1. reflexivity.
      * rewrite <- app_assoc in H2. exact H2.
Qed.

(** ** Creation *)
Lemma strip_plain p : String.prefix "file:" p = false -> strip_file p = p.
Proof.
  intros H. unfold strip_file. destruct (String.prefix "file://" p) eqn:X; auto. exfalso.
  destruct (prefix_spec _ _ X) as [c ->]. cbn in H. discriminate.
Qed.
Lemma under_join c cs : under root (join_path root (c :: cs)) = true.
Proof.
  destruct (join_path_prefix root (c :: cs)) as (s & Hs & _ & Ht). destruct (Ht ltac:(discriminate)) as [t ->].
  unfold under. rewrite Hs. rewrite <- sapp_assoc. rewrite prefix_app. apply orb_true_r.
Qed.

(** nothing below the root yet *)
Definition fresh (w : world) : Prop := forall p, under root p = true -> file_of E (w_trace w) p = None.

Lemma names_nodup : NoDup (mnames v3 ++ map fst (@nil (string * list Z))).
Proof. rewrite app_nil_r. apply mnames_nodup. Qed.

Lemma create_metadata_sinks_ok s w :
  s_v3 s = v3 -> s_root s = root -> s_bucket s = bk ->
  (bk = None -> fresh w) -> (bk <> None -> (0 < w_conns w)%nat) ->
  exists ms w', create_metadata_sinks E (s, w) = ((set_msinks s ms, w'), Ok true)
    /\ extends (meta_ev (mnames v3)) w w' /\ msinks_hold w' ms (map (fun n => (n, [])) (mnames v3)).
Proof.
  intros H1 H2 H3 Hf Hc. unfold create_metadata_sinks.
  assert (Hv : metadata_paths (if v3 then 3 else 2) = Ok (mnames v3)) by (destruct v3; reflexivity).
  assert (K : exists ms w',
    (match bk with
     | Some b => make_metadata_sinks_s3 E (if v3 then 3 else 2) b root
     | None => l <- make_metadata_sinks_fs E (if v3 then 3 else 2) root ;; ret (Some l)
     end) w = (w', Ok (Some ms)) /\ extends (meta_ev (mnames v3)) w w' /\ msinks_hold w' ms (map (fun n => (n, [])) (mnames v3))).
  { assert (Cb : (exists b, bk = Some b) \/ bk = None) by (destruct bk; eauto).
    destruct Cb as [[b Eb]|Eb]; rewrite Eb.
    - assert (Nb : b <> "") by (intros ->; apply Hbucket; auto).
      assert (Hc' : (0 < w_conns w)%nat) by (apply Hc; congruence).
      unfold make_metadata_sinks_s3. apply String.eqb_neq in Nb. assert (Nr := Hroot). apply String.eqb_neq in Nr.
      rewrite Nb, Nr. cbn [negb expectM].
      destruct (w_conns w) as [|nc] eqn:Ec; [lia|].
      set (w1 := mkworld (w_trace w) (S (w_tick w)) (w_conns w) (w_err w)).
      assert (B : bucket_exists E b w = (w1, Ok true)).
      { unfold bucket_exists. rewrite Nb. cbn [negb expectM]. unfold bind, ret, get_connection. rewrite Ec.
        cbn. rewrite (calm_s3 E HE). unfold w1. rewrite Ec. reflexivity. }
      destruct (open_objects_ok b (mnames v3) w1 [] []) as (ms & R & Hm); auto; [cbn; lia|constructor|].
      exists ms, w1. split; [|split; [|exact Hm]].
      + unfold bind at 1 2, ret at 1 2. erewrite bind_ok by exact B. cbv iota.
        rewrite Hv. unfold bind at 1, liftM. erewrite bind_ok by exact R. reflexivity.
      + exists []. cbn. rewrite app_nil_r. auto.
    - specialize (Hf Eb). assert (Hp := Hplain Eb).
      unfold make_metadata_sinks_fs. rewrite (strip_plain _ Hp). assert (Nr := Hroot). apply String.eqb_neq in Nr. rewrite Nr.
      cbn [negb expectM]. rewrite Hv.
      destruct (make_dirs_ok E (calm_fs E HE) (calm_stat E HE) [root] w) as (w1 & R1 & X1 & D1).
      { constructor; [|constructor]. split; auto. apply Hf. apply under_refl. }
      set (dn := if v3 then "meta" else "0").
      assert (Hdn : map (fun d => (root ++ "/" ++ d)%string) (metadata_dirs (if v3 then 3 else 2)) = [(root ++ "/" ++ dn)%string])
        by (unfold dn; destruct v3; reflexivity).
      destruct (make_dirs_ok E (calm_fs E HE) (calm_stat E HE) [(root ++ "/" ++ dn)%string] w1) as (w2 & R2 & X2 & D2).
      { constructor; [|constructor]. split; [apply nonempty_app; auto|].
        change (content E (w_trace w1) (LF (root ++ "/" ++ dn)%string) = None).
        rewrite (extends_content E is_mkdir w w1 _ X1); [|intros e He; apply mkdir_affects; auto].
        apply Hf. apply (under_join dn []). }
      assert (Y2 : extends is_mkdir w w2) by (eapply extends_trans; eauto).
      assert (D1' := Forall_inv D1). assert (D2' := Forall_inv D2). cbv beta in D1', D2'.
      assert (D1'' : dir_of E (w_trace w2) root = true).
      { eapply extends_dir; [exact X2| |exact D1']. intros e. apply mkdir_no_remove. }
      destruct (open_files_ok (mnames v3) w2 [] []) as (w3 & ms & R3 & X3 & Hm); auto.
      + apply names_nodup.
      + apply Forall_forall. intros k Hk. rewrite (mpath_join root v3 k Hk). unfold dn in D2'.
        destruct v3; cbn in Hk; decompose [or] Hk; subst; try contradiction;
          cbn [mcomps String.eqb Ascii.eqb Bool.eqb join_path]; (rewrite parent_snoc; [assumption|ns]).
      + constructor.
      + exists ms, w3. split; [|split; [|exact Hm]].
        * erewrite bind_ok; [reflexivity|]. unfold bind at 1 2, ret at 1, liftM at 1.
          erewrite bind_ok by exact R1. cbn [expectM]. unfold bind at 1, ret at 1. rewrite Hdn.
          erewrite bind_ok by exact R2. cbn [expectM]. unfold bind at 1, ret at 1. exact R3.
        * eapply extends_trans; [|exact X3]. eapply extends_impl; [|exact Y2]. intros e He. left; auto. }
  destruct K as (ms & w' & R & X & Hm). exists ms, w'. split; [|split]; auto.
  unfold bind at 1, getT. cbn [fst]. rewrite H1, H2, H3. unfold onT at 1, bind at 1. cbn [snd fst]. unfold catchM.
  erewrite bind_ok by exact R. reflexivity.
Qed.

(** ** Writing *)
Lemma find_key_nth ms : forall i k o, NoDup (map fst ms) -> nth_error ms i = Some (k, o) -> find_key k ms = Some i.
Proof.
  induction ms as [|[k0 o0] ms IH]; intros i k o N H; [destruct i; discriminate|].
  cbn in N. inversion N as [|? ? N1 N2]; subst. destruct i as [|i]; cbn in *.
  - injection H as -> ->. rewrite eqb_self. reflexivity.
  - destruct (String.eqb k k0) eqn:X.
    + apply String.eqb_eq in X. subst. exfalso. apply N1. apply nth_error_In in H. apply (in_map fst) in H. exact H.
    + rewrite (IH i k o N2 H). reflexivity.
Qed.
Lemma hold_keys w ms docs : msinks_hold w ms docs -> map fst ms = map fst docs.
Proof. intros H. induction H as [|a b ms docs (A & _) H IH]; cbn; congruence. Qed.
Lemma Forall2_nth {A B} (R : A -> B -> Prop) l1 l2 : Forall2 R l1 l2 -> forall i b, nth_error l2 i = Some b -> exists a, nth_error l1 i = Some a /\ R a b.
Proof. induction 1; intros i b H1; destruct i; cbn in *; try discriminate; [injection H1 as <-; eauto|eauto]. Qed.
Lemma upd_S {A} (x : A) l i a : upd (x :: l) (S i) a = x :: upd l i a.
Proof. reflexivity. Qed.
Lemma Forall2_upd {A B} (R R' : A -> B -> Prop) l1 l2 : Forall2 R l1 l2 -> forall i a b,
  (forall j x y, j <> i -> nth_error l1 j = Some x -> nth_error l2 j = Some y -> R x y -> R' x y) -> R' a b ->
  (i < List.length l1)%nat -> Forall2 R' (upd l1 i a) (upd l2 i b).
Proof.
  induction 1 as [|x y l1 l2 Hxy H IH]; intros i a b Hr Hab Hi; cbn in Hi; [lia|].
  destruct i as [|i].
  - unfold upd. cbn. constructor; auto. clear IH. assert (G : forall j x y, nth_error l1 j = Some x -> nth_error l2 j = Some y -> R x y -> R' x y).
    { intros j x' y' A1 A2. apply (Hr (S j)); auto. }
    clear - H G. induction H; constructor; auto; [apply (G O); auto|apply IHForall2; intros j x' y'; apply (G (S j))].
  - rewrite !upd_S. constructor; [apply (Hr O); auto|]. apply IH; auto; [|lia]. intros j x' y' Hj. apply (Hr (S j)). congruence.
Qed.

Lemma write_metadata_ok s w docs i k c d err :
  msinks_hold w (s_msinks s) docs -> NoDup (map fst docs) -> nth_error docs i = Some (k, c) ->
  (c = [] /\ zlen d < 2 ^ 64 \/ zlen c <= zlen d /\ (bk = None \/ zlen d < part_size)) ->
  exists ms w', write_metadata E k d err (s, w) = ((set_msinks s ms, w'), Ok true)
    /\ extends (only (kloc k)) w w' /\ msinks_hold w' ms (upd docs i (k, d)).
Proof.
  intros Hm N Hi Hsz. assert (Hk := hold_keys _ _ _ Hm).
  destruct (Forall2_nth _ _ _ Hm i _ Hi) as ([k' o] & Hi' & (A & sk & B & C & Hh)). cbn in A, B, C, Hh. subst k' o.
  assert (W : exists sk' w', sink_write E 0 d (sk, w) = ((sk', w'), Ok true) /\ extends (only (loc_of sk)) w w' /\ loc_of sk' = loc_of sk /\ holds E w' sk' d).
  { destruct Hsz as [[-> Hd]|[Hc Hd]].
    - exact (sink_write_ok E w sk [] d HE Hh Hd).
    - destruct (sink_rewrite_ok E HE w sk c d Hh Hc) as (sk' & w' & R & X & Y).
      { destruct Hd as [Hd|Hd]; [left|right; auto]. rewrite C. unfold kloc. rewrite Hd. eexists; reflexivity. }
      exists sk', w'. split; [exact R|]. split; [|exact Y]. eapply extends_impl; [|exact X]. intros e [He _]. exact He. }
  destruct W as (sk' & w' & R & X & L & H'). rewrite C in X, L.
  exists (upd (s_msinks s) i (k, Some sk')), w'. split; [|split; auto].
  - unfold write_metadata. rewrite (find_key_nth (s_msinks s) i k (Some sk)); [|rewrite Hk; exact N|exact Hi'].
    rewrite (nth_error_nth (s_msinks s) i (k, None) Hi'). rewrite R. reflexivity.
  - apply (Forall2_upd _ (slot_holds w') _ _ Hm).
    + intros j [x1 x2] [y1 y2] Hj Hx Hy (A1 & s1 & A2 & A3 & A4). split; auto. exists s1. cbn in *. split; auto. split; auto.
      eapply extends_holds; [exact X| |exact A4]. intros e He Ha. apply (only_affects _ _ _ He) in Ha. rewrite A3 in Ha.
      apply kloc_inj in Ha. subst y1. apply Hj. apply (proj1 (NoDup_nth_error (map fst docs)) N).
      * rewrite map_length. apply nth_error_Some. congruence.
      * rewrite !nth_error_map, Hy, Hi. cbn. congruence.
    + split; auto. exists sk'. cbn. auto.
    + apply nth_error_Some. congruence.
Qed.

(** ** Finalization *)
Lemma finalize_empty_s3 w b : holds E w (SS3 b) [] -> finalize_sink E (Some (SS3 b), w) = ((None, w), Ok true).
Proof.
  intros [(H1 & H2 & H3 & H4 & up & Hc & Hu & Hmp) Hn].
  symmetry in Hc. apply app_eq_nil in Hc as [-> Hc].
  assert (Z0 : s_nbuf b = 0).
  { assert (X : zlen (slice (s_buf b) 0 (s_nbuf b)) = 0) by (rewrite Hc; reflexivity). rewrite slice_0_len in X by lia. exact X. }
  destruct (s_mp b) as [[id parts]|] eqn:Em.
  - destruct Hmp as (ps & _ & Hne & Hcc & _ & Hf & _). exfalso. destruct ps as [|p ps]; [congruence|].
    cbn in Hcc. symmetry in Hcc. apply app_eq_nil in Hcc as [-> _]. inversion Hf as [|? ? Hp _]; subst. vm_compute in Hp. discriminate.
  - unfold finalize_sink, sink_flush. cbn [fst]. unfold runS, s3_flush, bind, getS. cbn [snd fst]. rewrite Em, Z0. cbn. reflexivity.
Qed.

(** what a metadata file holds at the end: an empty object is never created *)
Definition doc_stored (tr0 tr : list event) (kd : string * list Z) : Prop :=
  if (match snd kd with [] => true | _ => false end) && (match bk with Some _ => true | None => false end)
  then content E tr (kloc (fst kd)) = content E tr0 (kloc (fst kd))
  else content E tr (kloc (fst kd)) = Some (snd kd).

Lemma doc_stored_frame P w0 w w' kd : extends P w w' -> (forall e, P e -> ~ affects (kloc (fst kd)) e) ->
  doc_stored (w_trace w0) (w_trace w) kd -> doc_stored (w_trace w0) (w_trace w') kd.
Proof. intros X H D. unfold doc_stored in *. rewrite (extends_content E P w w' _ X H). exact D. Qed.

Lemma finalize_one w k c sk :
  loc_of sk = kloc k -> holds E w sk c -> zlen c < 2 ^ 64 ->
  exists w', finalize_sink E (Some sk, w) = ((None, w'), Ok true) /\ extends (only (kloc k)) w w' /\ doc_stored (w_trace w) (w_trace w') (k, c).
Proof.
  intros L H Hc. unfold doc_stored. cbn [fst snd].
  assert (G : (c <> [] \/ exists f, sk = SFile f) -> exists w', finalize_sink E (Some sk, w) = ((None, w'), Ok true) /\ extends (only (kloc k)) w w' /\ content E (w_trace w') (kloc k) = Some c).
  { intros G. destruct (finalize_sink_ok E w sk c HE H Hc G) as (w' & R & X & Y). rewrite L in *. exists w'. auto. }
  destruct sk as [f|b].
  - assert (Hb : bk = None) by (unfold kloc in L; destruct bk; [discriminate|reflexivity]). rewrite Hb. rewrite andb_false_r. apply G. eauto.
  - assert (Hb : exists b', bk = Some b') by (unfold kloc in L; destruct bk; [eauto|discriminate]). destruct Hb as [b' Hb]. rewrite Hb, andb_true_r.
    destruct c as [|x c]; [|apply G; left; discriminate].
    exists w. split; [apply finalize_empty_s3; auto|]. split; [apply extends_refl|reflexivity].
Qed.

Lemma nth_error_upd {A} (l : list A) i j a : (i < List.length l)%nat -> nth_error (upd l i a) j = if Nat.eqb i j then Some a else nth_error l j.
Proof.
  revert i j. induction l as [|x l IH]; intros i j Hi; cbn in Hi; [lia|]. destruct i as [|i].
  - unfold upd. cbn. destruct j; reflexivity.
  - rewrite upd_S. destruct j as [|j]; [reflexivity|]. cbn. apply IH. lia.
Qed.

Lemma finalize_msinks_ok docs s w0 w : 
  msinks_hold w (s_msinks s) docs -> NoDup (map fst docs) -> Forall (fun kd => zlen (snd kd) < 2 ^ 64) docs -> w0 = w ->
  exists ms w', all_ok (finalize_msink E) (seq 0 (List.length (s_msinks s))) (s, w) = ((set_msinks s ms, w'), Ok true)
    /\ extends (meta_ev (map fst docs)) w w' /\ Forall (doc_stored (w_trace w0) (w_trace w')) docs.
Proof.
  intros Hm N Hs ->.
  (* generalise: entries before position p are done *)
  assert (G : forall n p ms w1, (p + n = List.length docs)%nat -> List.length ms = List.length docs ->
     extends (meta_ev (map fst docs)) w w1 ->
     (forall j kd, (j < p)%nat -> nth_error docs j = Some kd -> doc_stored (w_trace w) (w_trace w1) kd) ->
     (forall j kd, (p <= j)%nat -> nth_error docs j = Some kd ->
        (exists ks, nth_error ms j = Some ks /\ slot_holds w1 ks kd) /\ content E (w_trace w1) (kloc (fst kd)) = content E (w_trace w) (kloc (fst kd))) ->
     exists ms' w', all_ok (finalize_msink E) (seq p n) (set_msinks s ms, w1) = ((set_msinks s ms', w'), Ok true)
       /\ extends (meta_ev (map fst docs)) w w' /\ Forall (doc_stored (w_trace w) (w_trace w')) docs).
  { induction n as [|n IH]; intros p ms w1 Hp Hl X D H.
    - exists ms, w1. split; [reflexivity|]. split; auto. apply Forall_forall. intros kd Hin. apply In_nth_error in Hin as [j Hj].
      apply (D j); auto. assert (j < List.length docs)%nat by (apply nth_error_Some; congruence). lia.
    - destruct (nth_error docs p) as [[k c]|] eqn:Ep; [|apply nth_error_None in Ep; lia].
      destruct (H p _ (le_n p) Ep) as [([k' o] & Hks & (A & sk & B & C & Hh)) Hold]. cbn in A, B, C, Hh. subst k' o.
      assert (Hc : zlen c < 2 ^ 64) by (rewrite Forall_forall in Hs; exact (Hs _ (nth_error_In _ _ Ep))).
      destruct (finalize_one w1 k c sk C Hh Hc) as (w2 & R & X2 & D2).
      assert (Y : extends (meta_ev (map fst docs)) w w2).
      { eapply extends_trans; [exact X|]. eapply extends_impl; [|exact X2]. intros e He. right. exists k. split; auto.
        apply nth_error_In in Ep. apply (in_map fst) in Ep. exact Ep. }
      assert (Other : forall j kd, j <> p -> nth_error docs j = Some kd -> forall e, only (kloc k) e -> ~ affects (kloc (fst kd)) e).
      { intros j kd Hj Hkd e He Ha. apply (only_affects _ _ _ He) in Ha. apply kloc_inj in Ha. apply Hj.
        apply (proj1 (NoDup_nth_error (map fst docs)) N); [rewrite map_length; apply nth_error_Some; congruence|].
        rewrite !nth_error_map, Hkd, Ep. cbn. congruence. }
      destruct (IH (S p) (upd ms p (k, None)) w2) as (ms' & w' & R' & X' & D'); auto.
      + lia.
      + rewrite <- Hl. unfold upd. rewrite app_length, firstn_length. assert (p < List.length ms)%nat by lia.
        assert (L0 := skipn_length p ms). destruct (skipn p ms); cbn in *; lia.
      + intros j kd Hj Hkd. destruct (Nat.eq_dec j p) as [->|Hne].
        * rewrite Ep in Hkd. injection Hkd as <-. unfold doc_stored in *. cbn [fst snd] in *.
          destruct (_ && _); [|exact D2]. rewrite D2. exact Hold.
        * eapply doc_stored_frame; [exact X2|apply (Other j kd Hne Hkd)|]. apply (D j); auto. lia.
      + intros j kd Hj Hkd. destruct (H j kd) as [([k2 o2] & Hks2 & (A2 & sk2 & B2 & C2 & Hh2)) Ho2]; auto; [lia|].
        assert (Oj := Other j kd ltac:(lia) Hkd). split.
        * exists (k2, o2). split; [rewrite nth_error_upd by lia; destruct (Nat.eqb_spec p j); [lia|auto]|].
          split; auto. exists sk2. split; auto. split; auto. eapply extends_holds; [exact X2| |exact Hh2]. rewrite C2. exact Oj.
        * rewrite (extends_content E _ _ _ _ X2 Oj). exact Ho2.
      + exists ms', w'. split; [|split]; auto. cbn [seq all_ok].
        rewrite (bind_ok (finalize_msink E p) _ (set_msinks s ms, w1) (set_msinks s (upd ms p (k, None)), w2) true); [exact R'|]. unfold finalize_msink. change (s_msinks (set_msinks s ms)) with ms. rewrite Hks. rewrite R. reflexivity. }
  assert (Hl : List.length (s_msinks s) = List.length docs) by (rewrite <- (map_length fst), (hold_keys _ _ _ Hm), map_length; reflexivity).
  assert (Es : set_msinks s (s_msinks s) = s) by (destruct s; reflexivity). rewrite Hl.
  destruct (G (List.length docs) O (s_msinks s) w) as (ms' & w' & RR); auto; [apply extends_refl|intros; lia| |rewrite Es in RR; eauto].
  intros j kd _ Hkd. split; auto. exact (Forall2_nth _ _ _ Hm j kd Hkd).
Qed.
End Sinks.
