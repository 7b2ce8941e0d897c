(** Where the pieces of a store live: paths never collide. *)
Require Import ZArith List Bool String Ascii Lia Zify.
Require Import Verif.Base Verif.Spec Verif.Dim Verif.Radix Verif.PathProofs
  Verif.World Verif.Writer Verif.SinkProofs Verif.CreateProofs Verif.FlushProofs.
Import ListNotations.
Open Scope string_scope.
Open Scope list_scope.
Open Scope Z_scope.

Definition data_comps (v3 : bool) (level q : Z) : list string :=
  if v3 then ["data"; "root"; dec level; ("c" ++ dec q)%string] else [dec level; dec q].
Definition meta_comps (v3 : bool) (level : Z) : list string :=
  if v3 then ["meta"; "root"; (dec level ++ ".array.json")%string] else [dec level; ".zarray"].

Lemma data_root_join a : data_root a = join_path (c_root (a_cfg a)) (data_comps (a_v3 a) (c_level (a_cfg a)) (a_append a)).
Proof.
  unfold data_root, data_comps. destruct (a_v3 a); cbn [join_path]; rewrite !sapp_assoc; auto.
Qed.
Lemma metadata_path_join a : metadata_path a = join_path (c_root (a_cfg a)) (meta_comps (a_v3 a) (c_level (a_cfg a))).
Proof.
  unfold metadata_path, meta_comps. destruct (a_v3 a); cbn [join_path]; rewrite !sapp_assoc; auto.
Qed.

Lemma no_slash_app a b : no_slash a -> no_slash b -> no_slash (a ++ b)%string.
Proof. intros. apply all_chars_app; auto. Qed.
Ltac ns := first [ apply dec_no_slash
                 | (unfold no_slash, all_chars; cbn; repeat (constructor; [discriminate|]); constructor) ].
Lemma data_comps_ns v3 level q : Forall no_slash (data_comps v3 level q).
Proof.
  destruct v3; unfold data_comps, meta_comps; repeat (apply Forall_cons; [first [ns | apply no_slash_app; ns]|]); apply Forall_nil.
Qed.
Lemma meta_comps_ns v3 level : Forall no_slash (meta_comps v3 level).
Proof.
  destruct v3; unfold data_comps, meta_comps; repeat (apply Forall_cons; [first [ns | apply no_slash_app; ns]|]); apply Forall_nil.
Qed.

(** ** "file:" *)
Lemma prefix_cons x s y t : String.prefix (String x s) (String y t) = true -> x = y /\ String.prefix s t = true.
Proof. cbn. destruct (ascii_dec x y); auto. discriminate. Qed.
Lemma strip_join root c cs : String.prefix "file:" root = false ->
  strip_file (join_path root (c :: cs)) = join_path root (c :: cs).
Proof.
  intros H. unfold strip_file. destruct (String.prefix "file://" (join_path root (c :: cs))) eqn:E; auto. exfalso.
  destruct (join_path_prefix root (c :: cs)) as (s & Hs & _ & Ht). destruct (Ht ltac:(discriminate)) as [t ->]. rewrite Hs in E.
  clear - H E. cbn [append] in E.
  repeat (destruct root as [|? root]; cbn [append] in E;
    [ repeat (apply prefix_cons in E as [? E]); discriminate
    | apply prefix_cons in E as [<- E]; cbn in H ]).
  congruence.
Qed.

Lemma root_join_nonempty root c cs : root <> "" -> join_path root (c :: cs) <> "".
Proof.
  intros H. destruct (join_path_prefix root (c :: cs)) as (s & -> & _). destruct root; [congruence|discriminate].
Qed.

Section Own.
Variables (v3 : bool) (root : string) (m : nat).

(** the files / objects of the array of resolution level [level] *)
Inductive own (level : Z) : string -> Prop :=
| own_data q l : 0 <= q -> Forall (fun i => 0 <= i) l -> List.length l = (m + 2)%nat ->
    own level (join_path root (data_comps v3 level q ++ map dec l))
| own_meta : own level (join_path root (meta_comps v3 level)).

Lemma comps_ns level q l : Forall no_slash (data_comps v3 level q ++ map dec l).
Proof. apply Forall_app. split; [apply data_comps_ns|apply coords_no_slash]. Qed.

Lemma data_inj level q l level' q' l' :
  0 <= level -> 0 <= level' -> 0 <= q -> 0 <= q' -> Forall (fun i => 0 <= i) l -> Forall (fun i => 0 <= i) l' ->
  join_path root (data_comps v3 level q ++ map dec l) = join_path root (data_comps v3 level' q' ++ map dec l') ->
  level = level' /\ q = q' /\ l = l'.
Proof.
  intros A B C D F G H. apply join_inj in H; try apply comps_ns.
  unfold data_comps in H. destruct v3; cbn [app] in H.
  - assert (H1 : dec level = dec level') by congruence.
    assert (H2 : ("c" ++ dec q)%string = ("c" ++ dec q')%string) by congruence.
    assert (H3 : map dec l = map dec l') by congruence.
    apply sapp_inj_l in H2. apply map_dec_inj in H3; auto. apply dec_inj in H1; auto. apply dec_inj in H2; auto.
  - assert (H1 : dec level = dec level') by congruence.
    assert (H2 : dec q = dec q') by congruence.
    assert (H3 : map dec l = map dec l') by congruence.
    apply map_dec_inj in H3; auto. apply dec_inj in H1; auto. apply dec_inj in H2; auto.
Qed.

Lemma data_not_meta level q l level' :
  0 <= level -> 0 <= q -> (1 <= List.length l)%nat ->
  join_path root (data_comps v3 level q ++ map dec l) <> join_path root (meta_comps v3 level').
Proof.
  intros A B C H. apply join_inj in H; [|apply comps_ns|apply meta_comps_ns].
  apply (f_equal (@List.length string)) in H. rewrite app_length, map_length in H.
  unfold data_comps, meta_comps in H. destruct v3; cbn [List.length] in H; lia.
Qed.
Lemma meta_inj level level' :
  0 <= level -> 0 <= level' -> join_path root (meta_comps v3 level) = join_path root (meta_comps v3 level') -> level = level'.
Proof.
  intros A B H. apply join_inj in H; try apply meta_comps_ns.
  unfold meta_comps in H. destruct v3.
  - assert (H1 : (dec level ++ ".array.json")%string = (dec level' ++ ".array.json")%string) by congruence.
    apply sapp_inj_r in H1. apply dec_inj; auto.
  - apply dec_inj; auto. congruence.
Qed.

Lemma own_level level level' p : 0 <= level -> 0 <= level' -> own level p -> own level' p -> level = level'.
Proof.
  intros A B H1 H2. destruct H1 as [q l Q1 Q2 Q3|]; inversion H2 as [q' l' R1 R2 R3 R4|R4].
  - apply data_inj in R4; auto. symmetry; tauto.
  - symmetry in R4. exfalso. eapply data_not_meta; [| | |exact R4]; auto; lia.
  - exfalso. eapply data_not_meta; [| | |exact R4]; auto; lia.
  - apply meta_inj in R4; auto.
Qed.

(** directories of data files *)
Definition data_dir (p : string) : Prop :=
  exists level q l, 0 <= level /\ 0 <= q /\ Forall (fun i => 0 <= i) l /\ (List.length l <= m + 1)%nat
    /\ p = join_path root (data_comps v3 level q ++ map dec l).
Lemma own_not_dir level p : 0 <= level -> own level p -> ~ data_dir p.
Proof.
  intros A H (lev & q & l & B1 & B2 & B3 & B4 & B5). destruct H as [q' l' R1 R2 R3|].
  - apply data_inj in B5; auto. destruct B5 as (_ & _ & <-). lia.
  - apply join_inj in B5; [|apply meta_comps_ns|apply comps_ns].
    unfold data_comps, meta_comps in B5. destruct v3; cbn [app] in B5; [discriminate|].
    assert (X2 : ".zarray" = dec q) by congruence.
    assert (H : all_chars is_digit ".zarray"%string).
    { rewrite X2. apply dec_digits. }
    unfold all_chars in H. cbn in H. inv H. unfold is_digit in H2. cbn in H2. lia.
Qed.

Definition level_ev (b : option string) (level : Z) (e : event) : Prop :=
  is_mkdir e \/ exists p, own level p /\ only (mkloc b p) e.

Lemma level_ev_no_remove b level e : level_ev b level e -> no_remove e.
Proof. intros [H|(p & _ & H)]; [apply mkdir_no_remove; auto|eapply only_no_remove; eauto]. Qed.
Lemma level_ev_not b level e p : level_ev b level e -> ~ own level p -> ~ affects (mkloc b p) e.
Proof.
  intros [H|(p' & H1 & H2)] Hn Ha; [eapply mkdir_affects; eauto|].
  pose proof (only_affects _ _ _ H2 Ha) as X. apply mkloc_inj in X. subst. tauto.
Qed.

(** no file sits where a data directory is needed *)
Definition free_dirs (E : env) (w : world) : Prop :=
  forall p, data_dir p -> file_of E (w_trace w) p = None.
Lemma free_dirs_ext E b level w w' : 0 <= level ->
  extends (level_ev b level) w w' -> free_dirs E w -> free_dirs E w'.
Proof.
  intros Hl Hx H p Hp. specialize (H p Hp).
  pose proof (extends_content E _ _ _ (LF p) Hx) as X. cbn [content] in X. rewrite X; auto.
  intros e He Ha. destruct He as [He|(p' & H1 & H2)]; [eapply mkdir_affects; eauto|].
  pose proof (only_affects _ _ _ H2 Ha) as Y. destruct b; cbn in Y; inversion Y; subst. eapply own_not_dir; eauto.
Qed.
Lemma free_dirs_dirs_free E w mids level q :
  List.length mids = m -> 0 <= level -> 0 <= q -> free_dirs E w ->
  dirs_free E (join_path root (data_comps v3 level q)) mids w.
Proof.
  intros Hm Hl Hq H l H1 H2. unfold path_of_coords. rewrite <- join_path_app. apply H.
  exists level, q, l. rewrite <- Hm. auto.
Qed.
End Own.
