(** C38: everything a session stores has a place of its own. [item], [where_is], [sensible] are in LayoutSpec.v. *)
Require Import ZArith List Bool String Ascii Lia.
Require Import Verif.Base Verif.Spec Verif.Dim Verif.Limits Verif.World Verif.SinkProofs Verif.FlushProofs Verif.LayoutProofs Verif.MetaProofs Verif.LevelProofs Verif.Stream Verif.Api
  Verif.SettingsSpec Verif.SessionSpec Verif.StreamProofs Verif.SessionProofs Verif.PyramidSpec Verif.StoreSpec Verif.ChunkStore Verif.StoreProofs Verif.LayoutSpec Verif.ItemProofs Verif.ExamplesUse Verif.Examples.
Import ListNotations.
Open Scope string_scope.
Open Scope list_scope.
Open Scope Z_scope.

(** Chunks and shards of all levels, array documents and documents of the store: different things have different paths. *)
Theorem C38_distinct_paths : forall v3 root n a b,
  (1 <= n)%nat -> sensible v3 n a -> sensible v3 n b -> where_is v3 root a = where_is v3 root b -> a = b.
Proof.
  intros v3 root n a b Hn Ha Hb E. eapply nothing_inside; eauto. rewrite E. unfold under. rewrite String.eqb_refl. reflexivity.
Qed.
(** No file of a store lies below another one: none has to be a directory. *)
Theorem C38_no_file_is_a_directory : forall v3 root n a b x,
  (1 <= n)%nat -> sensible v3 n a -> sensible v3 n b -> where_is v3 root b <> (where_is v3 root a ++ "/" ++ x)%string.
Proof.
  intros v3 root n a b x Hn Ha Hb E.
  assert (U : under (where_is v3 root a) (where_is v3 root b) = true) by (rewrite E; unfold under; rewrite <- PathProofs.sapp_assoc, PathProofs.prefix_app; apply orb_true_r).
  pose proof (nothing_inside _ _ _ _ _ Hn Ha Hb U) as <-. apply (f_equal String.length) in E. rewrite !PathProofs.slength_app in E. cbn in E. lia.
Qed.

(** A session creates and changes nothing else: whatever file or object it touches is the place of exactly one item, of a level of the store. *)
Theorem C38_every_write_has_one_item : forall u groups, fair_use u -> whole_frames u groups ->
  let v3 := st_version (u_set u) =? 3 in let n := (List.length (u_mids u) + 2)%nat in
  exists evs, w_trace (after u groups) = w_trace (u_world u) ++ evs /\
    forall e, In e evs -> about_contents e ->
      exists p, handles (u_bk u) e p /\
        exists it, sensible v3 n it /\ p = where_is v3 (u_root u) it /\ level_is it (fun l => exists i, is_level u i /\ l = Z.of_nat i) /\
          forall it', sensible v3 n it' -> p = where_is v3 (u_root u) it' -> it' = it.
Proof.
  intros u groups HU HG v3 n. unfold after. destruct (session_ok u HU groups HG) as (w0 & w' & R & _ & _ & (evs & V & W) & _). rewrite R. cbn [fst].
  exists evs. split; [exact V|]. intros e He Hc. rewrite Forall_forall in W. specialize (W e He).
  assert (K : forall p it, only (mkloc (u_bk u) p) e -> sensible v3 n it -> p = where_is v3 (u_root u) it -> level_is it (fun l => exists i, is_level u i /\ l = Z.of_nat i) ->
    exists p, handles (u_bk u) e p /\ exists it, sensible v3 n it /\ p = where_is v3 (u_root u) it /\ level_is it (fun l => exists i, is_level u i /\ l = Z.of_nat i) /\
          forall it', sensible v3 n it' -> p = where_is v3 (u_root u) it' -> it' = it).
  { intros p it O Hs Hp Hl. exists p. split.
    - unfold mkloc in O. destruct e; cbn in *; try contradiction; destruct (u_bk u); try discriminate; injection O; intros; subst; auto.
    - exists it. split; [exact Hs|]. split; [exact Hp|]. split; [exact Hl|]. intros it' Hs' Hp'. apply (C38_distinct_paths v3 (u_root u) n); auto; [unfold n; lia|]. congruence. }
  destruct W as [W| ->]; [|destruct Hc]. destruct W as [(i & L & HL & W)|W].
  - destruct (u_lgood u HU i L HL) as [_ HLi]. assert (IL : is_level u i) by (apply (is_level_nth u HU); eauto).
    destruct W as [W|(p & W & O)]; [destruct e; cbn in W, Hc; contradiction|]. destruct W as [q l Hq Hl Hn|].
    + apply (K _ (Piece (l_level L) q l) O).
      * cbn. rewrite HLi. repeat split; auto; lia.
      * symmetry. refine (where_join _ _ n _ _). cbn. rewrite HLi. repeat split; auto; lia.
      * cbn. eauto.
    + apply (K _ (ArrayDoc (l_level L)) O).
      * cbn. lia.
      * symmetry. refine (where_join _ _ n _ _). cbn. lia.
      * cbn. eauto.
  - destruct W as [W|(k & Hk & O)]; [destruct e; cbn in W, Hc; contradiction|]. apply (K _ (StoreDoc k) O).
    + exact Hk.
    + reflexivity.
    + exact I.
Qed.

(** *** The hypotheses can be met *)
Lemma opened_in p tr : existsb (fun e => match e with EOpen q => String.eqb q p | _ => false end) tr = true -> exists e, In e tr /\ handles None e p.
Proof.
  intros X. apply existsb_exists in X as (e & He & X). exists e. split; [exact He|]. destruct e; try discriminate. apply String.eqb_eq in X. subst. split; reflexivity.
Qed.
Example C38_hypotheses : let u := ex_comp 3 false true in let groups := ex_groups 1 20 in
  fair_use u /\ whole_frames u groups /\ (exists e, In e (w_trace (after u groups)) /\ handles (u_bk u) e "out/data/root/2/c0/0/0/0") /\
  sensible true 3 (Piece 2 0 [0; 0; 0]) /\ where_is true "out" (Piece 2 0 [0; 0; 0]) = "out/data/root/2/c0/0/0/0" /\
  sensible false 3 (Piece 0 11 [1; 2; 3]) /\ sensible false 3 (Piece 0 1 [11; 2; 3]) /\ where_is false "out" (Piece 0 11 [1; 2; 3]) = "out/0/11/1/2/3".
Proof.
  split; [apply ex_comp_fair; auto|]. split; [apply ex_frames_whole; lia|]. split.
  - apply opened_in. vm_compute. reflexivity.
  - split; [cbn; repeat split; repeat constructor; lia|]. split; [vm_compute; reflexivity|].
    split; [cbn; repeat split; repeat constructor; lia|]. split; [cbn; repeat split; repeat constructor; lia|vm_compute; reflexivity].
Qed.

Print Assumptions C38_distinct_paths.
Print Assumptions C38_no_file_is_a_directory.
Print Assumptions C38_every_write_has_one_item.
