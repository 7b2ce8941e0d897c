(** Paths of different things differ, and no file is a directory of another. *)
Require Import ZArith List Bool String Ascii Lia.
Require Import Verif.Base Verif.Spec Verif.World Verif.PathProofs Verif.SinkProofs Verif.LayoutProofs Verif.MetaProofs Verif.LayoutSpec.
Import ListNotations.
Open Scope string_scope. Open Scope list_scope. Open Scope Z_scope.

Definition comps (v3 : bool) (it : item) : list string :=
  match it with
  | Piece l q cc => data_comps v3 l q ++ map dec cc
  | ArrayDoc l => meta_comps v3 l
  | StoreDoc k => mcomps k
  end.
Lemma where_join v3 root n it : sensible v3 n it -> where_is v3 root it = join_path root (comps v3 it).
Proof.
  destruct it as [l q cc|l|k]; intros H; cbn [where_is comps].
  - destruct v3; cbn [data_comps shard_key path_of_coords app join_path map]; unfold path_of_coords; f_equal; rewrite ?sapp_assoc; reflexivity.
  - destruct v3; cbn [meta_comps join_path]; rewrite ?sapp_assoc; reflexivity.
  - rewrite <- (mpath_join root v3 k); [reflexivity|exact H].
Qed.
Lemma comps_clean v3 n it : sensible v3 n it -> Forall no_slash (comps v3 it).
Proof.
  destruct it as [l q cc|l|k]; intros H; cbn [comps].
  - apply Forall_app. split; [apply data_comps_ns|apply coords_no_slash].
  - apply meta_comps_ns.
  - eapply mcomps_ns. exact H.
Qed.

Definition tail_ok (r : string) : Prop := r = "" \/ exists t, r = ("/" ++ t)%string.
Lemma split_first c d r r' : no_slash c -> no_slash d -> tail_ok r -> tail_ok r' -> (c ++ r = d ++ r')%string -> c = d /\ r = r'.
Proof.
  revert d. induction c as [|x c IH]; intros [|y d] Hc Hd Hr Hr' E.
  - auto.
  - exfalso. destruct Hr as [->|(t & ->)]; [discriminate|]. cbn -[dec] in E. injection E as <- _. inversion Hd; congruence.
  - exfalso. destruct Hr' as [->|(t & ->)]; [discriminate|]. cbn -[dec] in E. injection E as -> _. inversion Hc; congruence.
  - cbn -[dec] in E. injection E as -> E. inversion Hc; inversion Hd; subst. destruct (IH d) as [-> ->]; auto.
Qed.
Lemma tail_join l : forall r, tail_ok r -> exists s, tail_ok s /\ forall root, (join_path root l ++ r)%string = (root ++ s)%string.
Proof.
  induction l as [|c l IH]; intros r Hr; [exists r; auto|]. destruct (IH r Hr) as (s & _ & Hs). exists ("/" ++ c ++ s)%string. split; [right; eauto|].
  intros root. cbn [join_path]. rewrite Hs, !sapp_assoc. reflexivity.
Qed.
Lemma join_extends la : forall lb root t, Forall no_slash la -> Forall no_slash lb -> (join_path root la ++ "/" ++ t)%string = join_path root lb -> exists c lc, lb = la ++ c :: lc.
Proof.
  induction la as [|c la IH]; intros lb root t Ha Hb E.
  - destruct lb as [|d lb]; [|exists d, lb; reflexivity]. exfalso. cbn [join_path] in E. apply (f_equal String.length) in E. rewrite !slength_app in E. cbn -[dec] in E. lia.
  - destruct lb as [|d lb].
    + exfalso. destruct (tail_join (c :: la) ("/" ++ t)%string) as (s & Hs & F); [right; eauto|]. specialize (F root). cbn [join_path] in *. rewrite E in F.
      destruct (tail_join la ("/" ++ t)%string) as (s' & _ & F'); [right; eauto|]. specialize (F' (root ++ "/" ++ c)%string). rewrite E in F'. apply (f_equal String.length) in F'. rewrite !slength_app in F'. cbn in F'. lia.
    + inversion Ha as [|? ? Hc Ha']; inversion Hb as [|? ? Hd Hb']; subst. cbn [join_path] in E.
      destruct (tail_join la ("/" ++ t)%string) as (s & Hs & F); [right; eauto|]. destruct (tail_join lb "") as (s' & Hs' & F'); [left; auto|].
      assert (X : (c ++ s = d ++ s')%string).
      { specialize (F (root ++ "/" ++ c)%string). specialize (F' (root ++ "/" ++ d)%string). rewrite sapp_nil_r in F'. rewrite E, F' in F. rewrite !sapp_assoc in F. apply sapp_inj_l in F. apply (sapp_inj_l "/") in F. auto. }
      destruct (split_first _ _ _ _ Hc Hd Hs Hs' X) as [-> _]. destruct (IH lb _ _ Ha' Hb' E) as (c' & lc & ->). exists c', lc. reflexivity.
Qed.
Lemma dec_zarray l : dec l <> ".zarray". Proof. apply (dec_not l _ "z"%char); cbn; auto 10. unfold is_digit. cbn. lia. Qed.

Lemma comps_prefix v3 n a b rest : (1 <= n)%nat -> sensible v3 n a -> sensible v3 n b -> comps v3 b = comps v3 a ++ rest -> a = b.
Proof.
  intros Hn Ha Hb E.
  assert (ND : forall l s, In s [".zarray"; ".zattrs"; ".zgroup"; "acquire.json"; "zarr.json"; "meta"; "data"; "root"] -> dec l <> s).
  { intros l s Hs. cbn in Hs. decompose [or] Hs; subst; try contradiction;
      first [apply (dec_not l _ "z"%char); [cbn; auto 15; fail|unfold is_digit; cbn; lia]|apply (dec_not l _ "a"%char); [cbn; auto 15; fail|unfold is_digit; cbn; lia]|apply (dec_not l _ "o"%char); [cbn; auto 15; fail|unfold is_digit; cbn; lia]]. }
  assert (AJ : forall l s, In s ["root.group.json"; "acquire.json"] -> (dec l ++ ".array.json")%string <> s).
  { intros l s Hs X. cbn in Hs. assert (Hs' : s = "root.group.json" \/ s = "acquire.json") by (decompose [or] Hs; subst; auto; contradiction). clear Hs. destruct Hs' as [-> | ->].
    - eapply array_json_not; [|exact X]. exists ".group.json". reflexivity.
    - pose proof (dec_digits l) as D. pose proof (dec_nonempty l). destruct (dec l) as [|c t]; [congruence|]. cbn in X. injection X as -> _. inversion D; subst. unfold is_digit in *. cbn in *. lia. }
  destruct a as [l q cc|l|k], b as [l' q' cc'|l'|k']; cbn [sensible comps] in *.
  - destruct Ha as (A1 & A2 & A3 & A4), Hb as (B1 & B2 & B3 & B4).
    assert (R : rest = []). { apply (f_equal (@List.length string)) in E. rewrite !app_length, !map_length, A4, B4 in E. destruct v3; cbn -[dec] in E; destruct rest; auto; cbn -[dec] in E; lia. }
    rewrite R, app_nil_r in E. destruct (data_inj v3 "" l' q' cc' l q cc) as (-> & -> & ->); auto. rewrite E. reflexivity.
  - exfalso. destruct cc as [|x cc]; [cbn in Ha; lia|]. destruct v3; cbn -[dec] in E; [|discriminate]. injection E as X _. discriminate.
  - exfalso. destruct cc as [|x cc]; [cbn in Ha; lia|]. destruct v3; cbn in Hb; decompose [or] Hb; subst; try contradiction; cbn -[dec] in E; discriminate.
  - exfalso. destruct v3; cbn -[dec] in E; [discriminate|]. injection E as _ X _. eapply ND; [|exact X]. cbn; auto.
  - assert (X : dec l' = dec l). { destruct v3; cbn -[dec] in E; injection E; intros; auto. eapply sapp_inj_r; eauto. } apply dec_inj in X; auto. subst. reflexivity.
  - exfalso. destruct v3; cbn in Hb; decompose [or] Hb; subst; try contradiction; cbn -[dec] in E; discriminate.
  - exfalso. destruct v3; cbn in Ha; decompose [or] Ha; subst; try contradiction; cbn -[dec] in E; injection E; intros; try discriminate;
      match goal with H : dec _ = _ |- _ => solve [eapply ND; [|exact H]; cbn; auto 12] | H : (dec _ ++ _)%string = _ |- _ => solve [eapply AJ; [|exact H]; cbn; auto] end.
  - exfalso. destruct v3; cbn in Ha; decompose [or] Ha; subst; try contradiction; cbn -[dec] in E; injection E; intros; try discriminate;
      match goal with H : dec _ = _ |- _ => solve [eapply ND; [|exact H]; cbn; auto 12] | H : (dec _ ++ _)%string = _ |- _ => solve [eapply AJ; [|exact H]; cbn; auto] end.
  - destruct v3; cbn in Ha, Hb; decompose [or] Ha; decompose [or] Hb; subst; try contradiction; cbn -[dec] in E; try discriminate; reflexivity.
Qed.
Lemma nothing_inside v3 root n a b : (1 <= n)%nat -> sensible v3 n a -> sensible v3 n b -> under (where_is v3 root a) (where_is v3 root b) = true -> a = b.
Proof.
  intros Hn Ha Hb U. rewrite (where_join v3 root n a Ha), (where_join v3 root n b Hb) in U. unfold under in U. apply orb_true_iff in U as [U|U].
  - apply String.eqb_eq in U. apply join_inj in U; eauto using comps_clean. eapply (comps_prefix v3 n a b []); auto. rewrite app_nil_r. exact U.
  - apply prefix_spec in U as (t & U). symmetry in U. rewrite sapp_assoc in U. destruct (join_extends _ _ _ _ (comps_clean _ _ _ Ha) (comps_clean _ _ _ Hb) U) as (c & lc & X). eapply comps_prefix; eauto.
Qed.
