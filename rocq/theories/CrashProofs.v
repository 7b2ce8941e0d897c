(** Order of events: a metadata document is written only when the files it promises are closed for good. *)
Require Import ZArith List Bool String Ascii Lia Zify.
Require Import Verif.Base Verif.Spec Verif.Radix Verif.World Verif.Writer Verif.SinkProofs Verif.CreateProofs Verif.FlushProofs.
Import ListNotations.
Open Scope string_scope.
Open Scope list_scope.
Open Scope Z_scope.

Definition calm_ev (e : event) : Prop := match e with EFlush _ | EClose _ => True | _ => False end.
Lemma calm_keeps E tr e l : calm_ev e -> content E (tr ++ [e]) l = content E tr l.
Proof.
  intros H. destruct l as [p|b k]; simpl.
  - rewrite file_of_app. destruct e; try destruct H; reflexivity.
  - unfold object_of. rewrite rev_app_distr. destruct e; try destruct H; reflexivity.
Qed.
Lemma quiet_keeps E l evs : forall tr, Forall (fun e => ~ affects l e \/ calm_ev e) evs -> content E (tr ++ evs) l = content E tr l.
Proof.
  induction evs as [|e evs IH]; intros tr H; [rewrite app_nil_r; auto|].
  inversion H as [|? ? He Hr]; subst. change (e :: evs) with ([e] ++ evs). rewrite app_assoc, IH by auto.
  destruct He as [He|He]; [apply content_frame; auto|apply calm_keeps; auto].
Qed.

Lemma app_split {A} (a b c d : list A) : a ++ b = c ++ d ->
  (exists x, c = a ++ x /\ b = x ++ d) \/ (exists x, a = c ++ x /\ d = x ++ b).
Proof.
  revert c. induction a as [|x a IH]; intros [|y c] H; simpl in *.
  - left. exists []. auto.
  - left. exists (y :: c). auto.
  - right. exists (x :: a). auto.
  - injection H as -> H. destruct (IH _ H) as [(z & -> & ->)|(z & -> & ->)]; [left|right]; exists z; auto.
Qed.

Section Safe.
Variables (E : env) (ml : loc) (decl : Z -> list Z) (need : Z -> loc -> Prop).

(** at every moment after which the document is not removed: the document at [ml] is empty or declares some [k] no larger
    than [N], and everything that [k] needs is closed and is not touched any more *)
Definition stays (l : loc) (e : event) : Prop := match e with ERemoveAll _ => ~ affects l e | _ => True end.
Definition safe (N : Z) (tr : list event) : Prop :=
  forall t1 t2 d, tr = t1 ++ t2 -> Forall (stays ml) t2 -> content E t1 ml = Some d ->
    d = [] \/ exists k, 0 <= k <= N /\ d = decl k
      /\ forall l, need k l -> closed t1 l /\ Forall (fun e => ~ affects l e) t2.

Lemma safe_weaken N N' tr : N <= N' -> safe N tr -> safe N' tr.
Proof.
  intros H Hs t1 t2 d A B C. destruct (Hs t1 t2 d A B C) as [->|(k & K1 & K2 & K3)]; [auto|].
  right. exists k. split; [lia|auto].
Qed.

(** without removals a file stays *)
Lemma persists p t1 t2 d : content E t1 (LF p) = Some d -> Forall (stays (LF p)) t2 -> exists d', content E (t1 ++ t2) (LF p) = Some d'.
Proof.
  intros H1 H2. simpl in *. rewrite file_of_app. rewrite H1. clear H1. revert d. induction H2 as [|e t2 He H2 IH]; intros d; simpl; eauto.
  destruct e; simpl in He; simpl; try apply IH.
  - destruct (under p0 p); [tauto|apply IH].
  - destruct (String.eqb p0 p); apply IH.
  - destruct (String.eqb p0 p); apply IH.
Qed.
Lemma safe_init p N tr : ml = LF p -> content E tr ml = None -> safe N tr.
Proof.
  intros Hp Hn t1 t2 d -> B C. exfalso. rewrite Hp in *. destruct (persists p t1 t2 d C B) as [d' X]. congruence.
Qed.

(** events that leave the document and what is needed alone *)
Lemma safe_app N tr evs :
  safe N tr -> Forall (fun e => ~ affects ml e \/ calm_ev e) evs ->
  (forall k l, 0 <= k <= N -> need k l -> Forall (fun e => ~ affects l e) evs) ->
  safe N (tr ++ evs).
Proof.
  intros Hs Hm Hn t1 t2 d A B C. destruct (app_split _ _ _ _ A) as [(x & -> & ->)|(x & -> & ->)].
  - apply Forall_app in Hm as [Hm1 Hm2]. rewrite quiet_keeps in C by auto.
    destruct (Hs tr [] d) as [->|(k & K1 & K2 & K3)]; auto; [rewrite app_nil_r; auto|].
    right. exists k. split; [auto|]. split; [auto|]. intros l Hl. specialize (Hn k l K1 Hl). apply Forall_app in Hn as [N1 N2].
    split; [apply closed_app; [apply K3; auto|auto]|auto].
  - apply Forall_app in B as [B1 B2]. destruct (Hs t1 x d) as [->|(k & K1 & K2 & K3)]; auto.
    right. exists k. split; [auto|]. split; [auto|]. intros l Hl. destruct (K3 l Hl). split; [auto|]. apply Forall_app. split; [auto|].
    apply (Hn k l); auto.
Qed.
Lemma safe_ext N w w' (Q : event -> Prop) :
  safe N (w_trace w) -> extends Q w w' -> (forall e, Q e -> ~ affects ml e \/ calm_ev e) ->
  (forall k l e, 0 <= k <= N -> need k l -> Q e -> ~ affects l e) ->
  safe N (w_trace w').
Proof.
  intros Hs (evs & -> & HQ & _) H1 H2. apply safe_app; auto.
  - eapply Forall_impl; eauto.
  - intros k l Hk Hl. eapply Forall_impl; [|exact HQ]. intros e. apply (H2 k l); auto.
Qed.

(** rewriting the document *)
Lemma safe_meta N k0 w w' p :
  ml = LF p -> safe N (w_trace w) -> extends (mev ml (decl k0)) w w' -> 0 <= N <= k0 ->
  (forall k, 0 <= k <= k0 -> zlen (decl k) <= zlen (decl k0)) ->
  (forall k l, 0 <= k <= k0 -> need k l -> need k0 l) ->
  (forall l, need k0 l -> l <> ml /\ closed (w_trace w) l) ->
  safe k0 (w_trace w').
Proof.
  intros Hp Hs (evs & -> & HQ & _) HN Hmono Hneed Hcl. set (tr := w_trace w) in *.
  assert (Hna : forall l, need k0 l -> Forall (fun e => ~ affects l e) evs).
  { intros l Hl. eapply Forall_impl; [|exact HQ]. intros e [He|[He _]]; [apply mkdir_affects; auto|].
    intros Ha. apply (proj1 (Hcl l Hl)). eapply only_affects; eauto. }
  assert (Hcont : forall x, Forall (mev ml (decl k0)) x ->
     content E (tr ++ x) ml = content E tr ml \/ content E (tr ++ x) ml = Some [] \/ content E (tr ++ x) ml = Some (decl k0)).
  { induction x as [|e x IH] using rev_ind; intros Hx; [rewrite app_nil_r; auto|].
    apply Forall_app in Hx as [Hx He]. inversion He as [|? ? He' _]; subst. specialize (IH Hx). rewrite app_assoc. rewrite Hp in *.
    destruct He' as [He'|[He1 He2]].
    { rewrite content_frame; [auto|]. constructor; [apply mkdir_affects; auto|constructor]. }
    destruct e; simpl in He1; try tauto; try discriminate.
    - injection He1 as ->. right; left. cbn [content]. rewrite file_of_app. simpl. rewrite eqb_self. auto.
    - injection He1 as ->. destruct (He2 _ _ _ eq_refl) as [-> ->]. cbn [content] in *. rewrite file_of_app. simpl. rewrite eqb_self.
      fold (content E (tr ++ x) (LF p0)). fold (content E tr (LF p0)) in *. fold (content E (tr ++ x) (LF p0)) in IH.
      destruct (content E (tr ++ x) (LF p0)) as [c|] eqn:Ec.
      + right; right. f_equal. apply write_at_0. destruct IH as [IH|[IH|IH]].
        * destruct (Hs tr [] c) as [->|(k & K1 & K2 & _)]; [rewrite app_nil_r; auto|constructor|rewrite Hp; symmetry; exact IH| |].
          -- apply zlen_nonneg.
          -- subst c. apply Hmono. lia.
        * injection IH as ->. apply zlen_nonneg.
        * injection IH as ->. lia.
      + left. destruct IH as [IH|[IH|IH]]; auto; discriminate.
    - rewrite calm_keeps by exact I. auto.
    - rewrite calm_keeps by exact I. auto. }
  intros t1 t2 d A B C. destruct (app_split _ _ _ _ A) as [(x & -> & Hx)|(x & Hx & ->)].
  - rewrite Hx in HQ. apply Forall_app in HQ as [HQ1 HQ2].
    assert (Hneedx : forall k, 0 <= k <= k0 -> forall l, need k l -> closed (tr ++ x) l /\ Forall (fun e => ~ affects l e) t2).
    { intros k Hk l Hl. assert (Hl0 := Hneed k l Hk Hl). assert (H := Hna l Hl0). rewrite Hx in H. apply Forall_app in H as [H1 H2].
      split; [apply closed_app; [apply Hcl; auto|auto]|auto]. }
    specialize (Hcont x HQ1). rewrite C in Hcont. destruct Hcont as [Hc|[Hc|Hc]].
    + destruct (Hs tr [] d) as [->|(k & K1 & K2 & K3)]; auto; [rewrite app_nil_r; auto|].
      right. exists k. split; [lia|]. split; [auto|]. apply Hneedx. lia.
    + injection Hc as ->. auto.
    + injection Hc as ->. right. exists k0. split; [lia|]. split; [auto|]. apply Hneedx. lia.
  - apply Forall_app in B as [B1 B2]. destruct (Hs t1 x d) as [->|(k & K1 & K2 & K3)]; auto.
    right. exists k. split; [lia|]. split; [auto|]. intros l Hl. destruct (K3 l Hl). split; [auto|]. apply Forall_app. split; [auto|].
    apply Hna. apply (Hneed k); [lia|auto].
Qed.
End Safe.
