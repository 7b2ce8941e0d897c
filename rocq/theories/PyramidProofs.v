(** Resolution levels: what the downsampling loop builds, and when it ends. *)
Require Import ZArith List Bool String Ascii Lia Zify.
Require Import Verif.Base Verif.Spec Verif.Dim Verif.Limits Verif.Radix Verif.Json Verif.PathProofs Verif.World Verif.Writer
  Verif.SinkProofs Verif.CreateProofs Verif.FlushProofs Verif.LayoutProofs Verif.BufProofs Verif.WriterProofs
  Verif.LevelProofs Verif.Stream Verif.MetaProofs Verif.StreamProofs.
Import ListNotations.
Open Scope string_scope.
Open Scope list_scope.
Open Scope Z_scope.

(** ** Products *)
Lemma prodZ_mono l l' : Forall2 (fun a b => 0 <= a <= b) l l' -> 0 <= prodZ l <= prodZ l'.
Proof.
  induction 1 as [|a b l l' H _ IH]; cbn; [lia|]. split; [apply Z.mul_nonneg_nonneg; lia|]. apply Z.mul_le_mono_nonneg; lia.
Qed.

(** ** One dimension *)
Definition small (d : dim) : Prop := 0 <= d_array d < 2 ^ 32 - 1 /\ 0 < d_chunk d /\ d_array d + d_chunk d <= 2 ^ 32.

Definition down_dim (d : dim) : dim :=
  if d_type d =? ty_channel then d
  else if d_array d =? 0 then mkdim (d_name d) (d_type d) 0 (d_chunk d) 1
  else mkdim (d_name d) (d_type d) (half (d_array d)) (Z.min (d_chunk d) (half (d_array d)))
             (Z.min (ceil_div (half (d_array d)) (Z.min (d_chunk d) (half (d_array d)))) (d_shard d)).

Lemma half_le n : 0 <= n -> half n <= n.
Proof. intros. pose proof (half_even n). pose proof (Z.mod_pos_bound n 2). destruct (Z.eq_dec n 0) as [->|]; [vm_compute; congruence|]. lia. Qed.

Lemma half_eq n : half n = (n + 1) / 2.
Proof. unfold half. Z.to_euclidean_division_equations; lia. Qed.
Lemma half_mono a b : 0 <= a <= b -> half a <= half b.
Proof. intros. rewrite !half_eq. apply Z.div_le_mono; lia. Qed.

Lemma downsample_dim_ok d : small d -> downsample_dim d = Ok (down_dim d).
Proof.
  intros (A & B & C). unfold downsample_dim, down_dim. destruct (d_type d =? ty_channel); auto.
  pose proof (Z.mod_pos_bound (d_array d) 2).
  assert (U : u32 (d_array d + d_array d mod 2) = d_array d + d_array d mod 2).
  { unfold u32. apply Z.mod_small. change (2 ^ 32) with 4294967296 in *. clear - A. Z.to_euclidean_division_equations; lia. }
  rewrite U. fold (half (d_array d)). destruct (d_array d =? 0) eqn:Z0.
  - apply Z.eqb_eq in Z0. rewrite Z0. change (half 0) with 0. replace (d_chunk d =? 0) with false by (symmetry; apply Z.eqb_neq; lia).
    reflexivity.
  - apply Z.eqb_neq in Z0. pose proof (half_pos (d_array d)). pose proof (half_le (d_array d)).
    set (a := half (d_array d)) in *. set (c := Z.min (d_chunk d) a). assert (0 < c) by lia.
    replace (c =? 0) with false by (symmetry; apply Z.eqb_neq; lia).
    assert (V : u32 (a + c - 1) = a + c - 1) by (unfold u32; apply Z.mod_small; lia). rewrite V. reflexivity.
Qed.

Lemma down_small d : small d -> small (down_dim d).
Proof.
  intros (A & B & C). unfold small, down_dim. destruct (d_type d =? ty_channel); auto.
  destruct (d_array d =? 0) eqn:Z0; cbn [d_array d_chunk]; [lia|]. apply Z.eqb_neq in Z0.
  pose proof (half_pos (d_array d)). pose proof (half_le (d_array d)). lia.
Qed.

(** sizes do not grow *)
Lemma down_le d : small d -> 0 <= d_array (down_dim d) <= d_array d /\ 0 < d_chunk (down_dim d) <= d_chunk d /\
  (0 < d_array d -> 0 < d_array (down_dim d)).
Proof.
  intros (A & B & C). unfold down_dim. destruct (d_type d =? ty_channel); [lia|].
  destruct (d_array d =? 0) eqn:Z0; cbn [d_array d_chunk]; [lia|]. apply Z.eqb_neq in Z0.
  pose proof (half_pos (d_array d)). pose proof (half_le (d_array d)). lia.
Qed.
Lemma ceil_div_mono a a' b : 0 < b -> a <= a' -> ceil_div a b <= ceil_div a' b.
Proof. intros. unfold ceil_div. apply Z.div_le_mono; lia. Qed.
Lemma ceil_div_1 a : 0 < a -> ceil_div a a = 1.
Proof. intros. unfold ceil_div. replace (a + a - 1) with (1 * a + (a - 1)) by lia. rewrite Z.div_add_l by lia. rewrite Z.div_small; lia. Qed.
Lemma down_nch d : inner_ok d -> small d -> 0 < nch (down_dim d) <= nch d.
Proof.
  intros I S. pose proof (DimProofs.nch_pos d I). destruct I as (A & B & C). unfold down_dim. destruct (d_type d =? ty_channel); [lia|].
  replace (d_array d =? 0) with false by (symmetry; apply Z.eqb_neq; lia).
  pose proof (half_pos (d_array d) A). pose proof (half_le (d_array d)). unfold nch in *. cbn [d_array d_chunk].
  destruct (Z.min_spec (d_chunk d) (half (d_array d))) as [[M ->]|[M ->]].
  - split; [apply ceil_div_pos; lia|]. apply ceil_div_mono; lia.
  - rewrite ceil_div_1 by lia. lia.
Qed.
Lemma down_inner d : inner_ok d -> small d -> inner_ok (down_dim d).
Proof.
  intros (A & B & C) S. destruct (down_small d S) as (S1 & S2 & S3). destruct (down_le d S) as (_ & _ & P). unfold inner_ok. auto.
Qed.
Lemma down_shard d : 0 < d_shard d -> inner_ok d -> small d -> 0 < d_shard (down_dim d) <= d_shard d.
Proof.
  intros H I S. assert (N := down_nch d I S). revert N. destruct I as (A & B & C). unfold down_dim. destruct (d_type d =? ty_channel); [lia|].
  replace (d_array d =? 0) with false by (symmetry; apply Z.eqb_neq; lia). unfold nch. cbn [d_array d_chunk d_shard]. lia.
Qed.
(** also for the append dimension *)
Lemma down_shard0 d : 0 < d_shard d -> small d -> 0 < d_shard (down_dim d) <= d_shard d.
Proof.
  intros H S. destruct (Z.eq_dec (d_array d) 0) as [Z0|Z0].
  - unfold down_dim. destruct (d_type d =? ty_channel); [lia|]. rewrite Z0. cbn. lia.
  - destruct S as (A & B & C). apply down_shard; auto; unfold inner_ok, small; lia.
Qed.

(** ** One level *)
Definition small0 (d : dim) : Prop := 0 <= d_array d < 2 ^ 32 - 1 /\ d_array d + d_chunk d <= 2 ^ 32.

Section Down.
Variables (bpp : Z) (d0 : dim) (mids : list dim) (dy dx : dim).
Hypothesis Hf : fits bpp d0 mids dy dx.
Hypothesis H0 : small0 d0.

Lemma inner_small : Forall small (mids ++ [dy; dx]).
Proof.
  destruct Hf as [_ _ q _ _ p _ _]. assert (G : forall l, Forall inner_ok l -> prodZ (map nch l) < 2 ^ 31 -> Forall small l /\ 0 < prodZ (map nch l)).
  { clear. induction l as [|d l IH]; cbn [map prodZ]; intros H P; [split; auto; lia|].
    inversion H as [|? ? I Hl]; subst. pose proof (DimProofs.nch_pos d I) as N.
    assert (Q : 0 < prodZ (map nch l)). { apply prodZ_pos. apply DimProofs.inner_allpos_nch. auto. }
    assert (nch d <= nch d * prodZ (map nch l)) by (rewrite <- (Z.mul_1_r (nch d)) at 1; apply Z.mul_le_mono_nonneg_l; lia).
    assert (prodZ (map nch l) <= nch d * prodZ (map nch l)) by (rewrite <- (Z.mul_1_l (prodZ (map nch l))) at 1; apply Z.mul_le_mono_nonneg_r; lia).
    destruct IH as [IH _]; auto; [lia|]. split; [|apply Z.mul_pos_pos; auto]. constructor; auto.
    destruct I as (A & B & C). unfold small. split; [|lia]. split; [lia|].
    destruct (Z.eq_dec (d_chunk d) 1) as [E1|]; [|lia].
    assert (nch d = d_array d). { unfold nch, ceil_div. rewrite E1, Z.div_1_r. lia. } lia. }
  apply G; auto.
Qed.
Lemma d0_small : small d0.
Proof. destruct Hf as [_ q _ _ _ _ _ _]. destruct H0. unfold small. lia. Qed.

Lemma rel_map (P : Z -> Z -> Prop) (f g : dim -> Z) l : (forall d, In d l -> P (f d) (g d)) -> Forall2 P (map f l) (map g l).
Proof. induction l; cbn; intros H; constructor; auto. Qed.

Lemma inner_in d : In d (mids ++ [dy; dx]) -> inner_ok d /\ small d.
Proof.
  intros H. pose proof inner_small as S. destruct Hf as [_ _ q _ _ _ _ _]. rewrite Forall_forall in q, S. auto.
Qed.

Lemma prod_chunks : 0 <= prodZ (map d_chunk (down_dim d0 :: map down_dim mids ++ [down_dim dy; down_dim dx])) <= prodZ (map d_chunk (d0 :: mids ++ [dy; dx])).
Proof.
  replace (down_dim d0 :: map down_dim mids ++ [down_dim dy; down_dim dx]) with (map down_dim (d0 :: mids ++ [dy; dx])) by (cbn; rewrite map_app; reflexivity).
  rewrite map_map. apply prodZ_mono, rel_map. intros d [<-|H].
  - destruct (down_le d0 d0_small) as (_ & A & _). lia.
  - destruct (inner_in d H) as [_ S]. destruct (down_le d S) as (_ & A & _). lia.
Qed.
Lemma prod_nch l : incl l (mids ++ [dy; dx]) -> 0 <= prodZ (map nch (map down_dim l)) <= prodZ (map nch l).
Proof.
  intros I. rewrite map_map. apply prodZ_mono, rel_map. intros d H. destruct (inner_in d (I _ H)) as [A B]. pose proof (down_nch d A B). lia.
Qed.
Lemma mids_incl : incl mids (mids ++ [dy; dx]). Proof. apply incl_appl, incl_refl. Qed.
Lemma dy_in : In dy (mids ++ [dy; dx]). Proof. apply in_or_app. right. cbn. auto. Qed.
Lemma dx_in : In dx (mids ++ [dy; dx]). Proof. apply in_or_app. right. cbn. auto. Qed.

Lemma prod_arr : 0 <= prodZ (map d_array (map down_dim mids)) <= prodZ (map d_array mids).
Proof.
  rewrite map_map. apply prodZ_mono, rel_map. intros d H. destruct (inner_in d (mids_incl _ H)) as [A B]. destruct (down_le d B) as (C & _). lia.
Qed.
Lemma prod_max : 0 <= prodZ (map (fun d => Z.max (d_array d) (d_chunk d)) (map down_dim mids)) <= prodZ (map (fun d => Z.max (d_array d) (d_chunk d)) mids).
Proof.
  rewrite map_map. apply (prodZ_mono (map (fun x => Z.max (d_array (down_dim x)) (d_chunk (down_dim x))) mids)), rel_map.
  intros d H. destruct (inner_in d (mids_incl _ H)) as [A B]. destruct (down_le d B) as (C & D & _). lia.
Qed.

Lemma fits_down : fits bpp (down_dim d0) (map down_dim mids) (down_dim dy) (down_dim dx).
Proof.
  pose proof prod_chunks as PC. pose proof (prod_nch _ (incl_refl _)) as PN. pose proof prod_max as PM.
  destruct (down_le d0 d0_small) as (A0 & C0 & _).
  destruct (inner_in dy dy_in) as [IY SY]. destruct (inner_in dx dx_in) as [IX SX].
  destruct (down_le dy SY) as (AY & CY & _). destruct (down_le dx SX) as (AX & CX & _).
  pose proof inner_small as IS.
  destruct Hf as [q1 q2 q3 q4 q5 q6 q7 q8]. constructor; auto; try lia.
  - replace (map down_dim mids ++ [down_dim dy; down_dim dx]) with (map down_dim (mids ++ [dy; dx])) by (rewrite map_app; reflexivity).
    apply Forall_map. rewrite Forall_forall. intros d H. destruct (inner_in d H). apply down_inner; auto.
  - eapply Z.le_lt_trans; [|exact q4]. apply Z.mul_le_mono_nonneg; lia.
  - replace (map down_dim mids ++ [down_dim dy; down_dim dx]) with (map down_dim (mids ++ [dy; dx])) by (rewrite map_app; reflexivity). lia.
  - eapply Z.le_lt_trans; [|exact q7]. apply Z.mul_le_mono_nonneg_l; lia.
  - eapply Z.le_lt_trans; [|exact q8]. apply Z.mul_le_mono_nonneg; lia.
Qed.
Lemma small0_down : small0 (down_dim d0).
Proof. destruct (down_small d0 d0_small) as (A & B & C). unfold small0. lia. Qed.

Lemma epoch_down : fits_epoch bpp d0 mids dy dx -> fits_epoch bpp (down_dim d0) (map down_dim mids) (down_dim dy) (down_dim dx).
Proof.
  unfold fits_epoch. intros H. eapply Z.le_lt_trans; [|exact H]. pose proof prod_arr as PA.
  destruct (down_le d0 d0_small) as (A0 & C0 & _).
  destruct (inner_in dy dy_in) as [IY SY]. destruct (inner_in dx dx_in) as [IX SX].
  destruct (down_le dy SY) as (AY & CY & _). destruct (down_le dx SX) as (AX & CX & _). destruct Hf as [q1 _ _ _ _ _ _ _].
  assert (0 <= d_array (down_dim dy) * d_array (down_dim dx)) by (apply Z.mul_nonneg_nonneg; lia).
  apply Z.mul_le_mono_nonneg; [apply Z.mul_nonneg_nonneg; lia| |apply Z.mul_nonneg_nonneg; lia|].
  - apply Z.mul_le_mono_nonneg; lia.
  - apply Z.mul_le_mono_nonneg; try lia. apply Z.mul_le_mono_nonneg; lia.
Qed.

Lemma prod_shard l : (forall d, In d l -> 0 < d_shard d /\ small d) -> 0 <= prodZ (map d_shard (map down_dim l)) <= prodZ (map d_shard l).
Proof.
  intros I. rewrite map_map. apply prodZ_mono, rel_map. intros d H. destruct (I d H) as [A B]. pose proof (down_shard0 d A B). lia.
Qed.

Lemma shards_down : fits_shards d0 mids dy dx -> fits_shards (down_dim d0) (map down_dim mids) (down_dim dy) (down_dim dx).
Proof.
  intros [q1 q2 q3 q4 q5]. pose proof prod_arr as PA. destruct (down_le d0 d0_small) as (A0 & C0 & _).
  pose proof (down_shard0 d0 q1 d0_small) as S0.
  assert (SP : 0 <= d_chunk (down_dim d0) * d_shard (down_dim d0) <= d_chunk d0 * d_shard d0).
  { split; [apply Z.mul_nonneg_nonneg; lia|apply Z.mul_le_mono_nonneg; lia]. }
  constructor; auto; try lia.
  - replace (map down_dim mids ++ [down_dim dy; down_dim dx]) with (map down_dim (mids ++ [dy; dx])) by (rewrite map_app; reflexivity).
    apply Forall_map. rewrite Forall_forall in q2 |- *. intros d H. destruct (q2 d H). destruct (inner_in d H) as [I S].
    pose proof (down_nch d I S). pose proof (down_shard d ltac:(auto) I S). lia.
  - eapply Z.le_lt_trans; [|exact q4]. apply Z.mul_le_mono_nonneg; lia.
  - replace (down_dim d0 :: map down_dim mids ++ [down_dim dy; down_dim dx]) with (map down_dim (d0 :: mids ++ [dy; dx])) by (cbn; rewrite map_app; reflexivity).
    eapply Z.le_lt_trans; [|exact q5]. apply prod_shard. intros d [<-|H]; [split; [auto|exact d0_small]|].
    rewrite Forall_forall in q2. destruct (q2 d H). destruct (inner_in d H). auto.
Qed.
Lemma scale_down : scale_fits bpp (d_array dx) (d_array dy) -> scale_fits bpp (d_array (down_dim dx)) (d_array (down_dim dy)).
Proof.
  intros (A & B & C & D). destruct (inner_in dy dy_in) as [IY SY]. destruct (inner_in dx dx_in) as [IX SX].
  destruct (down_le dy SY) as (AY & CY & PY). destruct (down_le dx SX) as (AX & CX & PX).
  unfold scale_fits. repeat split; try lia.
  eapply Z.le_lt_trans; [|exact C].
  pose proof (half_mono _ _ AX). pose proof (half_mono _ _ AY). pose proof (half_pos _ (PX ltac:(lia))). pose proof (half_pos _ (PY ltac:(lia))).
  apply Z.mul_le_mono_nonneg; [apply Z.mul_nonneg_nonneg; lia|apply Z.mul_le_mono_nonneg; lia|lia|lia].
Qed.
End Down.

(** ** The length of an array document *)
Lemma slen_app a b : String.length (a ++ b)%string = (String.length a + String.length b)%nat.
Proof. induction a; cbn; auto. Qed.
Lemma dec_aux_len2 f : forall n acc, (String.length (dec_aux f n acc) <= f + String.length acc)%nat.
Proof.
  induction f as [|f IH]; intros n acc; cbn [dec_aux]; [lia|]. destruct (n / 10 =? 0); cbn [String.length]; [lia|].
  eapply Nat.le_trans; [apply IH|]. cbn [String.length]. lia.
Qed.
Lemma dec_len n : 0 <= n < 2 ^ 32 -> (String.length (dec n) <= 32)%nat.
Proof.
  intros H. unfold dec. eapply Nat.le_trans; [apply dec_aux_len2|]. cbn [String.length].
  assert (Z.log2 n < 32). { destruct (Z.eq_dec n 0) as [->|]; [vm_compute; reflexivity|]. apply Z.log2_lt_pow2; lia. }
  pose proof (Z.log2_nonneg n). lia.
Qed.
Lemma dec_len48 n : 0 <= n < 2 ^ 48 -> (String.length (dec n) <= 48)%nat.
Proof.
  intros H. unfold dec. eapply Nat.le_trans; [apply dec_aux_len2|]. cbn [String.length].
  assert (Z.log2 n < 48). { destruct (Z.eq_dec n 0) as [->|]; [vm_compute; reflexivity|]. apply Z.log2_lt_pow2; lia. }
  pose proof (Z.log2_nonneg n). lia.
Qed.
Lemma spaces_len n : String.length (spaces n) = n.
Proof. induction n; cbn; auto. Qed.

Lemma jints_len ind l : (ind <= 20)%nat -> Forall (fun n => 0 <= n < 2 ^ 32) l -> (String.length (dump_at ind (jints l)) <= 60 * List.length l + 60)%nat.
Proof.
  intros Hi H. unfold jints. destruct l as [|x l]; [cbn; lia|]. cbn [map dump_at].
  set (go := fix go (l : list json) : string :=
         match l with
         | [] => ""
         | [x] => spaces (ind + 4) ++ dump_at (ind + 4) x
         | x :: l' => spaces (ind + 4) ++ dump_at (ind + 4) x ++ "," ++ nl ++ go l'
         end%string).
  assert (G : forall l, Forall (fun n => 0 <= n < 2 ^ 32) l -> (String.length (go (map JInt l)) <= 60 * List.length l)%nat).
  { clear - Hi. induction 1 as [|x l Hx Hl IH]; [cbn; lia|]. assert (D := dec_len x Hx). cbn [map List.length] in *.
    destruct (map JInt l) as [|y l'] eqn:Em.
    - cbn [go dump_at]. rewrite slen_app, spaces_len. lia.
    - change (go (JInt x :: y :: l')) with (spaces (ind + 4) ++ dec x ++ "," ++ nl ++ go (y :: l'))%string.
      rewrite !slen_app, spaces_len. change (String.length nl) with 1%nat. change (String.length ",") with 1%nat. lia. }
  change (String.length ("[" ++ nl ++ go (map JInt (x :: l)) ++ nl ++ spaces ind ++ "]") <= 60 * List.length (x :: l) + 60)%nat.
  rewrite !slen_app, spaces_len. specialize (G (x :: l) H). change (String.length nl) with 1%nat. cbn [String.length] in *. lia.
Qed.

Definition comp_small (comp : option blosc) : Prop :=
  forall b, comp = Some b -> (String.length (quote (b_codec b)) <= 100)%nat /\ 0 <= b_clevel b < 2 ^ 32 /\ 0 <= b_shuffle b < 2 ^ 32.

Lemma bytes_len s : zlen (bytes_of_string s) = Z.of_nat (String.length s).
Proof. unfold zlen, bytes_of_string. rewrite map_length. f_equal. induction s; cbn; auto. Qed.

Ltac lens := rewrite ?slen_app, ?spaces_len; cbn [String.length nl dq quote escape escape_char]; 
  repeat match goal with |- context [String.length ?s] => lazymatch s with
    | dump_at _ _ => fail | dec _ => fail | quote _ => fail
    | _ => let v := eval vm_compute in (String.length s) in change (String.length s) with v end end.

Lemma zarray_len n ds t comp :
  0 <= n < 2 ^ 32 -> Forall (fun d => 0 <= d_array d < 2 ^ 32) (tl ds) -> Forall (fun d => 0 <= d_chunk d < 2 ^ 32) ds ->
  (String.length (quote t) <= 100)%nat -> comp_small comp ->
  (String.length (dump (zarray_json n ds t comp)) <= 120 * List.length ds + 3000)%nat.
Proof.
  intros Hn Ha Hd Ht Hc. unfold dump, zarray_json.
  assert (J1 := jints_len 4 (map d_chunk ds) ltac:(lia)). assert (J2 := jints_len 4 (n :: map d_array (tl ds)) ltac:(lia)).
  assert (F1 : Forall (fun z => 0 <= z < 2 ^ 32) (map d_chunk ds)) by (apply Forall_map; exact Hd).
  assert (F2 : Forall (fun z => 0 <= z < 2 ^ 32) (n :: map d_array (tl ds))).
  { constructor; auto. apply Forall_map. exact Ha. }
  specialize (J1 F1). specialize (J2 F2). rewrite map_length in J1. cbn [List.length] in J2. rewrite map_length in J2.
  assert (T : (List.length (tl ds) <= List.length ds)%nat) by (destruct ds; cbn; lia).
  set (j1 := jints (map d_chunk ds)) in *. set (j2 := jints (n :: map d_array (tl ds))) in *. clearbody j1 j2.
  set (jt := quote t) in *.
  assert (CM : (String.length (dump_at 4 (match comp with
                        | None => JNull
                        | Some b => JObj [ ("clevel", JInt (b_clevel b)); ("cname", JStr (b_codec b));
                                           ("id", JStr "blosc"); ("shuffle", JInt (b_shuffle b)) ]
                        end)) <= 500)%nat).
  { destruct comp as [b|]; [|cbn; lia]. destruct (Hc b eq_refl) as (C1 & C2 & C3). apply dec_len in C2, C3.
    cbn [dump_at plus]. set (q := quote (b_codec b)) in *. clearbody q. rewrite !slen_app, !spaces_len.
    repeat match goal with |- context [String.length (quote ?s)] => let v := eval vm_compute in (String.length (quote s)) in change (String.length (quote s)) with v end.
    change (String.length nl) with 1%nat. cbn [String.length]. lia. }
  set (jc := match comp with None => JNull | Some b => _ end) in *. clearbody jc.
  cbn [dump_at plus]. fold jt. clearbody jt. rewrite !slen_app, !spaces_len.
  repeat match goal with |- context [String.length (quote ?s)] => let v := eval vm_compute in (String.length (quote s)) in change (String.length (quote s)) with v end.
  change (String.length nl) with 1%nat. change (dec 0) with "0". change (dec 2) with "2". cbn [String.length]. lia.
Qed.

Lemma array_len n ds t comp :
  0 <= n < 2 ^ 32 -> Forall (fun d => 0 <= d_array d < 2 ^ 32) (tl ds) -> Forall (fun d => 0 <= d_chunk d < 2 ^ 32 /\ 0 <= d_shard d < 2 ^ 32) ds ->
  (String.length (quote t) <= 100)%nat -> comp_small comp ->
  (String.length (dump (array_json n ds t comp)) <= 180 * List.length ds + 3000)%nat.
Proof.
  intros Hn Ha Hd Ht Hc. unfold dump, array_json.
  assert (J1 := jints_len 8 (map d_chunk ds) ltac:(lia)). assert (J2 := jints_len 4 (n :: map d_array (tl ds)) ltac:(lia)).
  assert (J3 := jints_len 16 (map d_shard ds) ltac:(lia)).
  assert (F1 : Forall (fun z => 0 <= z < 2 ^ 32) (map d_chunk ds)) by (apply Forall_map; eapply Forall_impl; [|exact Hd]; intros a (A & B); exact A).
  assert (F3 : Forall (fun z => 0 <= z < 2 ^ 32) (map d_shard ds)) by (apply Forall_map; eapply Forall_impl; [|exact Hd]; intros a (A & B); exact B).
  assert (F2 : Forall (fun z => 0 <= z < 2 ^ 32) (n :: map d_array (tl ds))).
  { constructor; auto. apply Forall_map. exact Ha. }
  specialize (J1 F1). specialize (J2 F2). specialize (J3 F3). rewrite map_length in J1, J3. cbn [List.length] in J2. rewrite map_length in J2.
  assert (T : (List.length (tl ds) <= List.length ds)%nat) by (destruct ds; cbn; lia).
  set (j1 := jints (map d_chunk ds)) in *. set (j2 := jints (n :: map d_array (tl ds))) in *. set (j3 := jints (map d_shard ds)) in *. clearbody j1 j2 j3.
  set (jt := quote t) in *.
  set (jc := match comp with None => JNull | Some b => _ end).
  assert (CM : (String.length (dump_at 4 jc) <= 700)%nat).
  { unfold jc. destruct comp as [b|]; [|cbn; lia]. destruct (Hc b eq_refl) as (C1 & C2 & C3). apply dec_len in C2, C3.
    cbn [dump_at plus]. set (q := quote (b_codec b)) in *. clearbody q. rewrite !slen_app, !spaces_len.
    repeat match goal with |- context [String.length (quote ?s)] => let v := eval vm_compute in (String.length (quote s)) in change (String.length (quote s)) with v end.
    change (String.length nl) with 1%nat. change (dec 0) with "0". cbn [String.length]. lia. }
  clearbody jc.
  cbn [dump_at plus]. fold jt. clearbody jt. rewrite !slen_app, !spaces_len.
  repeat match goal with |- context [String.length (quote ?s)] => let v := eval vm_compute in (String.length (quote s)) in change (String.length (quote s)) with v end.
  change (String.length nl) with 1%nat. change (dec 0) with "0". cbn [String.length]. lia.
Qed.

(** ** All the levels of a stream *)
Definition with_dims (c : config) (ds : list dim) (level : Z) : config :=
  mkconfig ds (c_dtype c) level (c_bucket c) (c_root c) (c_comp c).
Definition down_cfg (c : config) : config := with_dims c (map down_dim (c_dims c)) (c_level c + 1).
(** do_downsample after the level *)
Definition goes_on (c : config) : bool :=
  negb (existsb (fun p => d_chunk (snd p) <? d_chunk (fst p)) (combine (c_dims c) (map down_dim (c_dims c)))).
Fixpoint cfgs (fuel : nat) (c : config) : list config :=
  match fuel with
  | O => []
  | S f => down_cfg c :: if goes_on c then cfgs f (down_cfg c) else []
  end.
Fixpoint enough (fuel : nat) (c : config) : bool :=
  match fuel with
  | O => false
  | S f => if goes_on c then enough f (down_cfg c) else true
  end.

Definition max_dims : Z := 1000.

Section Levels.
Variable E : env.
Variables (v3 : bool) (root : string) (bk : option string) (comp : option blosc) (m : nat).
Variables (bpp dt mxl B0 : Z) (t : string) (enc : list Z -> list Z).
Hypothesis Hbpp : bytes_of_type dt = Ok bpp.
Hypothesis Ht : (if v3 then dtype_v3 else dtype_v2) dt = Some t.
Hypothesis Hmxl : mxl < 2 ^ 64.
Hypothesis Hcs : comp_small comp.
Hypothesis Hcomp : forall B, 0 < B <= B0 -> comp_ok E comp bpp B enc mxl.
Hypothesis Hm : Z.of_nat m <= max_dims.

Record good (c : config) (d0 : dim) (mids : list dim) (dy dx : dim) : Prop := {
  g_dims : c_dims c = d0 :: mids ++ [dy; dx];
  g_dt : c_dtype c = dt; g_root : c_root c = root; g_bk : c_bucket c = bk; g_comp : c_comp c = comp; g_level : 0 <= c_level c;
  g_m : List.length mids = m;
  g_f : fits bpp d0 mids dy dx; g_ep : fits_epoch bpp d0 mids dy dx;
  g_B : prodZ (map d_chunk (d0 :: mids ++ [dy; dx])) * bpp <= B0;
  g_s : v3 = true -> fits_shards d0 mids dy dx /\
        d_shard d0 * (prodZ (map nch mids) * (nch dy * nch dx) * mxl) + 16 * prodZ (map d_shard (d0 :: mids ++ [dy; dx])) < 2 ^ 64 }.

Definition lev_of (c : config) (d0 : dim) (mids : list dim) (dy dx : dim) : lev := mklev c bpp d0 mids dy dx enc mxl t.

Lemma name_len : (String.length (quote t) <= 100)%nat.
Proof.
  clear - Ht Hbpp. destruct v3.
  - unfold dtype_v3 in Ht. repeat match type of Ht with context [if ?b then _ else _] => destruct b end; try discriminate; injection Ht as <-; vm_compute; lia.
  - unfold dtype_v2 in Ht. repeat match type of Ht with context [if ?b then _ else _] => destruct b end; try discriminate; injection Ht as <-; vm_compute; lia.
Qed.

Lemma ceil_le k p : 0 <= k -> 0 < p -> 0 <= ceil_div k p <= k.
Proof. intros. unfold ceil_div. split; [apply Z.div_pos; lia|]. destruct (Z.eq_dec k 0) as [->|]; [rewrite Z.div_small; lia|]. apply Z.div_le_upper_bound; [lia|]. nia. Qed.

Lemma good_lev c d0 mids dy dx : good c d0 mids dy dx -> lev_ok E v3 root bk m (lev_of c d0 mids dy dx).
Proof.
  intros G. assert (DL : forall k, 0 <= k < 2 ^ 32 -> zlen (l_D v3 (lev_of c d0 mids dy dx) k) < part_size).
  { intros k Hk. unfold l_D, doc. rewrite bytes_len. change (l_ds (lev_of c d0 mids dy dx)) with (d0 :: mids ++ [dy; dx]). cbn [l_d0 l_mids l_dy l_dx l_t l_cfg lev_of]. rewrite (g_comp _ _ _ _ _ G).
    destruct (g_f _ _ _ _ _ G) as [q1 q2 q3 q4 q5 q6 q7 q8].
    assert (PA : 0 < prodZ (map d_array mids)). { apply prodZ_pos. apply DimProofs.inner_allpos_arr. apply Forall_app in q3. tauto. }
    pose proof (ceil_le k (prodZ (map d_array mids)) ltac:(lia) PA) as CL.
    assert (TL : Forall (fun d => 0 <= d_array d < 2 ^ 32) (tl (d0 :: mids ++ [dy; dx]))).
    { cbn [tl]. eapply Forall_impl; [|exact q3]. intros a (A1 & A2 & A3). lia. }
    assert (CK : Forall (fun d => 0 <= d_chunk d < 2 ^ 32) (d0 :: mids ++ [dy; dx])).
    { constructor; [lia|]. eapply Forall_impl; [|exact q3]. intros a (A1 & A2 & A3). lia. }
    assert (LN : Z.of_nat (List.length (d0 :: mids ++ [dy; dx])) <= max_dims + 3).
    { cbn [List.length]. rewrite app_length. cbn [List.length]. rewrite (g_m _ _ _ _ _ G). unfold max_dims in *. lia. }
    assert (PS : part_size = 5242880) by reflexivity. unfold max_dims in LN.
    pose proof name_len as NL. destruct v3 eqn:V3.
    - destruct (g_s _ _ _ _ _ G V3) as [[s1 s2 s3 s4 s5] _].
      assert (SH : Forall (fun d => 0 <= d_chunk d < 2 ^ 32 /\ 0 <= d_shard d < 2 ^ 32) (d0 :: mids ++ [dy; dx])).
      { inversion CK as [|? ? k1 k2]; subst. constructor.
        - split; [lia|]. split; [lia|]. eapply Z.le_lt_trans; [|exact s3]. rewrite <- (Z.mul_1_l (d_shard d0)) at 1. apply Z.mul_le_mono_nonneg_r; lia.
        - rewrite Forall_forall in k2, s2, q3 |- *. intros d Hd. split; [auto|]. destruct (s2 d Hd) as [u1 u2]. pose proof (DimProofs.nch_pos d (q3 d Hd)). lia. }
      pose proof (array_len (ceil_div k (prodZ (map d_array mids))) (d0 :: mids ++ [dy; dx]) t comp ltac:(lia) TL SH NL Hcs) as AL. lia.
    - pose proof (zarray_len (ceil_div k (prodZ (map d_array mids))) (d0 :: mids ++ [dy; dx]) t comp ltac:(lia) TL CK NL Hcs) as AL. lia. }
  destruct G. constructor; auto; cbn [l_cfg l_bpp l_d0 l_mids l_dy l_dx l_enc l_mxl l_t lev_of].
  - rewrite g_dt0. exact Hbpp.
  - rewrite g_comp0. apply Hcomp. split; [|exact g_B0].
    destruct g_f0 as [q1 q2 q3 q4 q5 q6 q7 q8]. change (l_B (lev_of c d0 mids dy dx)) with (prodZ (map d_chunk (d0 :: mids ++ [dy; dx])) * bpp).
    apply Z.mul_pos_pos; [|lia]. apply prodZ_pos. constructor; [lia|]. apply DimProofs.inner_allpos_chk; auto.
  - rewrite g_dt0. exact Ht.
  - intros k Hk. specialize (DL k Hk). destruct bk; auto. pose proof part_lt. lia.
Qed.

Lemma map_ds d0 mids dy dx : map down_dim (d0 :: mids ++ [dy; dx]) = down_dim d0 :: map down_dim mids ++ [down_dim dy; down_dim dx].
Proof. cbn [map]. rewrite map_app. reflexivity. Qed.

Lemma downsample_ok c d0 mids dy dx : good c d0 mids dy dx -> small0 d0 -> downsample c = Ok (down_cfg c, goes_on c).
Proof.
  intros G Sm. unfold downsample. rewrite (omap_ok _ down_dim).
  - cbn [obind]. unfold make_dimensions. rewrite map_length, (g_dims _ _ _ _ _ G). cbn [List.length]. rewrite app_length. cbn [List.length].
    replace (Nat.ltb 2 (S (List.length mids + 2))) with true by (symmetry; apply Nat.ltb_lt; lia). cbn [obind].
    unfold down_cfg, with_dims, goes_on. rewrite (g_dims _ _ _ _ _ G). reflexivity.
  - rewrite (g_dims _ _ _ _ _ G). intros d [<-|H]; apply downsample_dim_ok.
    + eapply d0_small; eauto. exact (g_f _ _ _ _ _ G).
    + eapply inner_in; [exact (g_f _ _ _ _ _ G)|exact H].
Qed.

Lemma good_down c d0 mids dy dx : 0 <= mxl -> good c d0 mids dy dx -> small0 d0 ->
  good (down_cfg c) (down_dim d0) (map down_dim mids) (down_dim dy) (down_dim dx).
Proof.
  intros Hx G Sm. destruct G as [a1 a2 a3 a4 a5 a6 a7 a8 a9 a10 a11]. constructor; cbn [down_cfg with_dims c_dims c_dtype c_root c_bucket c_comp c_level]; auto.
  - rewrite a1. apply map_ds.
  - lia.
  - rewrite map_length. auto.
  - apply fits_down; auto.
  - apply epoch_down; auto.
  - eapply Z.le_trans; [|exact a10]. pose proof (prod_chunks _ _ _ _ _ a8 Sm). destruct a8 as [q1 _ _ _ _ _ _ _]. apply Z.mul_le_mono_nonneg_r; lia.
  - intros V. destruct (a11 V) as [F Q]. split; [apply (shards_down bpp); auto|]. eapply Z.le_lt_trans; [|exact Q].
    assert (D0 := d0_small _ _ _ _ _ a8 Sm). pose proof (down_shard0 d0 (fit_s0 _ _ _ _ F) D0) as S0.
    pose proof (prod_nch _ _ _ _ _ a8 mids (mids_incl mids dy dx)) as PN.
    destruct (inner_in _ _ _ _ _ a8 dy (dy_in mids dy dx)) as [IY SY]. destruct (inner_in _ _ _ _ _ a8 dx (dx_in mids dy dx)) as [IX SX].
    pose proof (down_nch dy IY SY). pose proof (down_nch dx IX SX).
    assert (PS : 0 <= prodZ (map d_shard (down_dim d0 :: map down_dim mids ++ [down_dim dy; down_dim dx])) <= prodZ (map d_shard (d0 :: mids ++ [dy; dx]))).
    { rewrite <- map_ds. apply prod_shard. intros d [<-|H2]; [split; [exact (fit_s0 _ _ _ _ F)|exact D0]|].
      pose proof (fit_sinner _ _ _ _ F) as q2. rewrite Forall_forall in q2. destruct (q2 d H2). destruct (inner_in _ _ _ _ _ a8 d H2). auto. }
    assert (0 <= nch (down_dim dy) * nch (down_dim dx) <= nch dy * nch dx) by (split; [apply Z.mul_nonneg_nonneg|apply Z.mul_le_mono_nonneg]; lia).
    assert (0 <= prodZ (map nch (map down_dim mids)) * (nch (down_dim dy) * nch (down_dim dx)) <= prodZ (map nch mids) * (nch dy * nch dx))
      by (split; [apply Z.mul_nonneg_nonneg|apply Z.mul_le_mono_nonneg]; lia).
    assert (0 <= prodZ (map nch (map down_dim mids)) * (nch (down_dim dy) * nch (down_dim dx)) * mxl <= prodZ (map nch mids) * (nch dy * nch dx) * mxl)
      by (split; [apply Z.mul_nonneg_nonneg; lia|apply Z.mul_le_mono_nonneg_r; lia]).
    assert (d_shard (down_dim d0) * (prodZ (map nch (map down_dim mids)) * (nch (down_dim dy) * nch (down_dim dx)) * mxl) <= d_shard d0 * (prodZ (map nch mids) * (nch dy * nch dx) * mxl))
      by (apply Z.mul_le_mono_nonneg; lia). lia.
Qed.

Lemma make_writer_ok c d0 mids dy dx : good c d0 mids dy dx -> exists a, make_writer v3 c = Ok a.
Proof.
  intros G. unfold make_writer. destruct v3 eqn:V3; [|eauto]. rewrite (g_dims _ _ _ _ _ G). destruct (g_s _ _ _ _ _ G V3) as [F _].
  rewrite (ShardProofs.number_of_shards_exact bpp d0 mids dy dx (g_f _ _ _ _ _ G) F). cbn [obind]. eauto.
Qed.

(** the k-th level as a [lev] *)
Fixpoint levs (fuel : nat) (c : config) (d0 : dim) (mids : list dim) (dy dx : dim) : list lev :=
  match fuel with
  | O => []
  | S f => lev_of (down_cfg c) (down_dim d0) (map down_dim mids) (down_dim dy) (down_dim dx)
           :: if goes_on c then levs f (down_cfg c) (down_dim d0) (map down_dim mids) (down_dim dy) (down_dim dx) else []
  end.

Lemma levs_cfgs fuel : forall c d0 mids dy dx, map l_cfg (levs fuel c d0 mids dy dx) = cfgs fuel c.
Proof. induction fuel as [|f IH]; intros; cbn; auto. f_equal. destruct (goes_on c); auto. Qed.

Lemma pyramid_ok : 0 <= mxl -> forall fuel c d0 mids dy dx, good c d0 mids dy dx -> small0 d0 -> enough fuel c = true ->
  exists ws, pyramid fuel v3 c = Ok ws /\ Forall2 (fun L a => make_writer v3 (l_cfg L) = Ok a) (levs fuel c d0 mids dy dx) ws.
Proof.
  intros Hx. induction fuel as [|f IH]; intros c d0 mids dy dx G Sm En; [discriminate|]. cbn [pyramid levs enough] in *.
  rewrite (downsample_ok c d0 mids dy dx G Sm). cbn [obind].
  assert (G' := good_down _ _ _ _ _ Hx G Sm). assert (S' := small0_down _ _ _ _ _ (g_f _ _ _ _ _ G) Sm).
  destruct (make_writer_ok _ _ _ _ _ G') as [a Ha]. rewrite Ha. cbn [obind]. destruct (goes_on c).
  - destruct (IH _ _ _ _ _ G' S' En) as (ws & R & F). rewrite R. cbn [obind]. exists (a :: ws). split; auto.
  - exists [a]. split; auto.
Qed.
Lemma pyramid_hang : 0 <= mxl -> forall fuel c d0 mids dy dx, good c d0 mids dy dx -> small0 d0 -> enough fuel c = false -> pyramid fuel v3 c = Hang.
Proof.
  intros Hx. induction fuel as [|f IH]; intros c d0 mids dy dx G Sm En; [reflexivity|]. cbn [pyramid enough] in *.
  rewrite (downsample_ok c d0 mids dy dx G Sm). cbn [obind].
  assert (G' := good_down _ _ _ _ _ Hx G Sm). assert (S' := small0_down _ _ _ _ _ (g_f _ _ _ _ _ G) Sm).
  destruct (make_writer_ok _ _ _ _ _ G') as [a Ha]. rewrite Ha. cbn [obind]. destruct (goes_on c); [|discriminate].
  rewrite (IH _ _ _ _ _ G' S' En). reflexivity.
Qed.

(** every level is good, numbered and half of the one before *)
Definition linked (L L' : lev) : Prop :=
  l_bpp L' = l_bpp L /\ l_cfg L' = down_cfg (l_cfg L) /\
  l_d0 L' = down_dim (l_d0 L) /\ l_mids L' = map down_dim (l_mids L) /\ l_dy L' = down_dim (l_dy L) /\ l_dx L' = down_dim (l_dx L).
Definition lgood (L : lev) : Prop := good (l_cfg L) (l_d0 L) (l_mids L) (l_dy L) (l_dx L) /\ L = lev_of (l_cfg L) (l_d0 L) (l_mids L) (l_dy L) (l_dx L) /\ small0 (l_d0 L).

Lemma levs_linked : 0 <= mxl -> forall fuel c d0 mids dy dx, good c d0 mids dy dx -> small0 d0 ->
  let Ls := lev_of c d0 mids dy dx :: levs fuel c d0 mids dy dx in
  (forall i L, nth_error Ls i = Some L -> lgood L /\ l_level L = c_level c + Z.of_nat i) /\
  (forall i L L', nth_error Ls i = Some L -> nth_error Ls (S i) = Some L' -> linked L L').
Proof.
  intros Hx. induction fuel as [|f IH]; intros c d0 mids dy dx G Sm; cbn [levs].
  - split; intros [|i] L; cbn [nth_error]; intros; try (destruct i; discriminate); try discriminate.
    injection H as <-. split; [unfold lgood; cbn; auto|]. unfold l_level; cbn [l_cfg lev_of]; lia.
  - assert (G' := good_down _ _ _ _ _ Hx G Sm). assert (S' := small0_down _ _ _ _ _ (g_f _ _ _ _ _ G) Sm).
    specialize (IH _ _ _ _ _ G' S'). cbv zeta in IH. destruct IH as [I1 I2].
    set (tl1 := if goes_on c then levs f (down_cfg c) (down_dim d0) (map down_dim mids) (down_dim dy) (down_dim dx) else []).
    set (L1 := lev_of (down_cfg c) (down_dim d0) (map down_dim mids) (down_dim dy) (down_dim dx)) in *.
    assert (Q1 : forall i L, nth_error (L1 :: tl1) i = Some L -> lgood L /\ l_level L = c_level (down_cfg c) + Z.of_nat i).
    { unfold tl1. destruct (goes_on c); [exact I1|]. intros [|i] L; cbn [nth_error]; [|destruct i; discriminate].
      intros H. injection H as <-. apply (I1 0%nat). reflexivity. }
    assert (Q2 : forall i L L', nth_error (L1 :: tl1) i = Some L -> nth_error (L1 :: tl1) (S i) = Some L' -> linked L L').
    { unfold tl1. destruct (goes_on c); [exact I2|]. intros [|i] L L'; cbn [nth_error]; [discriminate|destruct i; discriminate]. }
    split.
    + intros [|i] L; cbn [nth_error]; intros H.
      * injection H as <-. split; [unfold lgood; cbn; auto|]. unfold l_level; cbn [l_cfg lev_of]; lia.
      * destruct (Q1 i L H) as [A B]. split; auto. rewrite B. cbn [down_cfg with_dims c_level]. lia.
    + intros [|i] L L' H H'.
      * cbn [nth_error] in H, H'. injection H as <-. injection H' as <-. unfold linked. cbn. auto 6.
      * apply (Q2 i L L' H H').
Qed.
End Levels.

(** ** Termination *)
Definition shrinks (d : dim) : Prop := d_type d <> ty_channel /\ 0 < d_array d /\ 1 < d_chunk d.

Lemma down_shrinks d : shrinks d -> d_chunk (down_dim d) = Z.min (d_chunk d) (half (d_array d)) /\ d_array (down_dim d) = half (d_array d) /\ d_type (down_dim d) = d_type d.
Proof.
  intros (A & B & C). unfold down_dim. apply Z.eqb_neq in A. rewrite A.
  replace (d_array d =? 0) with false by (symmetry; apply Z.eqb_neq; lia). auto.
Qed.
Lemma in_combine_map {A B} (f : A -> B) l a : In a l -> In (a, f a) (combine l (map f l)).
Proof. induction l; cbn; intros H; [tauto|]. destruct H as [->|H]; auto. Qed.
Lemma combine_map_in {A B} (f : A -> B) l p : In p (combine l (map f l)) -> In (fst p) l /\ snd p = f (fst p).
Proof. induction l; cbn; intros H; [tauto|]. destruct H as [<-|H]; auto. destruct (IHl H). auto. Qed.

Lemma goes_on_chunk c d : goes_on c = true -> In d (c_dims c) -> d_chunk d <= d_chunk (down_dim d).
Proof.
  unfold goes_on. intros H Hd. apply negb_true_iff in H. destruct (Z.le_gt_cases (d_chunk d) (d_chunk (down_dim d))) as [|X]; auto. exfalso.
  assert (T : existsb (fun p => d_chunk (snd p) <? d_chunk (fst p)) (combine (c_dims c) (map down_dim (c_dims c))) = true); [|congruence].
  apply existsb_exists. exists (d, down_dim d). split; [apply in_combine_map; auto|]. cbn. apply Z.ltb_lt. lia.
Qed.

Lemma enough_fuel f : forall c d, In d (c_dims c) -> shrinks d -> d_array d <= 2 ^ Z.of_nat f -> enough (S f) c = true.
Proof.
  induction f as [|f IH]; intros c d Hd S Ha.
  - cbn [enough]. destruct (goes_on c) eqn:Go; auto. exfalso. pose proof (goes_on_chunk c d Go Hd) as X.
    destruct (down_shrinks d S) as (A & _). destruct S as (S1 & S2 & S3). rewrite A in X.
    assert (d_array d = 1) as E1 by (change (2 ^ Z.of_nat 0) with 1 in Ha; lia). rewrite E1 in X. change (half 1) with 1 in X. lia.
  - change (enough (Datatypes.S (Datatypes.S f)) c) with (if goes_on c then enough (Datatypes.S f) (down_cfg c) else true).
    destruct (goes_on c) eqn:Go; auto. pose proof (goes_on_chunk c d Go Hd) as X.
    destruct (down_shrinks d S) as (A & B & C). destruct S as (S1 & S2 & S3).
    apply (IH _ (down_dim d)).
    + cbn. apply in_map. exact Hd.
    + unfold shrinks. rewrite B, C. pose proof (half_pos _ S2). repeat split; auto; lia.
    + rewrite B, half_eq. apply Z.lt_succ_r. apply Z.div_lt_upper_bound; [lia|].
      replace (2 ^ Z.of_nat (Datatypes.S f)) with (2 * 2 ^ Z.of_nat f) in Ha by (rewrite Nat2Z.inj_succ, Z.pow_succ_r; lia). lia.
Qed.
Lemma enough_40 c d : In d (c_dims c) -> shrinks d -> d_array d < 2 ^ 32 -> enough pyramid_fuel c = true.
Proof. intros H S A. apply (enough_fuel 39 c d H S). change (2 ^ Z.of_nat 39) with (2 ^ 39). assert (2 ^ 32 <= 2 ^ 39) by (apply Z.pow_le_mono_r; lia). lia. Qed.

Definition stuck (d : dim) : Prop := d_type d = ty_channel \/ d_array d = 0 \/ (0 < d_array d /\ d_chunk d = 1).
Lemma stuck_down d : stuck d -> stuck (down_dim d) /\ d_chunk (down_dim d) = d_chunk d.
Proof.
  unfold stuck, down_dim. destruct (Z.eqb_spec (d_type d) ty_channel) as [E1|E1]; [auto|]. intros [H|[H|[H1 H2]]]; [tauto| |].
  - rewrite H. cbn [Z.eqb d_array d_chunk]. auto.
  - replace (d_array d =? 0) with false by (symmetry; apply Z.eqb_neq; lia). cbn [d_type d_array d_chunk]. pose proof (half_pos _ H1). rewrite H2. split; [right; right; lia|lia].
Qed.
Lemma stuck_forever fuel : forall c, Forall stuck (c_dims c) -> enough fuel c = false.
Proof.
  induction fuel as [|f IH]; intros c H; [reflexivity|]. cbn [enough].
  assert (Go : goes_on c = true).
  { unfold goes_on. apply negb_true_iff. apply not_true_is_false. intros T. apply existsb_exists in T as (p & Hp & Lt).
    apply combine_map_in in Hp as [Hp1 Hp2]. rewrite Forall_forall in H. destruct (stuck_down _ (H _ Hp1)) as [_ X]. rewrite Hp2, X in Lt. apply Z.ltb_lt in Lt. lia. }
  rewrite Go. apply IH. cbn. apply Forall_map. eapply Forall_impl; [|exact H]. intros d Hd. apply stuck_down. exact Hd.
Qed.

(** ** The length of the group documents *)
Lemma jarr_len ind K l : (forall j, In j l -> (String.length (dump_at (ind + 4) j) <= K)%nat) ->
  (String.length (dump_at ind (JArr l)) <= (K + ind + 6) * List.length l + ind + 5)%nat.
Proof.
  intros H. destruct l as [|x l]; [cbn; lia|]. cbn [dump_at].
  set (go := fix go (l : list json) : string :=
         match l with
         | [] => ""
         | [x] => spaces (ind + 4) ++ dump_at (ind + 4) x
         | x :: l' => spaces (ind + 4) ++ dump_at (ind + 4) x ++ "," ++ nl ++ go l'
         end%string).
  assert (G : forall l, (forall j, In j l -> (String.length (dump_at (ind + 4) j) <= K)%nat) -> (String.length (go l) <= (K + ind + 6) * List.length l)%nat).
  { clear. induction l as [|x l IH]; intros H; [cbn; lia|]. assert (D := H x (or_introl eq_refl)). specialize (IH (fun j h => H j (or_intror h))).
    cbn [List.length] in *. destruct l as [|y l'].
    - cbn [go]. rewrite slen_app, spaces_len. cbn [List.length]. lia.
    - change (go (x :: y :: l')) with (spaces (ind + 4) ++ dump_at (ind + 4) x ++ "," ++ nl ++ go (y :: l'))%string.
      rewrite !slen_app, spaces_len. change (String.length nl) with 1%nat. change (String.length ",") with 1%nat. lia. }
  change (String.length ("[" ++ nl ++ go (x :: l) ++ nl ++ spaces ind ++ "]") <= (K + ind + 6) * List.length (x :: l) + ind + 5)%nat.
  rewrite !slen_app, spaces_len. specialize (G (x :: l) H). change (String.length nl) with 1%nat. cbn [String.length] in *. lia.
Qed.
Lemma escape_len s : (String.length (escape s) <= 6 * String.length s)%nat.
Proof.
  induction s as [|c s IH]; cbn [escape String.length]; [lia|]. rewrite slen_app.
  assert (String.length (escape_char c) <= 6)%nat; [|lia]. unfold escape_char.
  repeat match goal with |- context [if ?b then _ else _] => destruct b end; cbn; lia.
Qed.
Lemma quote_len s : (String.length (quote s) <= 6 * String.length s + 2)%nat.
Proof. unfold quote. rewrite !slen_app. pose proof (escape_len s). change (String.length dq) with 1%nat. lia. Qed.

Ltac lens2 := rewrite ?slen_app, ?spaces_len;
  repeat match goal with |- context [String.length (quote ?s)] => let v := eval vm_compute in (String.length (quote s)) in match v with O => idtac | S _ => idtac end; change (String.length (quote s)) with v end;
  change (String.length nl) with 1%nat; cbn [String.length].

Lemma type_len t : (String.length (quote (type_name t)) <= 20)%nat.
Proof. unfold type_name. repeat match goal with |- context [if ?b then _ else _] => destruct b end; vm_compute; lia. Qed.

Lemma axis_len ind b d : (ind <= 20)%nat -> (String.length (d_name d) <= 100)%nat -> (String.length (dump_at ind (axis_json b d)) <= 850)%nat.
Proof.
  intros Hi Hn. pose proof (quote_len (d_name d)) as Q. pose proof (type_len (d_type d)) as T. unfold axis_json.
  set (q := quote (d_name d)) in *. set (tn := quote (type_name (d_type d))) in *. destruct b; cbn [app dump_at]; fold q tn; clearbody q tn; lens2; lia.
Qed.
Lemma scales_len l : Forall (fun n => 0 <= n < 2 ^ 48) l -> forall ind, (ind <= 32)%nat -> (String.length (dump_at ind (JArr (map JDbl l))) <= 90 * List.length l + 60)%nat.
Proof.
  intros H ind Hi. pose proof (jarr_len ind 50 (map JDbl l)) as J. rewrite map_length in J. eapply Nat.le_trans; [apply J|].
  - intros j Hj. apply in_map_iff in Hj as (z & <- & Hz). rewrite Forall_forall in H. cbn [dump_at]. rewrite slen_app. pose proof (dec_len48 z (H z Hz)). cbn [String.length]. lia.
  - nia.
Qed.
Lemma dataset_len ind i l : (ind <= 20)%nat -> 0 <= i < 2 ^ 32 -> Forall (fun n => 0 <= n < 2 ^ 48) l ->
  (String.length (dump_at ind (dataset_json i l)) <= 90 * List.length l + 600)%nat.
Proof.
  intros Hi Hn Hl. pose proof (scales_len l Hl (ind + 12) ltac:(lia)) as J. unfold dataset_json.
  assert (DS : (String.length (quote (dec i)) <= 200)%nat). { pose proof (quote_len (dec i)). pose proof (dec_len i Hn). lia. }
  set (j := JArr (map JDbl l)) in *. set (q := quote (dec i)) in *. clearbody j.
  cbn [dump_at]. fold q. clearbody q. replace (ind + 4 + 4 + 4)%nat with (ind + 12)%nat by lia. lens2. lia.
Qed.

Lemma in_firstn_in {A} k (l : list A) x : In x (firstn k l) -> In x l.
Proof. intros H. rewrite <- (firstn_skipn k l). apply in_or_app. auto. Qed.
Lemma in_skipn_in {A} k (l : list A) x : In x (skipn k l) -> In x l.
Proof. intros H. rewrite <- (firstn_skipn k l). apply in_or_app. auto. Qed.
Lemma multiscale_len ind ds nw : (ind <= 8)%nat -> (nw <= 41)%nat -> (2 < List.length ds)%nat ->
  Forall (fun d => (String.length (d_name d) <= 100)%nat) ds ->
  (String.length (dump_at ind (multiscale_json ds nw)) <= 4600 * List.length ds + 4000 * 8)%nat.
Proof.
  intros Hi Hw Hl Hd. unfold multiscale_json.
  set (axes := axes_json ds). set (dsets := dataset_json 0 _ :: _).
  assert (A1 : (String.length (dump_at (ind + 8) axes) <= 880 * List.length ds + 30)%nat).
  { unfold axes, axes_json. pose proof (jarr_len (ind + 8) 850 (map (axis_json false) (firstn (List.length ds - 2) ds) ++ map (axis_json true) (skipn (List.length ds - 2) ds))) as J.
    rewrite app_length, !map_length, firstn_length, skipn_length in J. eapply Nat.le_trans; [apply J|].
    - rewrite Forall_forall in Hd. intros j Hj. apply in_app_or in Hj as [Hj|Hj]; apply in_map_iff in Hj as (d & <- & Hin); apply axis_len; try lia.
      + apply Hd. eapply in_firstn_in. exact Hin.
      + apply Hd. eapply in_skipn_in. exact Hin.
    - replace (Nat.min (List.length ds - 2) (List.length ds) + (List.length ds - (List.length ds - 2)))%nat with (List.length ds) by lia.
      assert ((850 + (ind + 8) + 6) * List.length ds <= 880 * List.length ds)%nat by (apply Nat.mul_le_mono_r; lia). lia. }
  assert (A2 : (String.length (dump_at (ind + 8) (JArr dsets)) <= (90 * List.length ds + 640) * 41 + 40)%nat).
  { assert (DL : (List.length dsets <= 41)%nat \/ nw = O) by (destruct nw; [auto|left]; unfold dsets; cbn [List.length]; rewrite map_length, seq_length; lia).
    assert (DE : forall j, In j dsets -> (String.length (dump_at (ind + 8 + 4) j) <= 90 * List.length ds + 600)%nat).
    { intros j [<-|Hj].
      - eapply Nat.le_trans; [apply dataset_len; [lia|lia|]|rewrite map_length; lia]. apply Forall_map. apply Forall_forall. intros; lia.
      - apply in_map_iff in Hj as (i & <- & Hin). apply in_seq in Hin.
        assert (P : 0 <= 2 ^ Z.of_nat i < 2 ^ 48) by (split; [lia|apply Z.pow_lt_mono_r; lia]).
        eapply Nat.le_trans; [apply dataset_len; [lia|lia|]|].
        + constructor; auto. apply Forall_app. split; [|repeat constructor; apply P]. apply Forall_forall. intros x Hx. apply repeat_spec in Hx. subst. lia.
        + cbn [List.length]. rewrite app_length, repeat_length. cbn [List.length]. lia. }
    pose proof (jarr_len (ind + 8) (90 * List.length ds + 600) dsets DE) as J. destruct DL as [DL|DL]; [nia|]. subst nw. unfold dsets in J |- *. cbn [seq map List.length Nat.sub] in J |- *. lia. }
  set (jd := JArr dsets) in *. clearbody axes jd. clear dsets.
  set (meta := if Nat.ltb 1 nw then _ else _).
  assert (M : meta = [] \/ meta = [ ("metadata", JObj [ ("args", JStr "[2]");
                                           ("description", JStr "The fields in the metadata describe how to reproduce this multiscaling in scikit-image. The method and its parameters are given here.");
                                           ("kwargs", JArr [ JStr "cval"; JInt 0 ]);
                                           ("method", JStr "skimage.transform.downscale_local_mean");
                                           ("version", JStr "0.21.0") ]);
                       ("type", JStr "local_mean") ]) by (unfold meta; destruct (Nat.ltb 1 nw); auto).
  clearbody meta. destruct M as [-> | ->]; cbn [app dump_at]; replace (ind + 4 + 4)%nat with (ind + 8)%nat by lia; lens2; pose proof (dec_len48 0 ltac:(lia)); lia.
Qed.
