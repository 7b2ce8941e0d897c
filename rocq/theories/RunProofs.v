(** The state between two calls of a fair use (RunSpec.v). *)
Require Import ZArith List Bool String Ascii Lia Zify.
Require Import Verif.Base Verif.Spec Verif.Dim Verif.Limits Verif.World Verif.SinkProofs Verif.Writer Verif.LevelProofs Verif.StreamProofs Verif.PyramidProofs Verif.MetaProofs Verif.Stream Verif.Api
  Verif.SettingsSpec Verif.SessionSpec Verif.SessionProofs Verif.AppendProofs Verif.LevelsProofs Verif.RunSpec.
Import ListNotations.
Open Scope string_scope.
Open Scope list_scope.
Open Scope Z_scope.

Section R.
Variable u : use.
Hypothesis HU : fair_use u.
Variable groups : list (list (list Z)).
Hypothesis HG : whole_frames u groups.
Let E := u_env u.
Let st := u_set u.
Let v3 := (st_version st =? 3).
Let SINV := sinv E v3 (u_root u) (u_bk u) (u_L0 u) (u_Lr u) (st_dtype st).
Let F := List.concat groups.

Lemma running_unique s w s' w' : running u groups s w -> running u groups s' w' -> s' = s /\ w' = w.
Proof. intros (s1 & w1 & A & B) (s2 & w2 & A' & B'). rewrite A in A'. injection A' as <- <-. rewrite B in B'. injection B' as <- <-. auto. Qed.

Lemma run_state : exists s w Fs, running u groups s w /\ SINV Fs (docs_of E v3 (u_L0 u) (u_Lr u) (u_custom u)) s w /\ (st_multi st = true -> s_multi s = true) /\
  forall i L, nth_error (u_L0 u :: u_Lr u) i = Some L -> nth i Fs [] = u_frames u F i.
Proof.
  destruct HG as [HF HL]. destruct (created u HU) as (s1 & w1 & R1 & I1 & M1).
  destruct (u_appends u HU groups _ _ s1 w1 I1 HF) as (s & w & Fs & R & I & N & _).
  { change (nth 0 (repeat (@nil (list Z)) (List.length (u_L0 u :: u_Lr u))) []) with (@nil (list Z)). exact HL. }
  exists s, w, Fs. split; [exists s1, w1; auto|]. split; [exact I|].
  split.
  - intros M. destruct (s_multi s) eqn:M2; auto. exfalso. pose proof (si_multi _ _ _ _ _ _ _ _ _ _ _ I M2) as X.
    pose proof (level_count u HU M) as (Y & _). rewrite X in Y. cbn in Y. lia.
  - intros i L Hi. apply (u_synced u Fs _ s w F I N i L Hi).
Qed.
End R.
