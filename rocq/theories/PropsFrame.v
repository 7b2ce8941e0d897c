(** C48: a stream changes nothing outside its store, whatever the settings, calls, faults and outcomes. *)
Require Import ZArith List Bool String Ascii Lia.
Require Import Verif.Base Verif.Dim Verif.Json Verif.World Verif.PathProofs Verif.LayoutProofs Verif.Writer Verif.FrameProofs Verif.Stream Verif.Api Verif.SettingsSpec Verif.ValidProofs Verif.FrameStream Verif.FrameSpec Verif.SessionSpec Verif.Examples Verif.ExamplesUse.
Import ListNotations.
Open Scope string_scope. Open Scope list_scope. Open Scope Z_scope.

Lemma under_iff r p : under r p = true <-> p = r \/ exists x, p = (r ++ "/" ++ x)%string.
Proof.
  unfold under. rewrite orb_true_iff, String.eqb_eq. split; intros [H|H]; auto.
  - right. apply prefix_spec in H as (c & ->). exists c. rewrite sapp_assoc. reflexivity.
  - right. destruct H as (x & ->). rewrite <- sapp_assoc. apply prefix_app.
Qed.
Lemma under_sub r x : under r (r ++ "/" ++ x)%string = true.
Proof. apply under_iff. eauto. Qed.
Lemma outside_under root p : outside root p -> under root p = false.
Proof. intros (H & H'). destruct (under root p) eqn:U; auto. apply under_iff in U as [U|(x & U)]; [contradiction|destruct (H' x U)]. Qed.
Lemma sub_neq r x : (r ++ "/" ++ x)%string <> r.
Proof. intros H. apply (f_equal String.length) in H. rewrite !slength_app in H. cbn in H. lia. Qed.
Lemma strip_sub r x : String.prefix "file:" r = false -> strip_file (r ++ "/" ++ x)%string = (r ++ "/" ++ x)%string.
Proof. intros H. exact (strip_join r x [] H). Qed.
Lemma strip_root r : String.prefix "file:" r = false -> strip_file r = r.
Proof.
  intros H. unfold strip_file. destruct (String.prefix "file://" r) eqn:P; auto. exfalso. apply prefix_spec in P as (c & ->). cbn in H. destruct c; discriminate.
Qed.
Lemma last_slash_mid l m : last_slash (l ++ "/"%char :: m) = Some (l ++ match last_slash m with Some r => "/"%char :: r | None => [] end).
Proof.
  induction l as [|c l IH]; cbn [app last_slash].
  - destruct (last_slash m); reflexivity.
  - rewrite IH. reflexivity.
Qed.
Lemma sol_app l m : string_of_list_ascii (l ++ m) = (string_of_list_ascii l ++ string_of_list_ascii m)%string.
Proof. induction l; cbn; congruence. Qed.
Lemma parent_sub r x : parent_path (r ++ "/" ++ x)%string = r \/ exists y, parent_path (r ++ "/" ++ x)%string = (r ++ "/" ++ y)%string.
Proof.
  unfold parent_path. rewrite las_app. change (list_ascii_of_string ("/" ++ x)%string) with ("/"%char :: list_ascii_of_string x). rewrite last_slash_mid, sol_app, string_of_list_ascii_of_string.
  destruct (last_slash (list_ascii_of_string x)) as [l|]; cbn [string_of_list_ascii].
  - right. exists (string_of_list_ascii l). reflexivity.
  - left. apply sapp_nil_r.
Qed.

Section Store.
Variables (bucket : option string) (root : string).
Definition below (p : string) : Prop := exists x, p = (root ++ "/" ++ x)%string.
Lemma below_sub p x : below p -> below (p ++ "/" ++ x)%string.
Proof. intros (y & ->). exists (y ++ "/" ++ x)%string. rewrite !sapp_assoc. reflexivity. Qed.
Lemma below_ext p k : below p -> below (p ++ (if String.eqb p "" then dec k else "/" ++ dec k))%string.
Proof. intros H. destruct (String.eqb_spec p "") as [->|_]; [|apply below_sub; auto]. exfalso. destruct H as (y & H). destruct root; discriminate. Qed.
Definition ok_p (p : string) : Prop := bucket = None /\ below p.
Definition ok_dir (p : string) : Prop := bucket = None /\ (p = root \/ below p).
Definition ok_rm (p : string) : Prop := bucket = None /\ p = root.
Definition ok_obj (b k : string) : Prop := bucket = Some b /\ below k.
Lemma ok_place st : place st = (bucket, root) -> (bucket = None -> String.prefix "file:" root = false) -> okplace ok_dir ok_rm ok_obj ok_p st.
Proof.
  intros P HR. unfold okplace. rewrite P. cbn [fst snd]. split; [|split].
  - intros N. repeat split; auto.
  - unfold okroot. destruct bucket as [b|] eqn:HB; [intros x; split; [auto|exists x; reflexivity]|]. specialize (HR eq_refl). rewrite strip_root by auto. split; [split; auto|]. intros x. split; auto. exists x. reflexivity.
  - destruct bucket as [b|] eqn:HB; intros x; [split; [auto|exists x; reflexivity]|]. rewrite strip_sub by auto. split; auto. exists x. reflexivity.
Qed.
Lemma in_store_okev e : okev ok_dir ok_p ok_rm ok_obj e -> in_store bucket root e.
Proof.
  destruct e; cbn; intros [A B]; try (destruct B as (x & ->)); repeat split; auto using under_sub, sub_neq; try (destruct B as [->|(x & ->)]); try subst; auto using under_sub; apply under_iff; auto.
Qed.
Lemma stays_in_store E st calls w :
  place st = (bucket, root) -> (bucket = None -> String.prefix "file:" root = false) -> w_trace w = [] ->
  Forall (in_store bucket root) (w_trace (fst (session E st calls w))).
Proof.
  intros P HR W. destruct (p_session E ok_dir ok_p ok_rm ok_obj (fun _ => True) ok_p) with (st := st) (calls := calls) (s := w) as [[A _] _]; auto.
  - intros p [X Y]. split; auto.
  - intros p [X (y & ->)]. split; auto. destruct (parent_sub root y) as [->|(z & ->)]; [auto|right; exists z; auto].
  - intros p x [X Y]. split; auto using below_sub.
  - intros p k [X Y]. split; auto using below_ext.
  - intros b p x [X Y]. split; auto using below_sub.
  - intros b p k [X Y]. split; auto using below_ext.
  - apply ok_place; auto.
  - split; [rewrite W; constructor|exact I].
  - eapply Forall_impl; [|exact A]. intros e. apply in_store_okev.
Qed.

Lemma files_outside E tr p : Forall (in_store bucket root) tr -> (bucket = None -> outside root p) -> file_of E tr p = e_file0 E p.
Proof.
  intros H O. unfold file_of. generalize (e_file0 E p). induction H as [|e tr H HT IH]; intros c; [reflexivity|]. cbn [fold_left]. rewrite IH.
  assert (N : forall q, bucket = None -> under root q = true -> String.eqb q p = false).
  { intros q HN U. destruct (String.eqb_spec q p) as [->|]; auto. rewrite (outside_under _ _ (O HN)) in U. discriminate. }
  destruct e; cbn in *; auto; try (destruct H as (A & B & C); rewrite N by auto; reflexivity).
  destruct H as (A & B). destruct (under p0 p) eqn:U; auto. exfalso.
  assert (X := outside_under _ _ (O A)). clear - B U X. apply under_iff in U. apply under_iff in B. assert (under root p = true); [|congruence]. apply under_iff.
  destruct U as [->|(x & ->)], B as [->|(y & ->)]; eauto. right. exists (y ++ "/" ++ x)%string. rewrite !sapp_assoc. reflexivity.
Qed.
Lemma app_split (a b c d : string) : (a ++ b = c ++ d)%string -> exists t, (a = c ++ t)%string \/ (c = a ++ t)%string.
Proof.
  revert c. induction a as [|x a IH]; intros c H; [exists c; auto|]. destruct c as [|y c]; [exists (String x a); auto|]. cbn in H. injection H as -> H.
  destruct (IH _ H) as (t & [->| ->]); exists t; auto.
Qed.
(* p is neither root, nor below, nor an ancestor: then no directory of the store has p as an ancestor *)
Lemma unrelated p q : outside root p -> ~ ancestor p root -> under root q = true -> under p q = false.
Proof.
  intros [O1 O2] A U. destruct (under p q) eqn:V; auto. exfalso. apply under_iff in U. apply under_iff in V. destruct V as [->|(y & ->)].
  - destruct U as [U|(x & U)]; [auto|eapply O2; eauto].
  - destruct U as [U|(x & U)]; [apply A; exists y; auto|].
    destruct (app_split _ _ _ _ U) as (t & [E|E]).
    + destruct t as [|c t]; [rewrite sapp_nil_r in E; auto|]. subst p. rewrite sapp_assoc in U. apply sapp_inj_l in U. cbn in U. injection U as -> _. exact (O2 t eq_refl).
    + destruct t as [|c t]; [rewrite sapp_nil_r in E; auto|]. rewrite E in U. rewrite sapp_assoc in U. apply sapp_inj_l in U. cbn in U. injection U as <- _. apply A. exists t. exact E.
Qed.
Lemma dirs_outside E tr p : Forall (in_store bucket root) tr -> (bucket = None -> outside root p /\ ~ ancestor p root) -> dir_of E tr p = negb (String.eqb p "") && e_dir0 E p.
Proof.
  intros H O. unfold dir_of. f_equal. generalize (e_dir0 E p). induction H as [|e tr H HT IH]; intros c; [reflexivity|]. cbn [fold_left]. rewrite IH.
  destruct e; cbn in *; auto; destruct H as (A & B); destruct (O A) as [O1 O2].
  - rewrite (unrelated p p0) by auto. apply orb_false_r.
  - destruct (under p0 p) eqn:U; auto. exfalso. assert (X := outside_under _ _ O1). assert (under root p = true); [|congruence]. apply under_iff. apply under_iff in U. apply under_iff in B.
    destruct U as [->|(x & ->)], B as [->|(y & ->)]; eauto. right. exists (y ++ "/" ++ x)%string. rewrite !sapp_assoc. reflexivity.
Qed.
(* an ancestor of the root never disappears *)
Lemma dirs_above E tr p : Forall (in_store bucket root) tr -> outside root p -> e_dir0 E p = true -> fold_left (dir_step p) tr (e_dir0 E p) = true.
Proof.
  intros H O ->. induction H as [|e tr H HT IH]; [reflexivity|]. cbn [fold_left].
  destruct e; cbn in *; auto. destruct H as (A & B). destruct (under p0 p) eqn:U; auto. exfalso. assert (X := outside_under _ _ O). assert (under root p = true); [|congruence]. apply under_iff. apply under_iff in U. apply under_iff in B.
  destruct U as [->|(x & ->)], B as [->|(y & ->)]; eauto. right. exists (y ++ "/" ++ x)%string. rewrite !sapp_assoc. reflexivity.
Qed.
Lemma objects_outside E tr b k : Forall (in_store bucket root) tr -> (bucket = Some b -> outside root k) -> object_of E tr b k = e_obj0 E b k.
Proof.
  intros H O. unfold object_of. apply Forall_rev in H. induction H as [|e tr' H HT IH]; [reflexivity|]. cbn [object_rev].
  destruct e; auto; cbn in H; destruct H as (A & B & C); (destruct (String.eqb_spec b b0) as [->|]; [|exact IH]); (destruct (String.eqb_spec k k0) as [->|]; [|exact IH]); rewrite (outside_under _ _ (O A)) in B; discriminate.
Qed.
End Store.

Lemma store_place st bucket root : store_at st bucket root -> place st = (bucket, root).
Proof.
  intros [(p & Hp & Ht) H]. unfold place. rewrite Hp. cbn [opt_trim]. rewrite (trimmed_unique _ _ _ (trim_spec p) Ht).
  destruct (st_s3 st) as [x|]; [|subst; reflexivity]. destruct H as (b & t & Hb & Hbt & ->). cbn. rewrite Hb. cbn. rewrite (trimmed_unique _ _ _ (trim_spec b) Hbt). reflexivity.
Qed.
Lemma Forall_prefix {A} (P : A -> Prop) l1 l2 : Forall P (l1 ++ l2) -> Forall P l1.
Proof. intros H. apply Forall_app in H. tauto. Qed.

(** Everything a stream does, to the end or until something fails, throws or is undefined, concerns the store. Partial: a filesystem path that starts
    with "file:" is excluded (see the refutation below). *)
Theorem C48_partial : forall E st calls w bucket root,
  store_at st bucket root -> (bucket = None -> String.prefix "file:" root = false) -> w_trace w = [] ->
  Forall (in_store bucket root) (w_trace (fst (session E st calls w))).
Proof. intros. apply stays_in_store; auto using store_place. Qed.

(** What can be seen of that at any moment [seen] of the session: files, directories and objects elsewhere are as before. *)
Theorem C48_files_partial : forall E st calls w root seen later p,
  store_at st None root -> String.prefix "file:" root = false -> w_trace w = [] -> w_trace (fst (session E st calls w)) = seen ++ later ->
  outside root p -> file_of E seen p = e_file0 E p.
Proof. intros E st calls w root seen later p S R W T O. eapply files_outside; [|intros _; exact O]. eapply Forall_prefix. rewrite <- T. eapply C48_partial; eauto. Qed.
Theorem C48_directories_partial : forall E st calls w root seen later p,
  store_at st None root -> String.prefix "file:" root = false -> w_trace w = [] -> w_trace (fst (session E st calls w)) = seen ++ later ->
  outside root p -> p <> "" ->
  (e_dir0 E p = true -> dir_of E seen p = true) /\ (~ ancestor p root -> dir_of E seen p = e_dir0 E p).
Proof.
  intros E st calls w root seen later p S R W T O N. assert (F : Forall (in_store None root) seen). { eapply Forall_prefix. rewrite <- T. eapply C48_partial; eauto. }
  split.
  - intros D. unfold dir_of. rewrite (dirs_above None root E seen p) by auto. destruct (String.eqb_spec p ""); [contradiction|reflexivity].
  - intros A. rewrite (dirs_outside None root E seen p); auto. destruct (String.eqb_spec p ""); [contradiction|reflexivity].
Qed.
Theorem C48_objects : forall E st calls w bucket root seen later b k,
  store_at st (Some bucket) root -> w_trace w = [] -> w_trace (fst (session E st calls w)) = seen ++ later ->
  b <> bucket \/ outside root k -> object_of E seen b k = e_obj0 E b k.
Proof.
  intros E st calls w bucket root seen later b k S W T O. eapply (objects_outside (Some bucket) root).
  - eapply Forall_prefix. rewrite <- T. eapply C48_partial; eauto. discriminate.
  - intros X. injection X as ->. destruct O; [congruence|auto].
Qed.
(** a stream to S3 touches no file and no directory, a stream to the filesystem no object *)
Theorem C48_s3_no_files : forall E st calls w bucket root seen later p,
  store_at st (Some bucket) root -> w_trace w = [] -> w_trace (fst (session E st calls w)) = seen ++ later ->
  file_of E seen p = e_file0 E p /\ (p <> "" -> dir_of E seen p = e_dir0 E p).
Proof.
  intros E st calls w bucket root seen later p S W T. assert (F : Forall (in_store (Some bucket) root) seen). { eapply Forall_prefix. rewrite <- T. eapply C48_partial; eauto. discriminate. }
  split; [eapply files_outside; eauto; discriminate|]. intros N. rewrite (dirs_outside (Some bucket) root E seen p); auto; [|discriminate]. destruct (String.eqb_spec p ""); [contradiction|reflexivity].
Qed.
Theorem C48_fs_no_objects_partial : forall E st calls w root seen later b k,
  store_at st None root -> String.prefix "file:" root = false -> w_trace w = [] -> w_trace (fst (session E st calls w)) = seen ++ later ->
  object_of E seen b k = e_obj0 E b k.
Proof. intros E st calls w root seen later b k S R W T. eapply (objects_outside None root); [|discriminate]. eapply Forall_prefix. rewrite <- T. eapply C48_partial; eauto. Qed.
(** settings that say no place (no path, or S3 settings without a bucket name) lead to no event at all *)
Theorem C48_no_place : forall E st calls w, (forall bucket root, ~ store_at st bucket root) -> w_trace (fst (session E st calls w)) = w_trace w.
Proof.
  intros E st calls w H.
  assert (V : validate_settings E w (Some st) <> Ok true).
  { unfold validate_settings. destruct (_ || _)%bool; [discriminate|]. destruct (st_path st) as [p|] eqn:P; [|discriminate]. destruct (String.eqb p ""); [discriminate|].
    destruct (st_s3 st) as [x|] eqn:X.
    - destruct (x_bucket x) as [b|] eqn:B.
      + exfalso. apply (H (Some (trim b)) (trim p)). split; [exists p; split; [exact P|apply trim_spec]|]. rewrite X. exists b, (trim b). repeat split; auto. apply trim_spec.
      + unfold validate_s3, is_empty_string. rewrite B. destruct (x_endpoint x), (x_key x), (x_secret x); cbn; try discriminate; repeat (destruct (String.eqb _ ""); cbn); discriminate.
    - exfalso. apply (H None (trim p)). split; [exists p; split; [exact P|apply trim_spec]|]. rewrite X. reflexivity. }
  unfold session, api_create, catchM, bind, new_stream. destruct (validate_settings E w (Some st)) as [[|]|m| |]; try contradiction; reflexivity.
Qed.

(** A path that starts with "file://": the store's directory is made (and an existing store removed) under the literal name, chunks and metadata go
    to the path without "file://". Here the literal parent "file:/" is a directory, so the settings are accepted. *)
Definition uri_env : env :=
  mkenv (e_file0 ex_env) (fun p => String.eqb p "file:/" || String.eqb p "out") (e_obj0 ex_env) (e_fault ex_env) (e_s3 ex_env) (e_conns ex_env) (e_compress ex_env) (e_writable ex_env) (e_parse ex_env) (e_stat ex_env).
Definition uri_settings : settings :=
  mksettings (Some "file://out") (Some "{}") None None (Some (map ex_udim ex_dims)) false dt_uint16 2.
Lemma uri_place bucket root : store_at uri_settings bucket root -> bucket = None /\ root = "file://out"%string.
Proof.
  intros [(p & P & T) B]. cbn in P. injection P as <-. split; [exact B|]. symmetry. apply (trimmed_unique "file://out"); [|exact T]. exact (trim_spec "file://out").
Qed.
Theorem C48_file_uri_refuted : exists E st calls w bucket root p,
  store_at st bucket root /\ bucket = None /\ w_trace w = [] /\ e_file0 E p = None /\ outside root p /\
  exists d, file_of E (w_trace (fst (session E st calls w))) p = Some d.
Proof.
  exists uri_env, uri_settings, [], ex_world, None, "file://out"%string, "out/.zgroup"%string.
  split; [split; [exists "file://out"%string; split; [reflexivity|exact (trim_spec "file://out")]|reflexivity]|].
  repeat split; try discriminate. eexists. vm_compute. reflexivity.
Qed.

(** The hypotheses are met by sessions that do write: the traces of these sessions have this many events, on the filesystem and on S3, with and
    without faults. *)
Definition faulty (E : env) : env :=
  mkenv (e_file0 E) (e_dir0 E) (e_obj0 E) (fun k => Nat.ltb 12 k) (fun k => Nat.ltb k 3) (e_conns E) (e_compress E) (e_writable E) (e_parse E) (e_stat E).
Definition many (u : use) (E : env) : nat := List.length (w_trace (fst (session E (u_set u) (calls (ex_groups 2 6)) (u_world u)))).
Example C48_hypotheses : forall v, In v [2; 3] ->
  store_at (u_set (ex_plain v false)) None "out" /\ store_at (u_set (ex_plain v true)) (Some "bucket") "out" /\
  String.prefix "file:" "out" = false /\ w_trace (u_world (ex_plain v true)) = [] /\ outside "out" "elsewhere" /\ outside "out" "out2/0/0" /\
  (50 < many (ex_plain v false) ex_env)%nat /\ (10 < many (ex_plain v true) ex_env)%nat /\ (5 < many (ex_plain v false) (faulty ex_env))%nat /\ (many (ex_plain v false) (faulty ex_env) < many (ex_plain v false) ex_env)%nat.
Proof.
  intros v Hv.
  assert (A : store_at (u_set (ex_plain v false)) None "out"). { split; [exists " out "%string; split; [reflexivity|exact (trim_spec " out ")]|reflexivity]. }
  assert (B : store_at (u_set (ex_plain v true)) (Some "bucket") "out").
  { split; [exists " out "%string; split; [reflexivity|exact (trim_spec " out ")]|]. exists " bucket "%string, "bucket"%string. split; [reflexivity|]. split; [exact (trim_spec " bucket ")|reflexivity]. }
  split; [exact A|]. split; [exact B|]. split; [reflexivity|]. split; [reflexivity|]. split; [split; discriminate|]. split; [split; discriminate|].
  destruct Hv as [<-|[<-|[]]]; repeat split; apply Nat.ltb_lt; vm_compute; reflexivity.
Qed.

Print Assumptions C48_partial.
Print Assumptions C48_files_partial.
Print Assumptions C48_directories_partial.
Print Assumptions C48_objects.
Print Assumptions C48_s3_no_files.
Print Assumptions C48_fs_no_objects_partial.
Print Assumptions C48_no_place.
Print Assumptions C48_file_uri_refuted.
