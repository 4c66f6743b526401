(** Texts on the wire: numbers, lines, events. *)
From Coq Require Import Lia ZifyClasses ZifyInst ZifyN Zify.
From Verif Require Import Prelude Lex SubsModel SubsProofs DbModel NmModel MbModel MbSpec.
Ltac Zify.zify_post_hook ::= Z.div_mod_to_equations.
Open Scope N_scope.

(** ** Numbers *)
Lemma decstr_digits : forall n, Forall (fun c => 48 <= c /\ c <= 57) (decstr n).
Proof.
  intros n. unfold decstr. rewrite Forall_map. pose proof (to_digits_bound 10 (ndigits (N.size_nat n) 10 n) n ltac:(lia)) as F.
  eapply Forall_impl; [|exact F]. cbn beta. intros a L. clear - L. lia.
Qed.
Lemma decstr_ne : forall n, decstr n <> [].
Proof.
  intros n E. apply (f_equal (@List.length N)) in E. unfold decstr in E. rewrite map_length, to_digits_length in E. cbn in E. pose proof (ndigits_pos (N.size_nat n) 10 n). lia.
Qed.
Lemma decint_decstr : forall n, decint (decstr n) = Ok n.
Proof.
  intros n. unfold decint. pose proof (decstr_ne n) as NE. pose proof (decstr_digits n) as D.
  assert (A : isnil (decstr n) = false) by (destruct (decstr n); [congruence|reflexivity]). rewrite A. cbn [orb].
  assert (B : forallb (fun c => (48 <=? c) && (c <=? 57)) (decstr n) = true).
  { apply forallb_forall. intros x IN. rewrite Forall_forall in D. specialize (D x IN). apply andb_true_iff. split; apply N.leb_le; lia. }
  rewrite B. cbn [negb]. f_equal. unfold decstr. rewrite map_map.
  rewrite (map_ext _ (fun d => d)) by (intros; lia). rewrite map_id. apply of_to_digits; [lia|]. apply ndigits_bound; [lia|]. apply size_bound.
Qed.
Lemma decstr_oneLine : forall n, oneLine (decstr n).
Proof. intros n. pose proof (decstr_digits n) as D. rewrite Forall_forall in D. split; intros IN; specialize (D _ IN); lia. Qed.

(** ** Lines *)
Lemma lines_one : forall s cur r, oneLine s -> lines cur (s ++ 10 :: r) = (rev cur ++ s) :: lines [] r.
Proof.
  induction s as [|x s IH]; intros cur r [A B]; cbn [app lines].
  - rewrite app_nil_r. reflexivity.
  - assert (X : x <> 10) by (intros ->; apply A; left; reflexivity). assert (Y : x <> 13) by (intros ->; apply B; left; reflexivity).
    apply N.eqb_neq in X, Y. rewrite X, Y. rewrite IH.
    + cbn [rev]. rewrite <- app_assoc. reflexivity.
    + split; intros IN; [apply A|apply B]; right; exact IN.
Qed.
Lemma oneLine_app : forall a b, oneLine a -> oneLine b -> oneLine (a ++ b).
Proof. intros a b [A B] [C D]. split; intros IN; apply in_app_or in IN; tauto. Qed.
Lemma oneLine_b : forall s, forallb (fun c => negb (c =? 10) && negb (c =? 13)) s = true -> oneLine s.
Proof.
  intros s F. rewrite forallb_forall in F. split; intros IN; specialize (F _ IN); vm_compute in F; discriminate.
Qed.
Definition evOf (e : sent) : event := mkEv (decstr (sFn e)) (sTopic e) (sMsg e).
Definition okSent (e : sent) : Prop := oneLine (sTopic e) /\ oneLine (sMsg e).

Lemma lines_frame : forall e r, okSent e ->
  lines [] (frame e ++ r) = (s2b "id: " ++ decstr (sFn e)) :: (s2b "event: " ++ sTopic e) :: s2b "retry: 5000" :: (s2b "data: " ++ sMsg e) :: [] :: lines [] r.
Proof.
  intros e r [A B]. unfold frame.
  assert (O : forall x, forallb (fun c => negb (c =? 10) && negb (c =? 13)) x = true -> oneLine x) by (intros; apply oneLine_b; assumption).
  repeat rewrite <- app_assoc. cbn [app].
  rewrite app_assoc, lines_one by (apply oneLine_app; [apply O; vm_compute; reflexivity|apply decstr_oneLine]). cbn [rev app]. apply f_equal2; [reflexivity|].
  repeat rewrite <- app_assoc. cbn [app].
  rewrite app_assoc, lines_one by (apply oneLine_app; [apply O; vm_compute; reflexivity|exact A]). cbn [rev app]. apply f_equal2; [reflexivity|].
  repeat rewrite <- app_assoc. cbn [app].
  rewrite lines_one by (apply O; vm_compute; reflexivity). cbn [rev app]. apply f_equal2; [reflexivity|].
  repeat rewrite <- app_assoc. cbn [app].
  rewrite app_assoc, lines_one by (apply oneLine_app; [apply O; vm_compute; reflexivity|exact B]). cbn [rev app]. apply f_equal2; [reflexivity|].
  reflexivity.
Qed.
Lemma partition_app : forall f v, ~ In 58 f -> partition (f ++ 58 :: v) = (f, v).
Proof.
  induction f as [|x f IH]; intros v NI; cbn [app partition]; [reflexivity|].
  assert (X : x <> 58) by (intros ->; apply NI; left; reflexivity). apply N.eqb_neq in X. rewrite X, IH by (intros I; apply NI; right; exact I). reflexivity.
Qed.
Lemma readLines_frame : forall i n e r, 
  readLines (mkBlock i n []) ((s2b "id: " ++ decstr (sFn e)) :: (s2b "event: " ++ sTopic e) :: s2b "retry: 5000" :: (s2b "data: " ++ sMsg e) :: [] :: r) =
  evOf e :: readLines (mkBlock (decstr (sFn e)) [] []) r.
Proof. intros. unfold evOf. reflexivity. Qed.
Lemma sse_render_from : forall l i, Forall okSent l -> readLines (mkBlock i [] []) (lines [] (render l)) = map evOf l.
Proof.
  induction l as [|e l IH]; intros i F; [reflexivity|]. inversion F; subst. unfold render in *. cbn [map List.concat].
  rewrite lines_frame by assumption. rewrite readLines_frame. rewrite IH by assumption. reflexivity.
Qed.
Lemma sse_render : forall l, Forall okSent l -> sse (render l) = map evOf l.
Proof. intros l F. apply sse_render_from. exact F. Qed.

(** ** A cut connection *)
Lemma lines_cut : forall n s cur, exists r, lines cur s = lines cur (firstn n s) ++ r.
Proof.
  induction n as [n IH] using (well_founded_induction lt_wf). intros s cur.
  destruct n as [|n]; [exists (lines cur s); reflexivity|]. destruct s as [|x s]; [exists []; reflexivity|]. cbn [firstn lines].
  destruct (x =? 10).
  - destruct (IH n ltac:(lia) s []) as (r & R). exists r. rewrite R. reflexivity.
  - destruct (x =? 13); [|apply IH; lia].
    destruct s as [|y s]; [exists []; rewrite firstn_nil; reflexivity|]. destruct n as [|n].
    + cbn [firstn]. destruct (y =? 10); eexists; reflexivity.
    + cbn [firstn]. destruct (y =? 10).
      * destruct (IH n ltac:(lia) s []) as (r & R). exists r. rewrite R. reflexivity.
      * destruct (IH (S n) ltac:(lia) (y :: s) []) as (r & R). cbn [firstn] in R. exists r. rewrite R. reflexivity.
Qed.
Lemma readLines_app : forall a b bl, exists r, readLines bl (a ++ b) = readLines bl a ++ r.
Proof.
  induction a as [|x a IH]; intros b bl; cbn [app readLines]; [eexists; reflexivity|]. destruct (readLine bl x) as [bl' o].
  destruct (IH b bl') as (r & R). exists r. rewrite R, app_assoc. reflexivity.
Qed.
Lemma sse_cut : forall n s, exists r, sse s = sse (firstn n s) ++ r.
Proof. intros n s. unfold sse. destruct (lines_cut n s []) as (r & R). rewrite R. apply readLines_app. Qed.
