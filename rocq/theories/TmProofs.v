(** Proofs about messengers. *)
From Coq Require Import Lia.
From Verif Require Import Prelude TmModel TmSpec.
Open Scope N_scope.

Definition cur (s : tcp) : list N := match t_cur s with Some m => [m] | None => [] end.
Lemma tcp_inv : forall q xs, let s := tcpRun q xs in tcpGiven q xs = t_sent s ++ cur s ++ t_q s /\ t_posted s = List.length (t_sent s ++ cur s).
Proof.
  intros q xs. induction xs as [|x xs IH] using rev_ind; [cbn; unfold tcpGiven; cbn; rewrite app_nil_r; auto|].
  unfold tcpRun, tcpGiven in *. rewrite fold_left_app, flat_map_app. cbn [fold_left flat_map] in *. set (s := fold_left tcpStep xs (tcp0 q)) in *. clearbody s.
  destruct IH as (A & B). rewrite app_assoc, A. clear A. destruct s as [qq c p st]. unfold cur in *. cbn [t_q t_cur t_posted t_sent] in *. destruct x as [m|e]; cbn [tcpStep t_q t_cur t_posted t_sent].
  - rewrite app_nil_r, <- !app_assoc. split; [reflexivity|exact B].
  - cbn [app]. rewrite app_nil_r. destruct c as [m|].
    + destruct e; cbn [t_q t_cur t_posted t_sent]; [|split; [reflexivity|exact B]]. rewrite <- !app_assoc. cbn [app]. split; [reflexivity|exact B].
    + destruct qq as [|m qq]; cbn [t_q t_cur t_posted t_sent]; [split; [reflexivity|exact B]|]. cbn [app]. split; [reflexivity|]. rewrite app_nil_r in B. rewrite app_length. cbn. lia.
Qed.
Lemma requests_app : forall parts a b, requests parts (a ++ b) = (requests parts a + requests parts b)%nat.
Proof. intros parts. unfold requests. induction a as [|m a IH]; intros b; cbn [app fold_right]; [reflexivity|]. rewrite IH. lia. Qed.
Lemma http_inv : forall parts q xs, let s := httpRun parts q xs in httpGiven q xs = h_done s ++ h_q s /\ h_posted s = requests parts (h_done s) /\ h_posted s = (h_sent s + h_out s)%nat.
Proof.
  intros parts q xs. induction xs as [|x xs IH] using rev_ind; [cbn; unfold httpGiven; cbn; rewrite app_nil_r; auto|].
  unfold httpRun, httpGiven in *. rewrite fold_left_app, flat_map_app. cbn [fold_left flat_map] in *. set (s := fold_left (httpStep parts) xs (http0 q)) in *. clearbody s.
  destruct IH as (A & B & C). rewrite app_assoc, A. clear A. destruct s as [qq o p st d]. cbn [h_q h_out h_posted h_sent h_done] in *. destruct x as [m|e|]; cbn [httpStep h_q h_out h_posted h_sent h_done].
  - rewrite app_nil_r, <- !app_assoc. auto.
  - cbn [app]. rewrite app_nil_r. destruct e; cbn [h_q h_out h_posted h_sent h_done]; [|auto]. destruct qq as [|m qq]; cbn [h_q h_out h_posted h_sent h_done]; [auto|].
    rewrite <- app_assoc. cbn [app]. split; [reflexivity|]. rewrite requests_app. cbn. split; lia.
  - cbn [app]. rewrite app_nil_r. destruct o; cbn [h_q h_out h_posted h_sent h_done]; [auto|]. split; [reflexivity|]. split; [exact B|lia].
Qed.
Definition worked (l : list (N * bool)) : list N := map fst (filter snd l).
Lemma pub_inv : forall xs, exists d, let s := pubRun xs in pubGiven xs = d ++ p_q s /\ p_posted s = List.length d /\ p_cues s = worked d.
Proof.
  intros xs. induction xs as [|x xs IH] using rev_ind; [exists []; cbn; auto|].
  unfold pubRun, pubGiven in *. rewrite fold_left_app, flat_map_app. cbn [fold_left flat_map] in *. set (s := fold_left pubStep xs pub0) in *. clearbody s.
  destruct IH as (d & A & B & C). rewrite A. clear A. destruct s as [q p c]. cbn [p_q p_posted p_cues] in *. destruct x as [m b|]; cbn [pubStep p_q p_posted p_cues].
  - exists d. rewrite app_nil_r, <- app_assoc. auto.
  - cbn [app]. rewrite app_nil_r. destruct q as [|(m, b) q]; cbn [p_q p_posted p_cues]; [exists d; auto|]. exists (d ++ [(m, b)]). rewrite <- app_assoc. split; [reflexivity|]. rewrite app_length. cbn. split; [lia|].
    unfold worked. rewrite filter_app, map_app. fold (worked d). rewrite <- C. cbn. destruct b; cbn; [reflexivity|rewrite app_nil_r; reflexivity].
Qed.
Lemma filter_le : forall (l : list (N * bool)), (List.length (worked l) <= List.length l)%nat /\ (List.length (worked l) = List.length l -> Forall (fun x => snd x = true) l).
Proof.
  unfold worked. induction l as [|(m, b) l (I1 & I2)]; [cbn; auto|]. cbn. destruct b; cbn; (split; [lia|]); intros Q; [constructor; [reflexivity|apply I2; lia]|lia].
Qed.
