From Verif Require Import Prelude SubsModel JsonModel JsonProofs ThModel RpModel RpSpec RpProofs RpFair RpLive.
Open Scope N_scope.
Ltac Zify.zify_post_hook ::= Z.div_mod_to_equations.

Lemma c52_authentic : forall e l d k, hist e l d -> isKsn k = false ->
  (dget (ans d) k = None /\ dget (vals d) k = None) \/
  exists r aid v, dget (ans d) k = Some (q_said r) /\ dget (vals d) k = Some v /\ says e r aid k v /\ saidOk e r = true /\
    (exists kv cs gs, In (Msg kv r cs gs) l) /\
    ((exists kv cs gs, In (Msg kv r cs gs) l /\ signedSingle e r aid cs) \/
     (exists a sn dig, In a l /\ signedState e (viewOf a) r aid sn dig)).
Proof.
  intros e l d k H NK. destruct (authentic e l d H k NK) as [X|(r & aid & v & kv & A1 & A2 & A3 & A4 & A5 & A6 & A7)]; [left; exact X|right].
  exists r, aid, v. do 4 (split; [assumption|]). split; [exact A5|]. destruct A7 as [(cs & gs & kv' & I & S1)|(sn & dig & S1)].
  - left. exists kv', cs, gs. auto.
  - right. apply in_map_iff in A6. destruct A6 as (a & E & I). exists a, sn, dig. rewrite E. auto.
Qed.

Lemma c52_sweep : forall e kv now l d, hist e l d ->
  exists l', hist e (l' ++ l) (processEscrowReply e kv now d) /\ Forall (fun a => exists route said, a = Item kv now route said) l'.
Proof. exact sweep_hist. Qed.

Lemma c52_one_delivery : forall e kv r cs gs d d' x k, processReply e kv r cs gs d = (d', x) -> isKsn k = false ->
  dget (ans d') k <> dget (ans d) k \/ dget (vals d') k <> dget (vals d) k ->
  x = Ok tt /\ saidOk e r = true /\ exists aid v, says e r aid k v /\ dget (ans d') k = Some (q_said r) /\ dget (vals d') k = Some v /\
    ((signedSingle e r aid cs /\
      forall s y, dget (ans d) k = Some s -> s <> q_said r -> dget (sdts d) s = Some y -> y < q_dt r) \/
     (exists g, In g gs /\ g_pre g = aid /\ signedState e kv r aid (g_sn g) (g_dig g) /\
      forall s t0 ts, dget (ans d) k = Some s -> s <> q_said r -> fetchTsgs (tsgs d) s None = t0 :: ts ->
        t_sn t0 < g_sn g \/ (t_sn t0 = g_sn g /\ forall y, dget (sdts d) s = Some y -> y < q_dt r))).
Proof.
  intros e kv r cs gs d d' x k H NK CH. destruct (process_changes e kv r cs gs d d' x k H NK CH) as (-> & p & A1 & A2 & -> & A4 & A5 & A6).
  split; [reflexivity|]. split; [exact A1|]. exists (p_aid p), (p_val p). split; [apply parse_says; exact A2|]. do 2 (split; [assumption|]).
  assert (O : forall s, dget (ans d) (p_key p) = Some s -> s <> q_said r -> obsolete p r d = Some s).
  { intros s E N. unfold obsolete. rewrite E. apply beq_neq in N. rewrite N, andb_false_r. reflexivity. }
  destruct A6 as [[S1 L]|(g & I & P & S1 & F)].
  - left. split; [exact S1|]. intros s y E N D. apply L. rewrite (O s E N). exact D.
  - right. exists g. do 3 (split; [assumption|]). intros s t0 ts E N D. pose proof (F s (O s E N) N) as FF.
    unfold fresh in FF. rewrite D in FF. specialize (FF t0 eq_refl). rewrite (O s E N) in FF. cbn [odtOf] in FF.
    destruct FF as [FF|[F1 F2]]; [left; exact FF|right]. split; [auto|exact F2].
Qed.

Lemma c52_newer_single_recorded : forall e kv r aid k v cs d, says e r aid k v -> saidOk e r = true -> signedSingle e r aid cs ->
  (memB aid (owns e) = true -> lax e = true \/ local e = true) ->
  (forall s x, dget (ans d) k = Some s -> dget (sdts d) s = Some x -> x < q_dt r) ->
  exists d', processReply e kv r cs [] d = (d', Ok tt) /\ dget (ans d') k = Some (q_said r) /\ dget (vals d') k = Some v.
Proof.
  intros e kv r aid k v cs d SY SO SS OW OR. apply (newer_single e kv r aid k v cs d SY SO SS); [|exact OR].
  unfold skipOwn. destruct (lax e); [reflexivity|]. destruct (memB aid (owns e)); [|reflexivity]. destruct (OW eq_refl) as [X| ->]; [discriminate|reflexivity].
Qed.

Lemma c52_newer_state_recorded : forall e kv r aid k v g ev d, says e r aid k v -> saidOk e r = true ->
  (memB aid (owns e) = true -> lax e = true \/ local e = true) ->
  g_pre g = aid -> at_sn kv aid (g_sn g) = Some ev -> e_said ev = g_dig g ->
  g_sigs g <> [] -> NoDup (map sg_qb64 (g_sigs g)) -> thsize (e_th ev) <= len (e_keys ev) -> satisfy (e_th ev) (map sg_index (g_sigs g)) = true ->
  (forall s, In s (g_sigs g) -> exists k, nth_error (e_keys ev) (N.to_nat (sg_index s)) = Some k /\ vrfy e k (sg_raw s) (q_raw r) = true) ->
  fetchTsgs (tsgs d) (q_said r) None = [] ->
  (forall s t0 ts, dget (ans d) k = Some s -> fetchTsgs (tsgs d) s None = t0 :: ts ->
     t_sn t0 < g_sn g \/ (t_sn t0 = g_sn g /\ forall x, dget (sdts d) s = Some x -> x < q_dt r)) ->
  exists d', processReply e kv r [] [g] d = (d', Ok tt) /\ dget (ans d') k = Some (q_said r) /\ dget (vals d') k = Some v.
Proof.
  intros e kv r aid k v g ev d SY SO OW GP AT ES NE ND TS SA V FR OS.
  apply (newer_group e kv r aid k v g ev d SY SO); auto.
  - unfold skipOwn. destruct (lax e); [reflexivity|]. destruct (memB aid (owns e)); [|reflexivity]. destruct (OW eq_refl) as [X| ->]; [discriminate|reflexivity].
  - repeat (split; [assumption|]). assumption.
Qed.

Lemma c34_no_rollback_partial : forall e w, unique w -> forall d1 d2 k s1, fair e w rdb0 d1 -> fair e w d1 d2 ->
  isKsn k = false -> dget (ans d1) k = Some s1 ->
  exists s2, dget (ans d2) k = Some s2 /\
    (s2 = s1 \/ exists r1 r2 aid v1 v2, msgs w r1 /\ msgs w r2 /\ q_said r1 = s1 /\ q_said r2 = s2 /\
       says e r1 aid k v1 /\ says e r2 aid k v2 /\ later (rank e w aid r1) (rank e w aid r2)).
Proof. exact no_rollback. Qed.

Lemma c52_key_state_notice : forall e kv r cs gs d d' x k, processReply e kv r cs gs d = (d', x) -> isKsn k = true ->
  dget (ans d') k <> dget (ans d) k \/ dget (vals d') k <> dget (vals d) k ->
  x = Ok tt /\ exists aid q, saidOk e r = true /\ findRoute (q_route r) = Some (HKsn aid) /\ q_ksr r = Some q /\
    (k = key tagKsn [ks_i q; aid] /\ dget (ans d') k = Some (ks_d q) \/ k = key tagKsn [ks_d q] /\ dget (vals d') k = Some (ks_rec q)) /\
    (signedSingle e r aid cs \/ exists sn dig, signedState e kv r aid sn dig) /\
    (forall ev, at_sn kv (ks_i q) (ks_s q) = Some ev -> e_said ev = ks_d q) /\
    (forall n, cur_sn kv (ks_i q) = Some n -> n <= ks_s q) /\
    (lax e = true \/ aid = ks_i q \/ In aid (ks_b q) \/ In aid (wats e)).
Proof. exact ksn_changes. Qed.

(** Concrete receivers.  Signatures are (key, message) pairs.  The identifier "T" is transferable, with keys
    K0, K1 and threshold 2 at sequence number 0 and keys L0 at 1; the identifier "b" is nontransferable with
    its inception event in the log. *)
Definition xenv : renv := mkEnv (fun k => beq k (s2b "T")) (fun k s m => beq s (k ++ m)) (fun _ => true) (fun _ => true)
  (fun _ => []) true false [] [].
Definition xkv : kview := mkKv (fun p n =>
  if beq p (s2b "T") then
    (if n =? 0 then Some (mkEst (s2b "E0") [s2b "K0"; s2b "K1"] (TNum 2))
     else if n =? 1 then Some (mkEst (s2b "E1") [s2b "L0"] (TNum 1)) else None)
  else if beq p (s2b "b") then (if n =? 0 then Some (mkEst (s2b "Eb") [s2b "b"] (TNum 1)) else None)
  else None) (fun _ => None).
Definition role (who said : string) (dt : N) (on : bool) : reply :=
  mkReply (s2b said) (s2b said) dt (s2b (if on then "/end/role/add" else "/end/role/cut"))
    [(s2b "cid", s2b who); (s2b "role", s2b "witness"); (s2b "eid", s2b "W")] None.
Definition loc (who said url : string) (dt : N) : reply :=
  mkReply (s2b said) (s2b said) dt (s2b "/loc/scheme")
    [(s2b "eid", s2b who); (s2b "scheme", s2b "http"); (s2b "url", s2b url)] None.
Definition sigBy (i : N) (key : string) (r : reply) : siger := mkSiger (i :: s2b key ++ q_raw r) i (s2b key ++ q_raw r).
Definition by0 (r : reply) : group := mkG (s2b "T") 0 (s2b "E0") [sigBy 0 "K0" r; sigBy 1 "K1" r].
Definition half0 (r : reply) : group := mkG (s2b "T") 0 (s2b "E0") [sigBy 0 "K0" r].
Definition by1 (r : reply) : group := mkG (s2b "T") 1 (s2b "E1") [sigBy 0 "L0" r].
Definition runs (e : renv) (l : list act) : rdb := fold_right (run e) rdb0 l.
Lemma runs_hist : forall e l, hist e l (runs e l).
Proof. intros e l. induction l as [|a l IH]; [apply h_start|]. cbn [runs fold_right]. apply h_step. exact IH. Qed.
Definition kRole (who : string) : bytes := key tagEnd [s2b who; s2b "witness"; s2b "W"].
Definition kLoc (who : string) : bytes := key tagLoc [s2b who; s2b "http"].

(** after [l], [k] is recorded as said by [r2]; then after [l'] more as said by the earlier dated [r1] *)
Definition rolledBack (e : renv) (l l' : list act) (k : bytes) (r1 r2 : reply) : Prop :=
  exists d d' aid v1 v2, hist e l d /\ hist e (l' ++ l) d' /\ says e r1 aid k v1 /\ says e r2 aid k v2 /\
    dget (ans d) k = Some (q_said r2) /\ dget (ans d') k = Some (q_said r1) /\ dget (vals d') k = Some v1 /\ q_dt r1 < q_dt r2.

Lemma roleSays : forall who said dt on, says xenv (role who said dt on) (s2b who) (kRole who) (flag on).
Proof.
  intros who said dt on. apply (says_role xenv (role who said dt on) on []); try reflexivity.
  - unfold role. cbn [q_route]. rewrite app_nil_r. reflexivity.
  - intros [].
  - apply SerProofs.memB_In. vm_compute. reflexivity.
Qed.
Lemma locSays : forall who said url dt, says xenv (loc who said url dt) (s2b who) (kLoc who) (s2b url).
Proof.
  intros who said url dt. apply (says_loc xenv (loc who said url dt)); try reflexivity.
  - apply SerProofs.memB_In. vm_compute. reflexivity.
  - left. reflexivity.
Qed.
Ltac rolled := eexists; eexists; eexists; eexists; eexists; split; [apply runs_hist|]; split; [apply runs_hist|];
  split; [first [apply roleSays|apply locSays]|]; split; [first [apply roleSays|apply locSays]|];
  split; [vm_compute; reflexivity|]; split; [vm_compute; reflexivity|]; split; [vm_compute; reflexivity|vm_compute; reflexivity].



(** c34_no_rollback_partial is about real histories: this one is fair, and is not trivial. *)
Definition xw : world := mkW (fun r => r = role "T" "r1" 10 true \/ r = role "T" "r2" 20 false)
  (fun _ => (0, s2b "E0")) (fun t => match t with i :: s => mkSiger t i s | [] => mkSiger [] 0 [] end).


Lemma c34_rollback_after_timeout_refuted : exists r1 r2,
  rolledBack xenv [Msg xkv r2 [] [by0 r2]; Msg xkv r2 [] [half0 r2]; Msg xkv r1 [] [by0 r1]]
    [Msg xkv r1 [] [by0 r1]; Item xkv (20 + timeoutRPE + 1) (s2b "/loc/scheme") (q_said r2); Item xkv 30 (s2b "/loc/scheme") (q_said r2)]
    (kLoc "T") r1 r2.
Proof. exists (loc "T" "r1" "http://old" 10), (loc "T" "r2" "http://new" 20). rolled. Qed.

Lemma c34_rollback_by_stranger_refuted : exists r1 r2,
  let junk := mkG (s2b "T") 7 (s2b "E7") [mkSiger (s2b "x") 0 (s2b "x")] in
  rolledBack xenv [Msg xkv r2 [] [by0 r2]; Msg xkv r1 [] [by0 r1]]
    [Msg xkv r1 [] [by0 r1]; Item xkv (20 + timeoutRPE + 1) (s2b "/end/role") (q_said r2); Msg xkv r2 [] [junk]]
    (kRole "T") r1 r2.
Proof. exists (role "T" "r1" 10 true), (role "T" "r2" 20 false). cbv zeta. rolled. Qed.

Lemma c34_rollback_single_as_group_refuted : exists r1 r2,
  rolledBack xenv [Msg xkv r2 [mkCig (s2b "b") (s2b "b" ++ q_raw r2)] []; Msg xkv r1 [mkCig (s2b "b") (s2b "b" ++ q_raw r1)] []]
    [Msg xkv r1 [] [mkG (s2b "b") 0 (s2b "Eb") [mkSiger (s2b "x") 0 (s2b "b" ++ q_raw r1)]]]
    (kRole "b") r1 r2.
Proof. exists (role "b" "r1" 10 true), (role "b" "r2" 20 false). rolled. Qed.

Lemma c34_rollback_bad_group_refuted : exists r1 r2 r3,
  rolledBack xenv [Msg xkv r2 [] [by0 r2]; Msg xkv r1 [] [by0 r1]]
    [Msg xkv r1 [] [by0 r1]; Msg xkv r3 [] [by0 r3; mkG (s2b "T") 1 (s2b "junk") []]]
    (kRole "T") r1 r2.
Proof. exists (role "T" "r1" 10 true), (role "T" "r2" 20 false), (role "T" "r3" 30 true). rolled. Qed.

Lemma c34_rollback_trim_refuted : exists r1 r2 r3,
  rolledBack xenv [Msg xkv r2 [] [by0 r2]; Msg xkv r1 [] [by0 r1]]
    [Msg xkv r1 [] [by0 r1]; Msg xkv r3 [] [by1 r3]; Msg xkv r3 [] [half0 r3]]
    (kRole "T") r1 r2
  /\ snd (processReply xenv xkv r3 [] [by1 r3] (runs xenv [Msg xkv r3 [] [half0 r3]; Msg xkv r2 [] [by0 r2]])) = Err ValueError.
Proof. exists (role "T" "r1" 10 true), (role "T" "r2" 20 false), (role "T" "r3" 30 true). split; [rolled|vm_compute; reflexivity]. Qed.

Lemma c34_rollback_resigned_refuted : exists r1 r2,
  rolledBack xenv [Msg xkv r2 [] [by0 r2]; Msg xkv r1 [] [by0 r1]]
    [Msg xkv r1 [] [by0 r1]; Msg xkv r2 [] [by1 r2]]
    (kLoc "T") r1 r2.
Proof. exists (loc "T" "r1" "http://old" 10), (loc "T" "r2" "http://new" 20). rolled. Qed.

Lemma c34_superseded_keys_refuted : exists r2 r3,
  let d1 := runs xenv [Msg xkv r2 [] [by1 r2]] in
  let d2 := runs xenv [Msg xkv r3 [] [by0 r3]; Msg xkv r2 [] [by0 r2]; Msg xkv r2 [] [by1 r2]] in
  dget (ans d1) (kRole "T") = Some (q_said r2) /\ snd (processReply xenv xkv r3 [] [by0 r3] d1) = Err UnverifiedReplyError /\
  dget (ans d2) (kRole "T") = Some (q_said r3).
Proof. exists (role "T" "r2" 20 false), (role "T" "r3" 30 true). split; [vm_compute; reflexivity|]. split; vm_compute; reflexivity. Qed.

(** C34 refuted for key state notices: a notice with an earlier date and a lower sequence number replaces
    a newer one about the same identifier by the same source. *)
Definition ksn (said dg rec : string) (dt s : N) : reply :=
  mkReply (s2b said) (s2b said) dt (s2b "/ksn/b") [] (Some (mkKsr (s2b "X") s (s2b dg) [] (s2b rec))).
Lemma c34_key_state_rollback_refuted : exists n1 n2 k1 k2, q_dt n1 < q_dt n2 /\ q_ksr n1 = Some k1 /\ q_ksr n2 = Some k2 /\
  ks_i k1 = ks_i k2 /\ ks_s k1 < ks_s k2 /\
  let cg r := mkCig (s2b "b") (s2b "b" ++ q_raw r) in let at_ := key tagKsn [ks_i k1; s2b "b"] in
  dget (ans (runs xenv [Msg xkv n2 [cg n2] []; Msg xkv n1 [cg n1] []])) at_ = Some (ks_d k2) /\
  dget (ans (runs xenv [Msg xkv n1 [cg n1] []; Msg xkv n2 [cg n2] []; Msg xkv n1 [cg n1] []])) at_ = Some (ks_d k1).
Proof.
  exists (ksn "n1" "D4" "old" 10 4), (ksn "n2" "D5" "new" 20 5). eexists. eexists.
  split; [reflexivity|]. split; [reflexivity|]. split; [reflexivity|]. split; [reflexivity|]. split; [reflexivity|].
  cbv zeta. split; vm_compute; reflexivity.
Qed.
