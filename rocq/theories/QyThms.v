(** Properties of queries. *)
From Coq Require Import Lia.
From Verif Require Import Prelude B64Model MatterModel SubsModel ThModel ThSpec KelModel KelSpec KelProofs KelInv KelThms OoSpec OoProofs OoThms ClModel ClSpec ClProofs ClProofs3 ClThms QyModel QySpec QyProofs QyProofs2 QyProofs3.
Ltac Zify.zify_post_hook ::= Z.div_mod_to_equations.
Open Scope N_scope.

(** querier 3 asks node 100; its signature is made up, since nobody looks at it *)
Definition sgx : list siger := [mkSigerO [3; 3] 0 [3; 3] None].
Definition logq (said p : N) (s : option N) (fn : N) : query := mkQuery said Logs (Some p) (Some 100) None (option_map (@Some N) s) (Some (Some fn)) None.
Definition ksnq (said p : N) : query := mkQuery said Ksn (Some p) (Some 100) None None None None.
Definition ask (t : N) (q : query) : qop := Ask false t (Some (3, sgx)) [] q.
Definition kels_of (l : list op) : list qop := map Kel l.
Lemma real_cons' : forall H o ops, real_qop H o -> Forall (real_qop H) ops -> Forall (real_qop H) (o :: ops).
Proof. intros. constructor; assumption. Qed.
Ltac realqs := repeat (apply real_cons'; [first [reflexivity|exact Logic.I]|]); apply Forall_nil.
Definition cues (cf : conf) (ops : list qop) : list cue := n_cues (qrun E1 cf 300 ops node0).

(** ** C123: answers have what was asked *)

Lemma c123_answers : forall E H cf L ops c, world H -> Forall (real_qop H) ops -> In c (n_cues (qrun E cf L ops node0)) ->
  exists ops1 o ops2 p q pre src k, ops = ops1 ++ o :: ops2 /\ asked (ops1 ++ [o]) p q /\
    let dx := n_db (qrun E cf L ops1 node0) in
    ready dx q /\ answers c q p /\ q_i q = Some pre /\ q_src q = Some src /\ keyState dx pre = Some k /\
    match q_route q with
    | Logs => exists own more, c = CReplay q pre src (own ++ more) p /\ is_log dx pre (fromOf q) own /\
        match k_delpre k with None => more = [] | Some dp => is_log dx dp 0 more end
    | Ksn => exists st, c = CReply q src st p /\ s_i st = pre /\ s_s st = k_sn k /\ s_d st = e_said (k_evt k) /\
        s_k st = k_keys k /\ s_n st = k_ndigs k /\ s_bt st = k_toad k /\ s_b st = k_wits k /\ s_di st = k_delpre k
    | Mbx => exists t, c = CStream q pre src t /\ q_topics q = Some t
    | OtherRoute => False
    end.
Proof.
  intros E H cf L ops c W RO I. destruct (run_sound E cf L ops) as (_ & F). rewrite Forall_forall in F. destruct (F _ I) as (ops1 & o & ops2 & -> & p & q & AS & A).
  assert (R : reachable E H cf (n_db (qrun E cf L ops1 node0))) by (apply qrun_reach; apply Forall_app in RO; tauto).
  destruct (answer_good _ _ _ _ _ _ _ W R A) as (RD & AN & pre & src & k & QI & QS & K & G). exists ops1, o, ops2, p, q, pre, src, k.
  split; [reflexivity|]. split; [exact AS|]. cbv zeta. do 5 (split; [assumption|]). destruct (q_route q); [exact G| |exact G|exact G].
  destruct G as (st & -> & KS). exists st. split; [reflexivity|]. destruct (kstate_says _ _ KS) as (S1 & S2). split; [|exact S2]. rewrite S1.
  unfold keyState in K. destruct (n_db (qrun E cf L ops1 node0)) as [d x]. cbn [fst snd] in K. destruct (reach_kget _ _ _ _ _ _ _ W R K) as (c' & ee & GK). apply (g_pre _ _ _ _ _ _ _ _ GK).
Qed.
Example answers_ex : map (fun c => match c with CReplay q p _ ms d => (q_said q, p, map (fun m => e_said (cl_evt m)) ms, d) | CReply q _ st d => (q_said q, s_i st, [s_s st; s_d st], d) | _ => (0, 0, [], 0) end)
    (cues cf0 (ask 5 (logq 900 7 (Some 2) 0) :: kels_of opsA ++ [ask 6 (ksnq 901 7); ask 6 (logq 902 7 None 3); QPass 7])) =
  [(901, 7, [2; 24], 3); (902, 7, [23; 24], 3); (900, 7, [20; 21; 22; 23; 24], 3)] /\
  Forall (real_qop (Hof evsA)) (ask 5 (logq 900 7 (Some 2) 0) :: kels_of opsA ++ [ask 6 (ksnq 901 7); ask 6 (logq 902 7 None 3); QPass 7]) /\ world (Hof evsA).
Proof. split; [vm_compute; reflexivity|]. split; [unfold kels_of, opsA; cbn [map app]; realqs|apply world_of; reflexivity]. Qed.
(** Of a delegated identifier the log of the delegator comes too. *)
Example answers_ex2 : map (fun c => match c with CReplay _ _ _ ms _ => map (fun m => (e_pre (cl_evt m), e_sn (cl_evt m))) ms | _ => [] end) (cues cf0 (kels_of opsD ++ [ask 6 (logq 902 9 None 0)])) =
  [[(9, 0); (9, 1); (8, 0); (8, 1); (8, 2)]].
Proof. vm_compute. reflexivity. Qed.

Lemma c123_unsigned_refuted : forall E cf L n v2 now p sg sg' cg q,
  n_cues (qstep E cf L n (Ask v2 now (Some (p, sg)) cg q)) = n_cues (qstep E cf L n (Ask v2 now (Some (p, sg')) cg q)).
Proof.
  intros E cf L n v2 now p sg sg' cg q. cbn [qstep]. unfold receive. destruct (q_route q) eqn:RT; cbn [andb negb]; try reflexivity; unfold processQuery; destruct (answer (n_db n) q p) as [o|[]]; cbn [escrowQuery]; try reflexivity; rewrite RT; reflexivity.
Qed.
Example unsigned_ex : List.length (cues cf0 (kels_of opsA ++ [Ask true 5 (Some (3, [])) [] (ksnq 900 7)])) = 1%nat.
Proof. vm_compute. reflexivity. Qed.

(** ** C124: early queries are answered once they can be *)

Lemma c124_prompt_partial : forall E H cf L ops1 v2 t p sg cg q ops2 now, world H -> sane H -> complete q -> sg <> [] ->
  let ops := ops1 ++ [Ask v2 t (Some (p, sg)) cg q] ++ ops2 in
  Forall (real_qop H) ops -> (forall q', asked ops1 p q' -> q_said q' <> q_said q) ->
  (forall a b pre, ops = a ++ b -> q_i q = Some pre -> boss_known (n_db (qrun E cf L a node0)) pre) ->
  passes_by (t + L) ops2 -> now <= t + L -> ready (n_db (qrun E cf L ops node0)) q ->
  exists c, In c (n_cues (qrun E cf L (ops ++ [QPass now]) node0)) /\ answers c q p.
Proof.
  intros E H cf L ops1 v2 t p sg cg q ops2 now W SN CQ NE ops RO NA BK PB TM RD. subst ops. rewrite app_assoc in *.
  assert (BB : forall a b, (ops1 ++ [Ask v2 t (Some (p, sg)) cg q]) ++ ops2 = a ++ b -> bossed q (n_db (qrun E cf L a node0))) by (intros a b Q pre QI; exact (BK a b pre Q QI)).
  rewrite qrun_app. destruct (waits E H cf L W SN p q CQ ops1 v2 t sg cg ops2 NE RO NA BB PB) as [(c & IC & AC)|HD].
  - exists c. split; [apply (cues_run E cf L [QPass now]); exact IC|exact AC].
  - destruct (run_sound E cf L ((ops1 ++ [Ask v2 t (Some (p, sg)) cg q]) ++ ops2)) as (SD & _). set (n := qrun E cf L _ node0) in *.
    assert (R : reachable E H cf (n_db n)) by (apply qrun_reach; exact RO).
    assert (B : bossed q (n_db n)) by (apply (BB _ []); rewrite app_nil_r; reflexivity).
    destruct (ready_answer _ _ _ _ _ p W SN R CQ B RD) as (c & A). cbn [qrun fold_left qstep].
    destruct (unescrowQ L now (n_db n) (n_q n)) as [s cs] eqn:U. cbn [n_cues]. destruct (pass_held _ _ _ _ _ _ _ _ _ _ SD HD TM U) as (Y & _).
    exists c. split; [apply in_or_app; right; apply (Y c A)|]. apply (answer_good _ _ _ _ _ _ _ W R A).
Qed.
Definition early : list qop := [Kel (dlv A0 [sign A0 1 0 None])] ++ [ask 5 (logq 900 7 (Some 2) 0)] ++ [QPass 6; Kel (dlv A1 [sign A1 1 0 None]); QPass 7; Kel (dlv A2 [sign A2 1 0 None])].
Example prompt_ex : List.length (cues cf0 early) = 0%nat /\ List.length (cues cf0 (early ++ [QPass 8])) = 1%nat /\ complete (logq 900 7 (Some 2) 0) /\
  ready (n_db (qrun E1 cf0 300 early node0)) (logq 900 7 (Some 2) 0) /\ Forall (real_qop (Hof evsA)) early.
Proof.
  split; [vm_compute; reflexivity|]. split; [vm_compute; reflexivity|]. split; [unfold complete; cbn; intuition discriminate|].
  split; [|unfold early; cbn [app]; realqs]. eexists 7, _. split; [reflexivity|]. split; [vm_compute; reflexivity|]. cbn [q_route logq q_a q_s option_map]. intros n Q. injection Q as <-.
  split; [vm_compute; discriminate|]. eexists. split; [vm_compute; reflexivity|vm_compute; discriminate].
Qed.

Lemma c124_waits_partial : forall E H cf L ops1 v2 t p sg cg q ops2, world H -> sane H -> complete q -> sg <> [] ->
  let ops := ops1 ++ [Ask v2 t (Some (p, sg)) cg q] ++ ops2 in
  Forall (real_qop H) ops -> (forall q', asked ops1 p q' -> q_said q' <> q_said q) ->
  (forall a b pre, ops = a ++ b -> q_i q = Some pre -> boss_known (n_db (qrun E cf L a node0)) pre) ->
  passes_by (t + L) ops2 ->
  (exists c, In c (n_cues (qrun E cf L ops node0)) /\ answers c q p) \/ waiting (qrun E cf L ops node0) p q.
Proof.
  intros E H cf L ops1 v2 t p sg cg q ops2 W SN CQ NE ops RO NA BK PB. subst ops. rewrite app_assoc in *.
  destruct (waits E H cf L W SN p q CQ ops1 v2 t sg cg ops2 NE RO NA) as [Z|HD]; [intros a b Q pre QI; exact (BK a b pre Q QI)|exact PB|auto|].
  right. exact (h_row _ _ _ _ HD).
Qed.
Example waits_ex : waiting (qrun E1 cf0 300 early node0) 3 (logq 900 7 (Some 2) 0).
Proof. vm_compute. auto. Qed.

Lemma c124_done_partial : forall E H cf L ops p q now, world H -> sane H -> complete q -> Forall (real_qop H) ops ->
  (forall q', asked ops p q' -> q_said q' = q_said q -> q' = q) ->
  let n := qrun E cf L ops node0 in
  (forall pre, q_i q = Some pre -> boss_known (n_db n) pre) -> ready (n_db n) q ->
  ~ waiting (qrun E cf L (ops ++ [QPass now]) node0) p q.
Proof.
  intros E H cf L ops p q now W SN CQ RO UQ n BK RD. unfold waiting. rewrite qrun_app. fold n. cbn [qrun fold_left qstep].
  destruct (unescrowQ L now (n_db n) (n_q n)) as [s cs] eqn:U. cbn [n_q].
  assert (R : reachable E H cf (n_db n)) by (apply qrun_reach; exact RO). destruct (ready_answer _ _ _ _ _ p W SN R CQ BK RD) as (c & A).
  destruct (run_sound E cf L ops) as (SD & _). exact (pass_leaves _ _ _ _ _ _ _ _ _ _ SD UQ A U).
Qed.
Example done_ex : ~ waiting (qrun E1 cf0 300 (early ++ [QPass 8]) node0) 3 (logq 900 7 (Some 2) 0) /\ List.length (cues cf0 (early ++ [QPass 8; QPass 9; QPass 10])) = 1%nat.
Proof. split; [vm_compute; tauto|vm_compute; reflexivity]. Qed.

Lemma c124_expires : forall E cf L ops now p d d', let n := qrun E cf L (ops ++ [QPass now]) node0 in
  In (p, d, d') (qnfs (n_q n)) -> exists dt, qdts (n_q n) p d = Some dt /\ now <= dt + L.
Proof.
  intros E cf L ops now p d d' n I. destruct (run_sound E cf L (ops ++ [QPass now])) as (SDn & _). destruct (o_row _ _ SDn _ I) as (a & b & Q). injection Q as -> -> ->.
  subst n. rewrite qrun_app in *. destruct (run_sound E cf L ops) as (SD & _). set (n := qrun E cf L ops node0) in *. cbn [qrun fold_left qstep] in *.
  destruct (unescrowQ L now (n_db n) (n_q n)) as [s cs] eqn:U. cbn [n_q] in *. exact (pass_fresh _ _ _ _ _ _ _ _ _ SD U I).
Qed.
Example expires_ex : qnfs (n_q (qrun E1 cf0 300 [ask 5 (ksnq 900 7); ask 300 (ksnq 901 7); QPass 400] node0)) = [(3, 901, 901)].
Proof. vm_compute. reflexivity. Qed.

Lemma c124_nontrans_refuted : forall E cf L n now cg q, qstep E cf L n (Ask false now None cg q) = n.
Proof. intros E cf L [d s c] now cg q. cbn. rewrite app_nil_r. reflexivity. Qed.
Lemma c124_nontrans_early_refuted : exists E H cf L ops1 t p q ops2 now, world H /\ sane H /\ complete q /\
  let ops := ops1 ++ [Ask true t None [p] q] ++ ops2 in
  Forall (real_qop H) ops /\ passes_by (t + L) ops2 /\ now <= t + L /\ ready (n_db (qrun E cf L ops node0)) q /\
  n_cues (qrun E cf L (ops ++ [QPass now]) node0) = [] /\
  n_cues (qrun E cf L (ops ++ [Ask true t None [p] q]) node0) <> [].
Proof.
  exists E1, (Hof evsA), cf0, 300, [], 5, 1003, (ksnq 900 7), [Kel (dlv A0 [sign A0 1 0 None])], 7.
  split; [apply world_of; reflexivity|]. split; [apply sane_of; reflexivity|]. split; [unfold complete; cbn; intuition discriminate|]. cbv zeta.
  split; [cbn [app]; realqs|]. split; [intros now [Z|[]]; discriminate Z|]. split; [lia|]. split.
  - eexists 7, _. split; [reflexivity|]. split; [vm_compute; reflexivity|]. cbn [q_route ksnq]. eexists. split; [vm_compute; reflexivity|vm_compute; discriminate].
  - split; [vm_compute; reflexivity|vm_compute; discriminate].
Qed.
Example nontrans_ex : List.length (cues cf0 (kels_of opsA ++ [Ask true 5 None [1003] (ksnq 900 7)])) = 1%nat /\ cues cf0 (kels_of opsA ++ [Ask false 5 None [1003] (ksnq 900 7)]) = [].
Proof. split; vm_compute; reflexivity. Qed.

Lemma c124_beyond_refuted : exists E H cf L ops1 t p sg q ops2 now, world H /\ sane H /\ sg <> [] /\
  let ops := ops1 ++ [Ask false t (Some (p, sg)) [] q] ++ ops2 in
  Forall (real_qop H) ops /\ passes_by (t + L) ops2 /\ now <= t + L /\
  (exists pre e, q_i q = Some pre /\ q_route q = Logs /\ accepted (n_db (qrun E cf L ops node0)) pre e /\ e_sn e = fromOf q) /\
  n_cues (qrun E cf L (ops ++ [QPass now]) node0) = [].
Proof.
  exists E1, (Hof evsA), cf0, 300, [Kel (dlv A0 [sign A0 1 0 None])], 5, 3, sgx, (logq 900 7 None 1), [Kel (dlv A1 [sign A1 1 0 None])], 7.
  split; [apply world_of; reflexivity|]. split; [apply sane_of; reflexivity|]. split; [discriminate|]. cbv zeta.
  split; [cbn [app]; realqs|]. split; [intros now [Z|[]]; discriminate Z|]. split; [lia|]. split; [|vm_compute; reflexivity].
  exists 7, A1. split; [reflexivity|]. split; [reflexivity|]. split; [|reflexivity]. split; vm_compute; auto.
Qed.

(** A query for the log up to a number waits for receipts of the newest event, although the event with that number has
    its receipts: a witness, which accepts events before they are receipted, keeps it waiting. *)
Definition cf50 : conf := mkConf [50] [] (fun _ => None).
Definition opsV : list qop := [Kel (Deliver (msgT W0 [sign W0 1 0 None] [sign W0 51 1 None] None)); Kel (Deliver (msgT W1 [sign W1 1 0 None] [] None))].
Lemma c124_receipts_refuted : exists E H cf L ops t p sg q pre e now, world H /\ sane H /\ complete q /\ sg <> [] /\ Forall (real_qop H) ops /\ now <= t + L /\
  q_i q = Some pre /\ q_route q = Logs /\ q_s q = Some (Some (e_sn e)) /\ accepted (n_db (qrun E cf L ops node0)) pre e /\ receipted (n_db (qrun E cf L ops node0)) e /\
  n_cues (qrun E cf L (ops ++ [Ask false t (Some (p, sg)) [] q; QPass now]) node0) = [].
Proof.
  exists E1, (Hof [W0; W1; W1r]), cf50, 300, opsV, 5, 3, sgx, (logq 900 7 (Some 0) 0), 7, W0, 6.
  split; [apply world_of; reflexivity|]. split; [apply sane_of; reflexivity|]. split; [unfold complete; cbn; intuition discriminate|]. split; [discriminate|].
  split; [unfold opsV; realqs|]. split; [lia|]. do 3 (split; [reflexivity|]). split; [split; vm_compute; auto|].
  split; [eexists; split; [vm_compute; reflexivity|vm_compute; discriminate]|vm_compute; reflexivity].
Qed.
Example receipts_ex : fels (fst (n_db (qrun E1 cf50 300 opsV node0))) 7 = [80; 81].
Proof. vm_compute. reflexivity. Qed.

Lemma c124_again_refuted : exists E H cf L ops1 t p sg q ops2 now, world H /\ sane H /\ complete q /\ sg <> [] /\
  let ops := ops1 ++ [Ask false t (Some (p, sg)) [] q] ++ ops2 in
  Forall (real_qop H) ops /\ passes_by (t + L) ops2 /\ now <= t + L /\ ready (n_db (qrun E cf L ops node0)) q /\
  n_cues (qrun E cf L (ops ++ [QPass now]) node0) = [] /\ ~ waiting (qrun E cf L (ops ++ [QPass now]) node0) p q.
Proof.
  exists E1, (Hof evsA), cf0, 300, [ask 5 (ksnq 900 7); QPass 400], 1000, 3, sgx, (ksnq 900 7), [QPass 1001; Kel (dlv A0 [sign A0 1 0 None])], 1002.
  split; [apply world_of; reflexivity|]. split; [apply sane_of; reflexivity|]. split; [unfold complete; cbn; intuition discriminate|]. split; [discriminate|]. cbv zeta.
  split; [cbn [app]; realqs|]. split; [intros now [Z|[Z|[]]]; [injection Z as <-; lia|discriminate Z]|]. split; [lia|]. split.
  - eexists 7, _. split; [reflexivity|]. split; [vm_compute; reflexivity|]. cbn [q_route ksnq]. eexists. split; [vm_compute; reflexivity|vm_compute; discriminate].
  - split; [vm_compute; reflexivity|vm_compute; tauto].
Qed.

(** ** C125: an answer suffices to verify *)

Lemma c125_verifies_partial : forall E H cf cf' L ops q p pre src ms, world H -> sane H -> Forall (real_qop H) ops ->
  In (CReplay q pre src ms p) (n_cues (qrun E cf L ops node0)) -> fromOf q = 0 ->
  exists ops1 o ops2, ops = ops1 ++ o :: ops2 /\ asked (ops1 ++ [o]) p q /\ q_i q = Some pre /\
    let dx := n_db (qrun E cf L ops1 node0) in
    keyState dx pre <> None /\
    (undelegated dx pre -> texts_differ dx pre -> bystander cf dx pre -> bystander cf' dx pre ->
     forall dy ms', reachable E H cf' dy -> unknown dy pre -> Forall2 arrives ms ms' -> agree pre (run E cf' (map Deliver ms') dy) dx).
Proof.
  intros E H cf cf' L ops q p pre src ms W SN RO I F0. destruct (run_sound E cf L ops) as (_ & F). rewrite Forall_forall in F. destruct (F _ I) as (ops1 & o & ops2 & -> & p' & q' & AS & A).
  assert (R : reachable E H cf (n_db (qrun E cf L ops1 node0))) by (apply qrun_reach; apply Forall_app in RO; tauto).
  destruct (answer_good _ _ _ _ _ _ _ W R A) as (_ & (QQ & PP) & _). subst q' p'.
  destruct (answer_clones _ _ _ _ _ _ A) as (QI & k & K & MS). exists ops1, o, ops2. split; [reflexivity|]. split; [exact AS|]. split; [exact QI|]. cbv zeta. split; [congruence|].
  intros UN TD BY BY' dy ms' RY UK FA. rewrite (undelegated_delpre _ _ _ _ _ _ W SN R UN K), app_nil_r, F0 in MS. rewrite MS in FA.
  exact (c95_replay_partial E H cf cf' _ dy pre ms' W SN R UN TD BY BY' RY UK FA).
Qed.
Lemma c125_resume_partial : forall E H cf cf' L ops q p pre src ms, world H -> sane H -> Forall (real_qop H) ops ->
  In (CReplay q pre src ms p) (n_cues (qrun E cf L ops node0)) ->
  exists ops1 o ops2, ops = ops1 ++ o :: ops2 /\ asked (ops1 ++ [o]) p q /\ q_i q = Some pre /\
    let dx := n_db (qrun E cf L ops1 node0) in
    keyState dx pre <> None /\
    (undelegated dx pre -> texts_differ dx pre -> bystander cf dx pre -> bystander cf' dx pre ->
     forall opsa opsb dy ms', ops1 = opsa ++ opsb -> reachable E H cf' dy -> agree pre dy (n_db (qrun E cf L opsa node0)) ->
       fromOf q = len (fels (fst dy) pre) -> Forall2 arrives ms ms' -> agree pre (run E cf' (map Deliver ms') dy) dx).
Proof.
  intros E H cf cf' L ops q p pre src ms W SN RO I. destruct (run_sound E cf L ops) as (_ & F). rewrite Forall_forall in F. destruct (F _ I) as (ops1 & o & ops2 & -> & p' & q' & AS & A).
  assert (RO1 : Forall (real_qop H) ops1) by (apply Forall_app in RO; tauto).
  assert (R : reachable E H cf (n_db (qrun E cf L ops1 node0))) by (apply qrun_reach; exact RO1).
  destruct (answer_good _ _ _ _ _ _ _ W R A) as (_ & (QQ & PP) & _). subst q' p'.
  destruct (answer_clones _ _ _ _ _ _ A) as (QI & k & K & MS). exists ops1, o, ops2. split; [reflexivity|]. split; [exact AS|]. split; [exact QI|]. cbv zeta. split; [congruence|].
  intros UN TD BY BY' opsa opsb dy ms' SP RY AG FQ FA. rewrite (undelegated_delpre _ _ _ _ _ _ W SN R UN K), app_nil_r, FQ in MS.
  destruct AG as (AG1 & AG2 & AG3). rewrite AG3 in MS. rewrite MS in FA. subst ops1. apply Forall_app in RO1. destruct RO1 as [ROa ROb].
  assert (QD : n_db (qrun E cf L (opsa ++ opsb) node0) = run E cf (kel_ops opsb) (n_db (qrun E cf L opsa node0))) by (rewrite qrun_app; apply qrun_db).
  refine (c95_resume_partial E H cf cf' _ (kel_ops opsb) _ dy pre ms' W SN (qrun_reach _ _ _ _ _ ROa) _ QD UN TD BY BY' RY (conj AG1 (conj AG2 AG3)) FA).
  apply Forall_forall. intros a IA. apply in_flat_map in IA. destruct IA as (b & IB & IO). rewrite Forall_forall in ROb. specialize (ROb _ IB). destruct b; cbn in IO; [destruct IO as [<-|[]]; exact ROb|destruct IO|destruct IO].
Qed.
Definition sent (c : cue) : list clone := match c with CReplay _ _ _ ms _ => ms | _ => [] end.
Definition opsR : list qop := kels_of (map Deliver (firstn 3 msL)) ++ [ask 3 (logq 900 7 None 0)] ++ kels_of (map Deliver (skipn 3 msL)) ++ [ask 4 (logq 901 7 (Some 5) 3)].
Example verifies_ex : map (fun c => List.length (sent c)) (cues cf0 opsR) = [3%nat; 3%nat] /\ Forall (real_qop (Hof evsL)) opsR /\
  world (Hof evsL) /\ sane (Hof evsL) /\ undelegated dxL 7 /\ texts_differ dxL 7 /\ bystander cf0 dxL 7 /\
  agree 7 (run E1 cf0 (map Deliver (map (received true false false 77) (flat_map sent (cues cf0 opsR)))) db0) (n_db (qrun E1 cf0 300 opsR node0)).
Proof.
  split; [vm_compute; reflexivity|]. split; [unfold opsR, kels_of, msL, at_; cbn [map app firstn skipn]; realqs|]. split; [apply world_of; reflexivity|]. split; [apply sane_of; reflexivity|].
  split; [apply undel_ok; vm_compute; reflexivity|]. split; [apply texts_ok; vm_compute; reflexivity|]. split; [apply by_ok; vm_compute; reflexivity|].
  unfold agree. split; [vm_compute; reflexivity|split; vm_compute; reflexivity].
Qed.

(** Only the log of the next delegator comes with the answer: with two levels of delegation the receiver never
    accepts the identifier from it, however often it passes over its escrows. *)
Definition N1 := ixn1 61 9 1 30 [SealEvt 10 0 60].
Definition N0' := dipT 60 10 9 [3] [104].
Definition evsN := [B0; B1; D0; N1; N0'].
Definition opsN : list qop := kels_of [dlv B0 [sign B0 5 0 None]; dlv B1 [sign B1 5 0 None]; Deliver (msgT D0 [sign D0 1 0 None] [] (Some (1, 41))); dlv N1 [sign N1 1 0 None]; Deliver (msgT N0' [sign N0' 3 0 None] [] (Some (1, 61)))].
Lemma c125_nested_refuted : exists E H cf L ops t p sg q pre src ms n, world H /\ sane H /\ Forall (real_qop H) ops /\ complete q /\ ready (n_db (qrun E cf L ops node0)) q /\
  In (CReplay q pre src ms p) (n_cues (qrun E cf L (ops ++ [Ask false t (Some (p, sg)) [] q]) node0)) /\
  fels (fst (n_db (qrun E cf L ops node0))) pre <> [] /\
  forall ms', ms' = map (received false false true t) ms \/ ms' = map (received false false true t) (rev ms) ->
    fels (fst (run E cf (map Deliver ms' ++ [Escrows n; Escrows n; Escrows n]) db0)) pre = [].
Proof.
  exists E1, (Hof evsN), cf0, 300, opsN, 5, 3, sgx, (logq 900 10 None 0), 10, 100, (clonePre (n_db (qrun E1 cf0 300 opsN node0)) 10 0 ++ clonePre (n_db (qrun E1 cf0 300 opsN node0)) 9 0), 6.
  split; [apply world_of; reflexivity|]. split; [apply sane_of; reflexivity|]. split; [unfold opsN, kels_of; cbn [map]; realqs|]. split; [unfold complete; cbn; intuition discriminate|].
  split. { eexists 10, _. split; [reflexivity|]. split; [vm_compute; reflexivity|]. cbn [q_route logq q_a q_s option_map]. intros n Q. discriminate Q. }
  split; [vm_compute; left; reflexivity|]. split; [vm_compute; intros Z; discriminate Z|]. intros ms' [->| ->]; vm_compute; reflexivity.
Qed.

(** When the delegator is not known, as at a node that owns the delegated identifier, the query for its log is dropped
    with an exception and no answer. *)
Definition cf9 : conf := mkConf [9] [] (fun _ => None).
Lemma c125_boss_refuted : exists E H cf L ops t p sg q now, world H /\ sane H /\ Forall (real_qop H) ops /\ complete q /\ sg <> [] /\ now <= t + L /\
  ready (n_db (qrun E cf L ops node0)) q /\
  n_cues (qrun E cf L (ops ++ [Ask false t (Some (p, sg)) [] q; QPass now]) node0) = [] /\
  ~ waiting (qrun E cf L (ops ++ [Ask false t (Some (p, sg)) [] q; QPass now]) node0) p q.
Proof.
  exists E1, (Hof evsD), cf9, 300, [Kel (dlv D0 [sign D0 1 0 None])], 5, 3, sgx, (logq 900 9 None 0), 6.
  split; [apply world_of; reflexivity|]. split; [apply sane_of; reflexivity|]. split; [realqs|]. split; [unfold complete; cbn; intuition discriminate|]. split; [discriminate|]. split; [lia|].
  split. { eexists 9, _. split; [reflexivity|]. split; [vm_compute; reflexivity|]. cbn [q_route logq q_a q_s option_map]. intros n Q. discriminate Q. }
  split; [vm_compute; reflexivity|vm_compute; tauto].
Qed.
