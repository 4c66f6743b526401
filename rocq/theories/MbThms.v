(** Properties of mailboxes. *)
From Coq Require Import Lia.
From Verif Require Import Prelude Lex SubsModel SubsProofs DbModel DbSpec DbProofs DbRef NmModel MbModel MbSpec MbProofs MbProofs2 MbProofs3 MbProofs4 MbProofs5.
Ltac Zify.zify_post_hook ::= Z.div_mod_to_equations.
Open Scope N_scope.

(** a digest that tells all messages apart, an identifier with two topics *)
Definition digx (m : bytes) : bytes := s2b "E" ++ m.
Definition prex : bytes := s2b "EAa".
Definition rcx : bytes := s2b "/receipt".
Definition chx : bytes := s2b "/challenge".
Definition Kx (k : bytes) : Prop := k = prex ++ rcx \/ k = prex ++ chx.
Definition m1x : bytes := s2b "{one}-AA".
Definition m2x : bytes := s2b "{two}-AA".
Definition m3x : bytes := s2b "{three}".
Lemma kx_flat : flat 46 Kx.
Proof.
  assert (N46 : forall k, Kx k -> ~ In 46 k) by (intros k [-> | ->]; vm_compute; intuition discriminate).
  split; [intros [E|E]; discriminate|]. intros k k' t A B E. apply (N46 k' B). rewrite E. apply in_or_app. right. left. reflexivity.
Qed.
Lemma digx_apart : forall l, apart digx l.
Proof. intros l m m' _ _ E. unfold digx in E. apply app_inv_head in E. exact E. Qed.
Lemma settingx : forall ops, Forall (plainOp Kx) ops -> len (allMail ops) <= MaxON -> setting digx prex [rcx; chx] Kx ops.
Proof.
  intros ops F L. constructor; [exact kx_flat| | |exact F|apply digx_apart|exact L].
  - constructor; [intros [E|[]]; discriminate|]. constructor; [intros []|constructor].
  - intros t [<-|[<-|[]]]; (split; [discriminate|]); (split; [split; vm_compute; intuition discriminate|]); [left|right]; reflexivity.
Qed.
Lemma cleanx : forall m, m = m1x \/ m = m2x \/ m = m3x -> clean m.
Proof. intros m [-> | [-> | ->]]; (split; [discriminate|]); (split; [reflexivity|]); split; vm_compute; intuition discriminate. Qed.
Ltac plainx := repeat (first [apply Forall_nil|apply Forall_cons; [first [exact Logic.I|left; reflexivity|right; reflexivity]|]]).
Ltac allcleanx := cbn [allMail flat_map app]; repeat (first [apply Forall_nil|apply Forall_cons; [apply cleanx; auto|]]).

(** ** C100: what is stored is delivered *)

Lemma c100_arrival_partial : forall dig pre topics K ops t, setting dig pre topics K ops -> Forall clean (allMail ops) -> In t topics ->
  exists ids n r, arrives ids n r /\ n <= len (mail (pre ++ t) ops) /\ r <= crashes ops /\
    Forall2 (fun i m => nth_error (mail (pre ++ t) ops) (N.to_nat i) = Some m) ids (got t (run dig pre topics ops sys0)).
Proof.
  intros dig pre topics K ops t ST C IN. destruct (run_si _ _ _ _ _ ST C) as (_ & T & _). destruct (T t IN) as (p & a & b & ids & nn & r & _ & _ & _ & _ & A5 & A6 & _ & A8 & A9).
  exists ids, nn, r. split; [exact A5|]. split; [exact A8|]. split; [lia|exact A6].
Qed.
(** messages of two topics, a lost connection, and a crash between queueing a message and noting its
    number: the message arrives again *)
Definition opsx : list op :=
  [Store (prex ++ rcx) m1x; Connect; Next; Store (prex ++ rcx) m2x; Store (prex ++ chx) m3x; Next; Recv; Pin; Recv; SrvDown; Crash; Connect; Next; Recv; Pin; Take; Next; Recv; Pin].
Example arrival_ex : setting digx prex [rcx; chx] Kx opsx /\ Forall clean (allMail opsx) /\ crashes opsx = 1 /\
  got rcx (run digx prex [rcx; chx] opsx sys0) = [m1x; m2x; m2x] /\ got chx (run digx prex [rcx; chx] opsx sys0) = [m3x].
Proof. split; [apply settingx; [unfold opsx; plainx|vm_compute; discriminate]|]. split; [unfold opsx; allcleanx|]. split; [reflexivity|]. split; vm_compute; reflexivity. Qed.

Lemma c100_once_partial : forall dig pre topics K ops t, setting dig pre topics K ops -> Forall clean (allMail ops) -> In t topics -> crashes ops = 0 ->
  exists later, mail (pre ++ t) ops = got t (run dig pre topics ops sys0) ++ later.
Proof.
  intros dig pre topics K ops t ST C IN NC. destruct (c100_arrival_partial _ _ _ _ _ _ ST C IN) as (ids & n & r & A1 & _ & A3 & A4).
  eexists. eapply arrives_once; [exact A1|lia|exact A4].
Qed.
Definition opsOx : list op := [Store (prex ++ rcx) m1x; Connect; Next; Recv; Pin; Drop; Store (prex ++ rcx) m2x; Connect; Next; Recv; Store (prex ++ rcx) m3x].
Example once_ex : setting digx prex [rcx; chx] Kx opsOx /\ Forall clean (allMail opsOx) /\ crashes opsOx = 0 /\
  mail (prex ++ rcx) opsOx = [m1x; m2x; m3x] /\ got rcx (run digx prex [rcx; chx] opsOx sys0) = [m1x; m2x].
Proof. split; [apply settingx; [unfold opsOx; plainx|vm_compute; discriminate]|]. split; [unfold opsOx; allcleanx|]. split; [reflexivity|]. split; vm_compute; reflexivity. Qed.

Lemma c100_progress_partial : forall dig pre topics K ops, setting dig pre topics K ops -> Forall clean (allMail ops) ->
  exists n, forall t, In t topics ->
    exists ids r, arrives ids (len (mail (pre ++ t) ops)) r /\ r <= crashes ops /\
      Forall2 (fun i m => nth_error (mail (pre ++ t) ops) (N.to_nat i) = Some m) ids (got t (run dig pre topics (ops ++ [Pin; Drop; Connect; Next] ++ drain n) sys0)).
Proof. exact progress. Qed.
Example progress_ex : setting digx prex [rcx; chx] Kx opsOx /\ got rcx (run digx prex [rcx; chx] (opsOx ++ [Pin; Drop; Connect; Next] ++ drain 1) sys0) = [m1x; m2x; m3x].
Proof. split; [apply once_ex|vm_compute; reflexivity]. Qed.

Lemma c100_read : forall dig pre topics K ops k fn, setting dig pre topics K ops -> Forall clean (mail k ops) -> K k -> fn <= MaxON ->
  cloneTopic k fn (s_mb (run dig pre topics ops sys0)) = Ok (filter (fun e => fn <=? fst e) (enum 0 (mail k ops))) /\
  getTopicMsgs k fn (s_mb (run dig pre topics ops sys0)) = Ok (skipn (N.to_nat fn) (mail k ops)).
Proof.
  intros dig pre topics K ops k fn ST C KK LE.
  assert (E : cloneTopic k fn (s_mb (run dig pre topics ops sys0)) = Ok (filter (fun e => fn <=? fst e) (enum 0 (mail k ops)))).
  { apply (clone_read dig K k fn (fun k => mail k ops)); [apply ST|apply run_mb; exact ST|exact KK|exact LE|exact C]. }
  split; [exact E|]. unfold getTopicMsgs. rewrite E. cbn [bind]. f_equal.
  assert (X : forall l n, map snd (filter (fun e => fn <=? fst e) (enum n l)) = skipn (N.to_nat fn - N.to_nat n) (l : list bytes)).
  { clear. induction l as [|x l IH]; intros n; [rewrite skipn_nil; reflexivity|]. cbn [enum filter fst]. destruct (fn <=? n) eqn:L.
    - apply N.leb_le in L. cbn [map snd]. rewrite IH. replace (N.to_nat fn - N.to_nat n)%nat with 0%nat by lia. replace (N.to_nat fn - N.to_nat (n + 1))%nat with 0%nat by lia. reflexivity.
    - apply N.leb_gt in L. rewrite IH. replace (N.to_nat fn - N.to_nat n)%nat with (S (N.to_nat fn - N.to_nat (n + 1))) by lia. reflexivity. }
  rewrite X. f_equal. lia.
Qed.
Example read_ex : setting digx prex [rcx; chx] Kx opsOx /\ getTopicMsgs (prex ++ rcx) 1 (s_mb (run digx prex [rcx; chx] opsOx sys0)) = Ok [m2x; m3x].
Proof. split; [apply once_ex|vm_compute; reflexivity]. Qed.

Lemma c100_wire : forall l cut, Forall (fun e => oneLine (sTopic e) /\ oneLine (sMsg e)) l ->
  sse (render l) = map (fun e => mkEv (decstr (sFn e)) (sTopic e) (sMsg e)) l /\
  exists n, sse (firstn cut (render l)) = map (fun e => mkEv (decstr (sFn e)) (sTopic e) (sMsg e)) (firstn n l).
Proof.
  intros l cut F. split; [exact (sse_render l F)|]. destruct (sse_cut cut (render l)) as (r & R). rewrite (sse_render l F) in R. exists (List.length (sse (firstn cut (render l)))).
  rewrite <- firstn_map. change (fun e => mkEv (decstr (sFn e)) (sTopic e) (sMsg e)) with evOf. rewrite R. rewrite firstn_app, Nat.sub_diag, firstn_all. cbn [firstn]. rewrite app_nil_r. reflexivity.
Qed.
Example wire_ex : sse (firstn 90 (render [mkSent rcx 7 m1x; mkSent chx 12 m2x])) = [mkEv (s2b "7") rcx m1x] /\ decint (decstr 12) = Ok 12.
Proof. split; vm_compute; reflexivity. Qed.

Lemma c100_half_refuted : exists dig pre topics ops t, In t topics /\ crashes ops = 0 /\ Forall clean (allMail ops) /\ apart dig (allMail ops) /\
  mail (pre ++ t) ops = [m2x] /\ got t (run dig pre topics ops sys0) = [m2x; m2x].
Proof.
  exists digx, prex, [rcx], [StoreHalf (prex ++ rcx) m1x; Store (prex ++ rcx) m2x; Connect; Next; Recv; Pin; Next; Recv; Pin], rcx.
  split; [left; reflexivity|]. split; [reflexivity|]. split; [allcleanx|]. split; [apply digx_apart|]. split; vm_compute; reflexivity.
Qed.
(** Nor when the last entry of a topic is removed: its number is given again, and the message that
    gets it is never delivered to a client that has seen the one before. *)
Notation opsRx := [Store (prex ++ rcx) m1x; Connect; Next; Recv; Pin; Drop; Del (prex ++ rcx) 0; Store (prex ++ rcx) m2x].
Lemma c100_removed_refuted : forall ops, Forall noStore ops -> got rcx (run digx prex [rcx] (opsRx ++ ops) sys0) = [m1x] /\ ~ In m2x (s_taken (run digx prex [rcx] (opsRx ++ ops) sys0)).
Proof.
  intros ops F. rewrite run_app. set (s := run digx prex [rcx] opsRx sys0).
  assert (G : idle rcx m1x (s_mb s) (run digx prex [rcx] ops s)).
  { apply idle_run; [vm_compute; reflexivity|exact F|]. split; [reflexivity|]. split; [vm_compute; reflexivity|]. split; [vm_compute; reflexivity|].
    split; [|split; [vm_compute; reflexivity|vm_compute; exact Logic.I]]. replace (s_taken s ++ s_queue s) with [m1x] by (vm_compute; reflexivity). intros x [<-|[]]. reflexivity. }
  clearbody s. destruct G as (_ & _ & _ & A & B & _). split; [unfold got; rewrite B; vm_compute; reflexivity|].
  intros IN. assert (E : m2x = m1x) by (apply A; apply in_or_app; left; exact IN). discriminate E.
Qed.
Lemma c100_line_refuted : exists m, utf8 m = true /\ m <> [] /\ got rcx (run digx prex [rcx] [Store (prex ++ rcx) m; Connect; Next; Recv; Pin; Recv; Pin] sys0) = [s2b "ab"] /\ m = s2b "ab" ++ [10; 10] ++ s2b "cd".
Proof. exists (s2b "ab" ++ [10; 10] ++ s2b "cd"). split; [reflexivity|]. split; [discriminate|]. split; [vm_compute; reflexivity|reflexivity]. Qed.

(** ** C101: topics and mailboxes do not disturb each other *)

Lemma c101_isolation_partial : forall dig pre topics K ops ops' k k' m fn, setting dig pre topics K (ops ++ Store k' m :: ops') -> K k -> k <> k' -> fn <= MaxON ->
  cloneTopic k fn (s_mb (run dig pre topics (ops ++ Store k' m :: ops') sys0)) = cloneTopic k fn (s_mb (run dig pre topics (ops ++ ops') sys0)).
Proof.
  intros dig pre topics K ops ops' k k' m fn ST KK NE LE. pose proof ST as [S1 S2 S3 S4 S5 S6].
  assert (ST' : setting dig pre topics K (ops ++ ops')).
  { constructor; try assumption.
    - apply Forall_app in S4. destruct S4 as [X Y]. inversion Y; subst. apply Forall_app. auto.
    - intros a b A B. apply S5; rewrite allMail_app in *; [clear B; rename A into B|clear A]; apply in_app_or in B; apply in_or_app; (destruct B as [B|B]; [left|right; right]; exact B).
    - rewrite allMail_app, len_app' in *. change (allMail (Store k' m :: ops')) with (m :: allMail ops') in S6. unfold len in *. cbn [List.length] in S6. lia. }
  apply (clone_same dig K k fn _ _ _ _ S1 (run_mb _ _ _ _ _ ST) (run_mb _ _ _ _ _ ST') KK); [|exact LE]. cbn beta. rewrite !mail_app. f_equal. unfold mail. cbn [flat_map]. destruct (beq_spec k' k); [congruence|reflexivity].
Qed.
Example isolation_ex : setting digx prex [rcx; chx] Kx ([Store (prex ++ chx) m1x] ++ Store (prex ++ rcx) m2x :: [Store (prex ++ chx) m3x]) /\
  cloneTopic (prex ++ chx) 0 (s_mb (run digx prex [rcx; chx] ([Store (prex ++ chx) m1x] ++ Store (prex ++ rcx) m2x :: [Store (prex ++ chx) m3x]) sys0)) = Ok [(0, m1x); (1, m3x)].
Proof. split; [apply settingx; [cbn [app]; plainx|vm_compute; discriminate]|vm_compute; reflexivity]. Qed.

Lemma c101_poison_refuted : forall dig pre topics K t0 bad ops1 ops2, setting dig pre topics K (ops1 ++ ops2) -> Forall isStore ops1 -> In (Store (pre ++ t0) bad) ops1 -> In t0 topics -> utf8 bad = false ->
  s_log (run dig pre topics (ops1 ++ ops2) sys0) = [] /\ s_taken (run dig pre topics (ops1 ++ ops2) sys0) = [].
Proof. intros dig pre topics K t0 bad ops1 ops2 ST F IN IT U. destruct (poisoned _ _ _ _ _ _ _ _ ST F IN IT U) as (_ & _ & A & B & _). auto. Qed.
Definition ops1x : list op := [Store (prex ++ rcx) m1x; Store (prex ++ chx) [163; 255]; Store (prex ++ rcx) m2x].
Example poison_ex : (forall ops2, Forall (plainOp Kx) ops2 -> len (allMail ops2) <= 5 -> setting digx prex [rcx; chx] Kx (ops1x ++ ops2)) /\
  Forall isStore ops1x /\ In (Store (prex ++ chx) [163; 255]) ops1x /\ utf8 [163; 255] = false /\ Forall clean (mail (prex ++ rcx) ops1x) /\ mail (prex ++ rcx) ops1x = [m1x; m2x].
Proof.
  split; [intros ops2 F L; apply settingx; [apply Forall_app; split; [unfold ops1x; plainx|exact F]|rewrite allMail_app, len_app'; change (len (allMail ops1x)) with 3; assert (X : 8 <= MaxON) by (vm_compute; discriminate); lia]|].
  split; [repeat constructor|]. split; [right; left; reflexivity|]. split; [reflexivity|]. split; [|reflexivity]. change (mail (prex ++ rcx) ops1x) with [m1x; m2x]. constructor; [apply cleanx; auto|constructor; [apply cleanx; auto|constructor]].
Qed.

(** The topic of a forwarded message is for its sender to choose, and one that continues the name of
    another topic with a dot and a number lies among the entries of that topic.  One message under a
    high number, and the other topic takes no message any more; one under a low number, and the later
    messages of the other topic are not read. *)
Definition mb3x : mbx := s_mb (run digx prex [rcx] [Store (prex ++ rcx) m1x; Store (prex ++ rcx) m2x; Store (prex ++ rcx) m3x] sys0).
Definition highx : bytes := s2b "receipt.fffffffffffffffffffffffffffffffe".
Definition lowx : bytes := s2b "receipt.00000000000000000000000000000000".
Lemma c101_topic_name_refuted :
  (exists mb', handle digx prex highx [m1x] mb3x = Ok mb' /\ forall m, storeMsg digx (prex ++ rcx) m mb' = Err ValueError) /\
  (exists mb', handle digx prex lowx [m1x] mb3x = Ok mb' /\ cloneTopic (prex ++ rcx) 0 mb' = Ok [(0, m1x)]) /\
  cloneTopic (prex ++ rcx) 0 mb3x = Ok [(0, m1x); (1, m2x); (2, m3x)].
Proof.
  split; [|split; [|vm_compute; reflexivity]].
  - eexists. split; [vm_compute; reflexivity|]. intros m. vm_compute. reflexivity.
  - eexists. split; vm_compute; reflexivity.
Qed.

(** ** C102: what is queued is handed over *)

Lemma c102_handed_partial : forall dig pre topics K ops, setting dig pre topics K ops -> Forall clean (allMail ops) -> crashes ops = 0 ->
  s_taken (run dig pre topics ops sys0) ++ s_queue (run dig pre topics ops sys0) = map eData (s_log (run dig pre topics ops sys0)) /\
  s_taken (run dig pre topics (ops ++ [Take]) sys0) = map eData (s_log (run dig pre topics ops sys0)).
Proof.
  intros dig pre topics K ops ST C NC. pose proof (handed _ _ _ _ _ ST C NC) as H. split; [exact H|]. rewrite run_app. cbn [run fold_left step s_taken]. exact H.
Qed.
Example handed_ex : setting digx prex [rcx; chx] Kx opsOx /\ s_taken (run digx prex [rcx; chx] (opsOx ++ [Take]) sys0) = [m1x; m2x].
Proof. split; [apply once_ex|vm_compute; reflexivity]. Qed.

Lemma c102_crash_refuted : forall dig pre t m ops, t <> [] -> oneLine t -> clean m -> Forall noStore ops ->
  s_taken (run dig pre [t] ([Store (pre ++ t) m; Connect; Next; Recv; Pin; Crash] ++ ops) sys0) = [].
Proof. intros dig pre t m ops T1 T2 C F. apply gone_run; assumption. Qed.
Example crash_ex : rcx <> [] /\ oneLine rcx /\ clean m1x /\ s_taken (run digx prex [rcx] ([Store (prex ++ rcx) m1x; Connect; Next; Recv; Pin] ++ [Take]) sys0) = [m1x].
Proof. split; [discriminate|]. split; [split; vm_compute; intuition discriminate|]. split; [apply cleanx; auto|vm_compute; reflexivity]. Qed.

(** ** C103: a mailbox is read by its owner only *)

Lemma c103_owner_refuted : forall dig pre topics K ops t known asker sigs, setting dig pre topics K ops -> Forall clean (mail (pre ++ t) ops) -> In t topics -> known pre = true ->
  exists who tp tp' out, processQueryMbx known pre [(t, 0)] [(asker, sigs)] [] = Ok (who, tp) /\ iterNext (s_mb (run dig pre topics ops sys0)) who tp = Ok (tp', out) /\ map sMsg out = mail (pre ++ t) ops.
Proof.
  intros dig pre topics K ops t known asker sigs ST C IN KN. unfold processQueryMbx. cbn [isnil andb]. rewrite KN. cbn [negb].
  assert (KK : K (pre ++ t)) by (apply (se_names _ _ _ _ _ ST t IN)). assert (L0 : 0 <= MaxON) by (unfold MaxON; lia).
  destruct (c100_read dig pre topics K ops (pre ++ t) 0 ST C KK L0) as [E1 E2]. unfold getTopicMsgs in E2. rewrite E1 in E2. cbn [bind skipn N.to_nat] in E2. apply ok_inj in E2.
  eexists. eexists. eexists. eexists. split; [reflexivity|]. cbn [iterNext]. rewrite E1. cbn [bind]. split; [reflexivity|]. rewrite app_nil_r, map_map. cbn [sMsg]. exact E2.
Qed.
Example owner_ex : setting digx prex [rcx; chx] Kx opsOx /\ Forall clean (mail (prex ++ rcx) opsOx) /\ mail (prex ++ rcx) opsOx = [m1x; m2x; m3x].
Proof. split; [apply once_ex|]. split; [|vm_compute; reflexivity]. change (mail (prex ++ rcx) opsOx) with [m1x; m2x; m3x]. repeat (constructor; [apply cleanx; auto|]). constructor. Qed.
