(** Mailboxes: keys do not touch each other, messages that block a mailbox, messages lost by a crash. *)
From Coq Require Import Lia ZifyClasses ZifyInst ZifyN Zify.
From Verif Require Import Prelude Lex SubsModel SubsProofs DbModel DbSpec DbProofs DbRef NmModel MbModel MbSpec MbProofs MbProofs2 MbProofs3 MbProofs4.
Ltac Zify.zify_post_hook ::= Z.div_mod_to_equations.
Open Scope N_scope.

(** ** The mailbox alone *)
Lemma step_mb : forall dig pre topics s o, match o with Store _ _ | StoreHalf _ _ | Del _ _ => False | _ => True end -> s_mb (step dig pre topics s o) = s_mb s.
Proof.
  intros dig pre topics s o NS. destruct o; try contradiction; cbn [step]; try reflexivity.
  - destruct (s_conn s) as [[sv fl]|]; reflexivity.
  - destruct (s_conn s), (s_pend s); reflexivity.
  - destruct (s_conn s) as [[[tp|] fl]|]; try reflexivity. destruct (iterNext (s_mb s) pre tp) as [[tp' out]|x]; reflexivity.
  - destruct (s_conn s) as [[sv [|e fl]]|]; try reflexivity. destruct (s_pend s); [reflexivity|]. destruct (isnil (eId e) || isnil (eData e) || isnil (eName e)); reflexivity.
  - destruct (s_pend s) as [e|]; [|reflexivity]. destruct (decint (eId e)); reflexivity.
  - destruct (s_pend s); reflexivity.
Qed.
Lemma run_mb : forall dig pre topics K ops, setting dig pre topics K ops -> MInv dig K (fun k => mail k ops) (s_mb (run dig pre topics ops sys0)).
Proof.
  intros dig pre topics K. induction ops as [|o ops IH] using rev_ind; intros ST; [apply minv0|].
  pose proof (setting_app _ _ _ _ _ _ ST) as ST'. specialize (IH ST'). rewrite run_app. cbn [run fold_left]. fold (run dig pre topics ops sys0).
  destruct ST as [S1 S2 S3 S4 S5 S6]. destruct ST' as [_ _ _ _ _ S6']. apply Forall_app in S4. destruct S4 as [_ S4]. inversion S4; subst.
  assert (NO : match o with Store _ _ => False | _ => True end -> MInv dig K (fun k => mail k (ops ++ [o])) (s_mb (step dig pre topics (run dig pre topics ops sys0) o))).
  { intros NS. rewrite step_mb by (destruct o; auto). eapply minv_ext; [|exact IH]. intros k. cbn beta. rewrite mail_app. destruct o; try contradiction; symmetry; apply app_nil_r. }
  destruct o as [k m|k m|k n| | | | | | | |]; try (apply NO; exact Logic.I). cbn [step].
  destruct (store_ok dig K S1 _ _ k m IH H1) as (mb' & E1 & E2).
  { etransitivity; [apply mail_len|exact S6']. }
  { intros k' m' IN E. apply S5; [|rewrite allMail_app; apply in_or_app; right; left; reflexivity|exact E]. rewrite allMail_app. apply in_or_app. left. exact (mail_all _ _ _ IN). }
  rewrite E1. cbn [withMb s_mb]. eapply minv_ext; [|exact E2]. intros k'. cbn beta. rewrite mail_app. cbn. rewrite app_nil_r. reflexivity.
Qed.

Lemma fetch_same : forall m1 m2 l, Forall (fun e => get (snd e) m1 = get (snd e) m2) l -> fetch m1 l = fetch m2 l.
Proof. intros m1 m2. induction l as [|[n d] l IH]; intros F; [reflexivity|]. inversion F; subst. cbn [fetch snd] in *. rewrite H1, IH by assumption. reflexivity. Qed.
Lemma enum_in : forall A (l : list A) n i x, In (i, x) (enum n l) -> In x l.
Proof. induction l as [|y l IH]; intros n i x IN; [destruct IN|]. cbn in IN. destruct IN as [E|IN]; [inversion E; left; reflexivity|right; eapply IH; exact IN]. Qed.
Lemma clone_same : forall dig K k fn M M' mb mb', flat 46 K -> MInv dig K M mb -> MInv dig K M' mb' -> K k -> M k = M' k -> fn <= MaxON -> cloneTopic k fn mb = cloneTopic k fn mb'.
Proof.
  intros dig K k fn M M' mb mb' FL [O G] [O' G'] KK E LE. unfold cloneTopic.
  destruct (oreads 46 K goodsep46 FL _ _ k fn O KK LE) as (_ & R & _). destruct (oreads 46 K goodsep46 FL _ _ k fn O' KK LE) as (_ & R' & _). rewrite R, R'. cbn [bind]. cbn beta. rewrite <- E.
  apply fetch_same. apply Forall_forall. intros [n d] IN. apply filter_In in IN. destruct IN as [IN _]. apply enum_in in IN. apply in_map_iff in IN. destruct IN as (m & <- & IN). cbn [snd].
  rewrite (G k m IN), (G' k m); [reflexivity|]. rewrite <- E. exact IN.
Qed.
Lemma clone_read : forall dig K k fn M mb, flat 46 K -> MInv dig K M mb -> K k -> fn <= MaxON -> Forall clean (M k) -> cloneTopic k fn mb = Ok (filter (fun e => fn <=? fst e) (enum 0 (M k))).
Proof.
  intros dig K k fn M mb FL MI KK LE C. pose proof MI as [O G]. unfold cloneTopic.
  destruct (oreads 46 K goodsep46 FL _ _ k fn O KK LE) as (_ & R & _). rewrite R. cbn [bind]. cbn beta. clear R.
  assert (X : forall l n, (forall m, In m l -> In m (M k)) -> fetch (msgs mb) (filter (fun e => fn <=? fst e) (enum n (map dig l))) = Ok (filter (fun e => fn <=? fst e) (enum n l))).
  { induction l as [|m l IH]; intros n I; [reflexivity|]. cbn [map enum filter fst]. assert (IM : In m (M k)) by (apply I; left; reflexivity).
    assert (IL : forall x, In x l -> In x (M k)) by (intros; apply I; right; assumption). destruct (fn <=? n); [|apply IH; exact IL]. cbn [fetch].
    rewrite (G k m IM). rewrite Forall_forall in C. destruct (C m IM) as (C1 & C2 & _). unfold decode. rewrite C2. cbn [bind]. rewrite IH by exact IL. cbn [bind]. destruct m; [congruence|reflexivity]. }
  apply X. auto.
Qed.

(** ** A message that is not text *)
Lemma fetch_bad : forall m bad l d, utf8 bad = false -> In d l -> get (snd d) m = Some bad -> exists x, fetch m l = Err x.
Proof.
  intros m bad l d U. induction l as [|[n e] l IH]; intros IN G; [destruct IN|]. cbn [fetch]. destruct IN as [<-|IN].
  - cbn [snd] in G. rewrite G. unfold decode. rewrite U. cbn [bind]. eauto.
  - destruct (IH IN G) as (x & E). rewrite E. destruct (get e m) as [v|]; [|eauto]. destruct (decode v); cbn [bind]; eauto.
Qed.
Lemma in_enum : forall A (l : list A) n x, In x l -> exists i, n <= i /\ In (i, x) (enum n l).
Proof.
  induction l as [|y l IH]; intros n x IN; [destruct IN|]. destruct IN as [->|IN]; [exists n; split; [lia|left; reflexivity]|]. destruct (IH (n + 1) x IN) as (i & LI & B). exists i. split; [lia|right; exact B].
Qed.
Lemma clone_bad : forall dig K k M mb bad, flat 46 K -> MInv dig K M mb -> K k -> In bad (M k) -> utf8 bad = false -> exists x, cloneTopic k 0 mb = Err x.
Proof.
  intros dig K k M mb bad FL [O G] KK IN U. unfold cloneTopic. assert (L0 : 0 <= MaxON) by (unfold MaxON; lia).
  destruct (oreads 46 K goodsep46 FL _ _ k 0 O KK L0) as (_ & R & _). rewrite R. cbn [bind]. cbn beta.
  destruct (in_enum _ _ 0 (dig bad) (in_map dig _ _ IN)) as (i & A & B). apply (fetch_bad _ bad _ (i, dig bad) U); [|cbn [snd]; apply (G k); exact IN].
  apply filter_In. split; [exact B|apply N.leb_le; exact A].
Qed.
Lemma iter_bad : forall mb pre tp t x, In (t, 0) tp -> cloneTopic (pre ++ t) 0 mb = Err x -> exists y, iterNext mb pre tp = Err y.
Proof.
  intros mb pre tp t x IN E. induction tp as [|[t' i] tp IH]; [destruct IN|]. cbn [iterNext]. destruct IN as [EQ|IN].
  - inversion EQ; subst. rewrite E. cbn [bind]. eauto.
  - destruct (IH IN) as (y & F). rewrite F. destruct (cloneTopic (pre ++ t') i mb); cbn [bind]; eauto.
Qed.

Definition stuck (topics : list bytes) (s : sys) : Prop :=
  s_cur s = [] /\ s_pend s = None /\ s_log s = [] /\ s_taken s = [] /\ s_queue s = [] /\ match s_conn s with None => True | Some (sv, fl) => fl = [] /\ (sv = None \/ sv = Some (ask topics [])) end.
Lemma run_stores : forall dig pre topics ops s, Forall isStore ops -> s_conn s = None -> stuck topics s -> stuck topics (run dig pre topics ops s) /\ s_conn (run dig pre topics ops s) = None.
Proof.
  intros dig pre topics. induction ops as [|o ops IH]; intros s F EC S0; [auto|]. inversion F; subst. cbn [run fold_left]. destruct o; try contradiction. apply IH; [assumption| |]; cbn [step].
  - destruct (storeMsg dig key msg (s_mb s)) as [[mb b]|x]; exact EC.
  - destruct (storeMsg dig key msg (s_mb s)) as [[mb b]|x]; exact S0.
Qed.
Lemma poisoned : forall dig pre topics K t0 bad ops1 ops2, setting dig pre topics K (ops1 ++ ops2) -> Forall isStore ops1 -> In (Store (pre ++ t0) bad) ops1 -> In t0 topics -> utf8 bad = false ->
  stuck topics (run dig pre topics (ops1 ++ ops2) sys0).
Proof.
  intros dig pre topics K t0 bad ops1 ops2. induction ops2 as [|o ops IH] using rev_ind; intros ST F IN IT U.
  - rewrite app_nil_r. apply run_stores; [exact F|reflexivity|]. unfold stuck, sys0. cbn. auto 10.
  - rewrite app_assoc in ST. pose proof (setting_app _ _ _ _ _ _ ST) as ST'. specialize (IH ST' F IN IT U). pose proof (run_mb _ _ _ _ _ ST') as MI. rewrite app_assoc, run_app. cbn [run fold_left].
    fold (run dig pre topics (ops1 ++ ops) sys0). set (s := run dig pre topics (ops1 ++ ops) sys0) in *. clearbody s.
    destruct ST as [S1 S2 S3 S4 _ _]. apply Forall_app in S4. destruct S4 as [_ S4]. inversion S4; subst.
    pose proof IH as (A1 & A2 & A3 & A4 & A5 & A6). destruct o as [k m|k m|k n| | | | | | | |]; try contradiction; cbn [step].
    + destruct (storeMsg dig k m (s_mb s)) as [[mb b]|x]; exact IH.
    + destruct (s_conn s) as [[sv fl]|] eqn:EC; [|exact IH]. unfold stuck. cbn. split; [exact A1|]. split; [exact A2|]. split; [exact A3|]. split; [exact A4|]. split; [exact A5|]. split; [apply A6|left; reflexivity].
    + destruct (s_conn s) as [c|] eqn:EC; [exact IH|]. rewrite A2. unfold stuck. cbn. split; [exact A1|]. split; [exact A2|]. split; [exact A3|]. split; [exact A4|]. split; [exact A5|]. split; [reflexivity|right; rewrite A1; reflexivity].
    + destruct (s_conn s) as [[[tp|] fl]|] eqn:EC; [|exact IH|exact IH]. destruct A6 as [-> [X|X]]; [discriminate|]. inversion X; subst tp.
      assert (IM : In bad (mail (pre ++ t0) (ops1 ++ ops))). { rewrite mail_app. apply in_or_app. left. unfold mail. apply in_flat_map. exists (Store (pre ++ t0) bad). split; [exact IN|]. rewrite beq_refl. left. reflexivity. }
      destruct (S3 t0 IT) as (_ & _ & KK). destruct (clone_bad _ _ _ _ _ _ S1 MI KK IM U) as (x & CE).
      destruct (iter_bad (s_mb s) pre (ask topics []) t0 x) as (y & IE); [unfold ask; apply in_map_iff; exists t0; auto|exact CE|]. rewrite IE. unfold stuck. cbn. auto 10.
    + destruct (s_conn s) as [[sv fl]|] eqn:EC; [|exact IH]. destruct A6 as [-> A6]. exact IH.
    + rewrite A2. exact IH.
    + rewrite A2. unfold stuck. cbn. auto 10.
    + unfold stuck. cbn. rewrite A4, A5. split; [exact A1|]. split; [exact A2|]. split; [exact A3|]. split; [reflexivity|]. split; [reflexivity|exact A6].
    + unfold stuck. cbn. auto 10.
Qed.

(** ** Handing over *)
Lemma handed : forall dig pre topics K ops, setting dig pre topics K ops -> Forall clean (allMail ops) -> crashes ops = 0 ->
  s_taken (run dig pre topics ops sys0) ++ s_queue (run dig pre topics ops sys0) = map eData (s_log (run dig pre topics ops sys0)).
Proof.
  intros dig pre topics K. induction ops as [|o ops IH] using rev_ind; intros ST C NC; [reflexivity|].
  pose proof (setting_app _ _ _ _ _ _ ST) as ST'. rewrite allMail_app in C. apply Forall_app in C. destruct C as [C _]. rewrite crashes_app in NC. specialize (IH ST' C ltac:(clear - NC; lia)).
  pose proof (run_si _ _ _ _ _ ST' C) as S0. rewrite run_app. cbn [run fold_left]. fold (run dig pre topics ops sys0). set (s := run dig pre topics ops sys0) in *. clearbody s.
  destruct o as [k m|k m|k n| | | | | | | |]; cbn [step].
  - destruct (storeMsg dig k m (s_mb s)) as [[mb b]|x]; exact IH.
  - destruct (storeIndex dig k m (s_mb s)) as [mb|x]; exact IH.
  - exact IH.
  - destruct (s_conn s) as [[sv fl]|]; exact IH.
  - destruct (s_conn s), (s_pend s); exact IH.
  - destruct (s_conn s) as [[[tp|] fl]|]; try exact IH. destruct (iterNext (s_mb s) pre tp) as [[tp' out]|x]; exact IH.
  - destruct (s_conn s) as [[sv [|e fl]]|]; try exact IH. destruct (s_pend s); [exact IH|]. destruct (isnil (eId e) || isnil (eData e) || isnil (eName e)); [exact IH|].
    cbn. rewrite map_app, app_assoc, IH. reflexivity.
  - destruct (s_pend s) as [e|] eqn:EP; [|exact IH]. destruct (pend_id _ _ _ _ _ _ e S0 EP) as (n & DE). rewrite DE. exact IH.
  - destruct (s_pend s); exact IH.
  - cbn. rewrite app_nil_r. exact IH.
  - unfold crashes, len in NC. cbn in NC. lia.
Qed.

(** ** A crash after the number is noted *)
Section Lost.
Variable dig : bytes -> bytes.
Variables pre t m : bytes.
Hypothesis Tn : t <> [].
Hypothesis Tl : oneLine t.
Hypothesis Mc : clean m.
Notation ops6 := [Store (pre ++ t) m; Connect; Next; Recv; Pin; Crash].
Definition Kone (k : bytes) : Prop := k = pre ++ t.
Lemma kone_flat : flat 46 Kone.
Proof.
  split; [unfold Kone; intros E; destruct pre; [cbn in E; congruence|discriminate]|]. unfold Kone. intros k k' x -> -> E.
  assert (L : List.length (pre ++ t) = List.length ((pre ++ t) ++ 46 :: x)) by (f_equal; exact E). rewrite (app_length (pre ++ t)) in L. cbn [List.length] in L. clear - L. lia.
Qed.
Lemma one_setting : forall ops, Forall noStore ops -> setting dig pre [t] Kone (ops6 ++ ops).
Proof.
  intros ops F. assert (NM : allMail ops = []). { induction F as [|o ops NO F IH]; [reflexivity|]. unfold allMail in *. cbn [flat_map]. rewrite IH. destruct o; try contradiction; reflexivity. }
  assert (PL : Forall (plainOp Kone) ops) by (eapply Forall_impl; [|exact F]; intros o NO; destruct o; try contradiction; exact Logic.I).
  constructor.
  - exact kone_flat.
  - constructor; [intros []|constructor].
  - intros x [<-|[]]. split; [exact Tn|]. split; [exact Tl|reflexivity].
  - apply Forall_app. split; [|exact PL]. constructor; [reflexivity|]. repeat (constructor; [exact Logic.I|]). constructor.
  - rewrite allMail_app, NM. cbn. intros a b [<-|[]] [<-|[]] _. reflexivity.
  - rewrite allMail_app, NM. unfold len, MaxON. cbn. lia.
Qed.
Definition gone (mb : mbx) (s : sys) : Prop :=
  s_mb s = mb /\ s_cur s = [(t, 0)] /\ s_pend s = None /\ s_queue s = [] /\ s_taken s = [] /\ s_log s = [mkEv (decstr 0) t m] /\ match s_conn s with None => True | Some (sv, fl) => fl = [] /\ (sv = None \/ sv = Some [(t, 1)]) end.
Lemma gone6 : exists mb, cloneTopic (pre ++ t) 1 mb = Ok [] /\ gone mb (run dig pre [t] ops6 sys0).
Proof.
  pose proof (one_setting [] (Forall_nil _)) as ST. rewrite app_nil_r in ST.
  assert (ST1 : setting dig pre [t] Kone [Store (pre ++ t) m]) by (change ops6 with ([Store (pre ++ t) m] ++ [Connect; Next; Recv; Pin; Crash]) in ST; eapply setting_app; exact ST).
  pose proof (run_mb _ _ _ _ _ ST1) as MI. cbn [run fold_left] in MI. cbn [run fold_left].
  set (s1 := step dig pre [t] sys0 (Store (pre ++ t) m)) in *.
  assert (E1 : s_cur s1 = [] /\ s_conn s1 = None /\ s_pend s1 = None /\ s_queue s1 = [] /\ s_taken s1 = [] /\ s_log s1 = []).
  { unfold s1. cbn [step]. destruct (storeMsg dig (pre ++ t) m (s_mb sys0)) as [[mb b]|x]; cbn; auto 10. }
  clearbody s1. destruct s1 as [mb c cn pd q tk lg]. cbn in E1. destruct E1 as (-> & -> & -> & -> & -> & ->). cbn [s_mb] in MI. exists mb.
  assert (MM : mail (pre ++ t) [Store (pre ++ t) m] = [m]) by (unfold mail; cbn [flat_map]; rewrite beq_refl; reflexivity).
  assert (C0 : cloneTopic (pre ++ t) 0 mb = Ok [(0, m)]).
  { apply (clone_ok dig Kone kone_flat _ mb (pre ++ t) [] [m] MI eq_refl MM); [unfold len, MaxON; cbn; lia|constructor; [exact Mc|constructor]]. }
  assert (C1 : cloneTopic (pre ++ t) 1 mb = Ok []).
  { apply (clone_ok dig Kone kone_flat _ mb (pre ++ t) [m] [] MI eq_refl MM); [unfold len, MaxON; cbn; lia|constructor]. }
  split; [exact C1|].
  assert (OS : Forall okSent [mkSent t 0 m]) by (constructor; [split; [exact Tl|exact (proj2 (proj2 Mc))]|constructor]).
  cbn [step s_conn s_pend withConn s_cur ask map curOf find s_mb iterNext s_queue s_taken s_log]. rewrite C0. cbn [bind map fst snd app].
  rewrite (sse_render _ OS). unfold evOf. cbn [map sFn sTopic sMsg app s_conn s_pend withConn s_cur s_mb s_queue s_taken s_log eId eData eName].
  assert (G : isnil (decstr 0) || isnil m || isnil t = false) by (destruct Mc as (M1 & _); destruct m; [congruence|]; destruct t; [congruence|]; reflexivity).
  rewrite G. cbn [s_conn s_pend withConn s_cur s_mb s_queue s_taken s_log eId eData eName app]. rewrite decint_decstr.
  unfold gone, crash. cbn. auto 10.
Qed.
Lemma gone_step : forall mb s o, cloneTopic (pre ++ t) 1 mb = Ok [] -> noStore o -> gone mb s -> gone mb (step dig pre [t] s o).
Proof.
  intros mb s o CE NS G. pose proof G as (A0 & A1 & A2 & A3 & A4 & A5 & A6). destruct o as [k x|k x|k n| | | | | | | |]; try contradiction; cbn [step].
  - destruct (s_conn s) as [[sv fl]|] eqn:EC; [|exact G]. unfold gone. cbn. destruct A6 as [A6 _]. auto 10.
  - destruct (s_conn s) as [c|] eqn:EC; [exact G|]. rewrite A2. unfold gone. cbn. rewrite A1. unfold curOf. cbn. rewrite beq_refl. auto 10.
  - destruct (s_conn s) as [[[tp|] fl]|] eqn:EC; [|exact G|exact G]. destruct A6 as [-> [X|X]]; [discriminate|]. inversion X; subst tp.
    cbn [iterNext]. rewrite A0, CE. cbn. unfold gone. cbn. auto 10.
  - destruct (s_conn s) as [[sv fl]|] eqn:EC; [|exact G]. destruct A6 as [-> A6]. exact G.
  - rewrite A2. exact G.
  - rewrite A2. unfold gone. cbn. auto 10.
  - unfold gone. cbn. rewrite A3, A4. split; [exact A0|]. split; [exact A1|]. split; [exact A2|]. split; [reflexivity|]. split; [reflexivity|]. split; [exact A5|exact A6].
  - unfold gone. cbn. auto 10.
Qed.
Lemma gone_run : forall ops, Forall noStore ops -> s_taken (run dig pre [t] (ops6 ++ ops) sys0) = [] /\ s_queue (run dig pre [t] (ops6 ++ ops) sys0) = [].
Proof.
  intros ops F. rewrite run_app. destruct gone6 as (mb & CE & G). revert G. generalize (run dig pre [t] ops6 sys0). induction F as [|o ops NO F IH]; intros s G; [destruct G as (_ & _ & _ & A & B & _); auto|].
  cbn [run fold_left]. apply IH. apply gone_step; assumption.
Qed.
End Lost.

(** ** A client that has noted number 0 of a mailbox without a number 1 *)
Definition idle (t m : bytes) (mb : mbx) (s : sys) : Prop :=
  s_mb s = mb /\ s_cur s = [(t, 0)] /\ s_pend s = None /\ (forall x, In x (s_taken s ++ s_queue s) -> x = m) /\ s_log s = [mkEv (decstr 0) t m] /\ match s_conn s with None => True | Some (sv, fl) => fl = [] /\ (sv = None \/ sv = Some [(t, 1)]) end.
Lemma idle_step : forall dig pre t m mb s o, cloneTopic (pre ++ t) 1 mb = Ok [] -> noStore o -> idle t m mb s -> idle t m mb (step dig pre [t] s o).
Proof.
  intros dig pre t m mb s o CE NS G. pose proof G as (A0 & A1 & A2 & A3 & A5 & A6). destruct o as [k x|k x|k n| | | | | | | |]; try contradiction; cbn [step].
  - destruct (s_conn s) as [[sv fl]|] eqn:EC; [|exact G]. unfold idle. cbn. destruct A6 as [A6 _]. auto 10.
  - destruct (s_conn s) as [c|] eqn:EC; [exact G|]. rewrite A2. unfold idle. cbn. rewrite A1. unfold curOf. cbn. rewrite beq_refl. auto 10.
  - destruct (s_conn s) as [[[tp|] fl]|] eqn:EC; [|exact G|exact G]. destruct A6 as [-> [X|X]]; [discriminate|]. inversion X; subst tp.
    cbn [iterNext]. rewrite A0, CE. cbn. unfold idle. cbn. auto 10.
  - destruct (s_conn s) as [[sv fl]|] eqn:EC; [|exact G]. destruct A6 as [-> A6]. exact G.
  - rewrite A2. exact G.
  - rewrite A2. unfold idle. cbn. auto 10.
  - unfold idle. cbn. rewrite app_nil_r. auto 10.
  - unfold idle. cbn. rewrite app_nil_r. split; [exact A0|]. split; [exact A1|]. split; [reflexivity|]. split; [intros x IN; apply A3; apply in_or_app; left; exact IN|]. auto.
Qed.
Lemma idle_run : forall dig pre t m mb ops s, cloneTopic (pre ++ t) 1 mb = Ok [] -> Forall noStore ops -> idle t m mb s -> idle t m mb (run dig pre [t] ops s).
Proof. intros dig pre t m mb ops s CE F. revert s. induction F as [|o ops NO F IH]; intros s G; [exact G|]. cbn [run fold_left]. apply IH. apply idle_step; assumption. Qed.
