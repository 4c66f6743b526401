(** Properties of receipts. *)
From Verif Require Import Prelude B64Model MatterModel SubsModel ThModel ThSpec ThThms KelModel KelSpec KelProofs KelInv KelThms RcModel RcSpec RcProofs RcInv RcKeep.
Ltac Zify.zify_post_hook ::= Z.div_mod_to_equations.
Open Scope N_scope.

(** ** Example material: in the world of KelThms prefixes from 1000 on are non transferable *)
Definition rc0 : rconf := mkRconf cf0 true (fun raw i => i :: raw).
(** a node that does not accept everything: its own identifiers are 1060 and 8 *)
Definition rcOwn : rconf := mkRconf (mkConf [1060; 8] [] (fun _ => None)) false (fun raw i => i :: raw).
Definition cig (e : evt) (k : N) : cigar := mkCigar k (k :: e_raw e).
Definition ev (e : evt) (sg wg : list siger) : rop := REvent (mkEmsg (mkMsg e sg wg None true false 10 None) None [] []).
Definition evC (e : evt) (sg : list siger) (cs : list cigar) (ts : list tsg) : rop := REvent (mkEmsg (mkMsg e sg [] None true false 10 None) None cs ts).
Definition rct (e : evt) (cs : list cigar) (ws : list siger) (ts rs : list tsg) : rmsg :=
  mkRmsg (e_pre e) (e_sn e) (e_said e) cs ws ts rs false 10.
Lemma rreal_cons : forall H o ops, rreal H o -> Forall (rreal H) ops -> Forall (rreal H) (o :: ops).
Proof. intros. constructor; assumption. Qed.
Ltac rreals := repeat (apply rreal_cons; [first [reflexivity|exact Logic.I]|]); apply Forall_nil.

(** identifier 7 with two witnesses; a rotation that drops one; one that adds one *)
Definition B0 := icpT 30 7 1 [1] 1 [102] 1 [1050; 1051].
Definition B1 := rotT Rot 31 7 1 30 1 [2] 1 [103] 1 [1050] [].
Definition B1a := rotT Rot 32 7 1 30 1 [2] 1 [103] 2 [] [1052].
Definition B1i := ixn1 33 7 1 30 [].
(** the receiptor 8 *)
Definition C0 := icp1 27 8 [5] [106].
Definition evsB := [B0; B1; B1a; C0; A0; A1; A2; A1r; A2r; B1i].
Definition grp (e : evt) : tsg := mkTsg 8 0 27 [sign e 5 0 None].
Definition HB := Hof evsB.
Lemma worldB : world HB. Proof. apply world_of. vm_compute. reflexivity. Qed.
Lemma saneB : sane HB. Proof. apply sane_of. vm_compute. reflexivity. Qed.

(** ** Genuine receipts *)
Lemma c58_receipts_are_genuine : forall E H rc s p d c, world H -> rreachable E H rc s -> In c (receiptsOf s p d) ->
  exists e, eventAt s p d = Some e /\ e_said e = d /\ e_pre e = p /\ endorses E e c.
Proof.
  intros E H rc s p d c W R I. destruct (rreach_rinv _ _ _ _ W R) as [RI _]. destruct (ri_rct _ _ _ _ RI _ _ _ I) as (e & A & B).
  exists e. split; [exact A|]. destruct (i_ev _ _ _ _ (ri_inv _ _ _ _ RI) _ _ _ A) as [X Y]. split; [apply (W _ _ X)|]. auto.
Qed.

Lemma c58_trans_signed_partial : forall E H rc s p d o g, world H -> rreachable E H rc s -> In (o, g) (transReceiptsOf s p d) ->
  exists d' e, eventAt s p d' = Some e /\ e_pre e = p /\ transEndorses E s e o g.
Proof.
  intros E H rc s p d o g W R I. destruct (rreach_rinv _ _ _ _ W R) as [RI _]. destruct (ri_vrc _ _ _ _ RI _ _ _ _ I) as (d' & e & A & B).
  exists d', e. split; [exact A|]. split; [exact (proj2 (i_ev _ _ _ _ (ri_inv _ _ _ _ RI) _ _ _ A))|].
  destruct o as [[sp ssn] sd]. exact B.
Qed.

Lemma c58_trans_receipts_are_genuine_partial : forall E H rc s p d o g, world H -> creachable E H rc s -> In (o, g) (transReceiptsOf s p d) ->
  exists e, eventAt s p d = Some e /\ e_said e = d /\ e_pre e = p /\ transEndorses E s e o g.
Proof.
  intros E H rc s p d o g W R I. pose proof (creach_rinv _ _ _ _ W R) as RI. destruct (ri_vrc _ _ _ _ RI _ _ _ _ I) as (e & A & B).
  exists e. split; [exact A|]. destruct (i_ev _ _ _ _ (ri_inv _ _ _ _ RI) _ _ _ A) as [X Y]. split; [apply (W _ _ X)|]. split; [exact Y|].
  destruct o as [[sp ssn] sd]. exact B.
Qed.

Definition opsR1 : list rop :=
  [ev C0 [sign C0 5 0 None] []; RReceipt (rct B0 [cig B0 1070; cig B0 1051] [] [grp B0] []);
   ev B0 [sign B0 1 0 None] [sign B0 1050 0 None]; REscrows 11; RRestart;
   RReceipt (rct B0 [cig B0 1071] [sign B0 1051 1 None] [] [grp B0])].


Definition opsR2 : list rop :=
  [ev C0 [sign C0 5 0 None] []; evC A0 [sign A0 1 0 None] [cig A0 1070] [grp A0]; RReceipt (rct A0 [] [] [mkTsg 8 0 27 [sign A0 5 0 (Some 0)]] [])].


Lemma c58_misfiled_refuted : exists E H rc s o g e, world H /\ sane H /\ rreachable E H rc s /\
  In (o, g) (transReceiptsOf s 7 23) /\ eventAt s 7 23 = Some e /\ acceptedIn s 7 23 /\ ~ transEndorses E s e o g.
Proof.
  set (ops := [ev C0 [sign C0 5 0 None] []; ev A0 [sign A0 1 0 None] []; ev A1 [sign A1 1 0 None] [];
               ev A1r [sign A1r 2 0 (Some 0)] []; RReceipt (rct A1 [] [] [grp A1] [])]).
  exists E1, HB, rc0, (rrun E1 rc0 ops rdb0), (8, 0, 27), (sign A1 5 0 None), A1r.
  split; [exact worldB|]. split; [exact saneB|]. split; [exists ops; split; [unfold ops; rreals|reflexivity]|].
  split; [vm_compute; auto|]. split; [vm_compute; reflexivity|]. split; [vm_compute; auto|].
  intros (se & _ & EV & _ & ky & NE & VF). vm_compute in EV. inversion EV; subst se. vm_compute in NE. inversion NE; subst ky.
  vm_compute in VF. discriminate.
Qed.

Lemma c58_unaccepted_refuted : exists E H rc s c, world H /\ sane H /\ rreachable E H rc s /\
  In c (receiptsOf s 7 33) /\ ~ acceptedIn s 7 33.
Proof.
  set (ops := [ev B0 [sign B0 1 0 None] [sign B0 1050 0 None]; ev B1 [sign B1 2 0 (Some 0)] [sign B1 1051 0 None];
               ev B1i [sign B1i 9 0 None] []; ev B1i [sign B1i 1 0 None] []; RReceipt (rct B1i [cig B1i 1070] [] [] [])]).
  exists E1, HB, rc0, (rrun E1 rc0 ops rdb0), (cig B1i 1070).
  split; [exact worldB|]. split; [exact saneB|]. split; [exists ops; split; [unfold ops; rreals|reflexivity]|].
  vm_compute. split; [auto|]. intros [X|[X|[]]]; discriminate.
Qed.

Lemma c58_witness_index_refuted : exists E H rc s e g, world H /\ sane H /\ rreachable E H rc s /\
  eventAt s 7 30 = Some e /\ isIncept (e_ilk e) = true /\ acceptedIn s 7 30 /\
  In g (witnessSigsOf s 7 30) /\ ~ verified E (e_wits e) (e_raw e) g.
Proof.
  set (ops := [RReceipt (rct B0 [cig B0 1051] [] [] []); ev B0 [sign B0 1 0 None] [sign B0 1050 0 None];
               ev B1 [sign B1 2 0 (Some 0)] [sign B1 1051 0 None]; REscrows 11]).
  exists E1, HB, rc0, (rrun E1 rc0 ops rdb0), B0, (mkSigerO [0; 1051; 30] 0 [1051; 30] (Some 0)).
  split; [exact worldB|]. split; [exact saneB|]. split; [exists ops; split; [unfold ops; rreals|reflexivity]|].
  split; [vm_compute; reflexivity|]. split; [reflexivity|]. split; [vm_compute; auto|]. split; [vm_compute; auto|].
  intros (ky & NE & VF). vm_compute in NE. inversion NE; subst ky. vm_compute in VF. discriminate.
Qed.

(** ** Receipts and key event logs *)
Lemma quietw_sigs : forall x x' p d, quietw x x' -> getSigs x' p d = getSigs x p d.
Proof. intros x x' p d Q. rewrite (q_eq _ _ Q). reflexivity. Qed.
Lemma c59_receipt_changes_no_log : forall E rc m s s', s' = rstep E rc s (RReceipt m) ->
  fst (fst s') = fst (fst s) /\
  (forall p, keyState (fst s') p = keyState (fst s) p) /\
  (forall p d, eventAt s' p d = eventAt s p d) /\
  (forall p d, getSigs (snd (fst s')) p d = getSigs (snd (fst s)) p d) /\
  (forall p d, incl (witnessSigsOf s p d) (witnessSigsOf s' p d)) /\
  (forall p d, incl (receiptsOf s p d) (receiptsOf s' p d)) /\
  (forall p d, incl (transReceiptsOf s p d) (transReceiptsOf s' p d)).
Proof.
  intros E rc m [[d x] r] s' ->. cbn [rstep]. unfold dispatchRct.
  match goal with |- context [if ?b then _ else _] => destruct b end; [repeat split; intros; apply incl_refl|]. cbn [split].
  assert (A : adv E (fun _ _ _ _ _ => True) (x, r) (fst (processReceipt E rc d m (x, r)))) by (apply adv_processReceipt; auto).
  destruct (processReceipt E rc d m (x, r)) as [[x1 r1] rs]. unfold join. cbn [fst snd] in *.
  pose proof (ad_x _ _ _ _ A) as Q. cbn [fst snd] in Q. pose proof (quietw_evts _ _ Q) as EV.
  split; [reflexivity|]. split; [intros p; unfold keyState; cbn [fst snd]; apply kget_evts; exact EV|].
  cbn [fst snd] in EV. split; [intros; unfold eventAt; cbn [fst snd]; rewrite EV; reflexivity|].
  split; [intros; apply quietw_sigs; exact Q|]. split; [intros; apply (q_wigs _ _ Q)|].
  split; intros; [apply (ad_rct_incl _ _ _ _ A)|apply (ad_vrc_incl _ _ _ _ A)].
Qed.



Lemma c59_logs_signed_with_receipts : forall E H rc s p d, world H -> rreachable E H rc s -> acceptedIn s p d ->
  exists e c ee, eventAt s p d = Some e /\ e_said e = d /\ e_pre e = p /\ log H (e :: c) /\ Forall (fun a => acceptedIn s p (e_said a)) c /\
    est_of (e :: c) = Some ee /\ signedBy E (e_keys ee) (e_kt ee) (e_raw e) (getSigs (snd (fst s)) p d).
Proof.
  intros E H rc s p d W R A. destruct (rreach_rinv _ _ _ _ W R) as [RI _]. destruct (i_fe _ _ _ _ (ri_inv _ _ _ _ RI) _ _ A) as (e & c & ee & S1 & CH & B1 & B2).
  exists e, c, ee. destruct (chain_hd _ _ _ _ _ _ CH) as (P1 & _ & EV & _). subst d. split; [exact EV|]. split; [reflexivity|]. split; [exact P1|].
  split; [apply CH|]. split; [|auto]. destruct CH as [_ CH]. inversion CH; subst. eapply Forall_impl; [|exact H3]. cbn. tauto.
Qed.

Lemma c59_append_only_with_receipts : forall E H rc s ops s', world H -> rreachable E H rc s -> Forall (rreal H) ops ->
  s' = rrun E rc ops s ->
  (forall p, exists l, fels (fst (fst s')) p = fels (fst (fst s)) p ++ l) /\
  (forall p d e, eventAt s p d = Some e -> eventAt s' p d = Some e).
Proof.
  intros E H rc s ops s' W R F ->. destruct (rreach_rinv _ _ _ _ W R) as [RI _]. destruct (rrun_weak E H rc ops s W RI F) as [_ M].
  destruct (micros_grows _ _ _ _ _ W (ri_inv _ _ _ _ RI) M) as (G1 & G2 & _). split; [exact G1|]. intros p d e A. apply G2. exact A.
Qed.

(** ** Receipts of the node itself *)
Section Own.
  Variables (E : env) (rc : rconf) (local : bool).
  Definition okw (w w' : wst) : Prop :=
    (forall p d c, In c (getRcts (snd w') p d) -> In c (getRcts (snd w) p d) \/ ownBad rc (cg_key c) p local = false) /\
    (forall p d (o : src) g, In (o, g) (getVrcs (snd w') p d) -> In (o, g) (getVrcs (snd w) p d) \/ ownBad rc (fst (fst o)) p local = false).
  Definition ko {A} (a : act A) : Prop := forall w, okw w (fst (a w)).
  Lemma okw_refl : forall w, okw w w.
  Proof. split; auto. Qed.
  Lemma okw_trans : forall a b c, okw a b -> okw b c -> okw a c.
  Proof.
    intros a b c [A1 A2] [B1 B2]. split.
    - intros p d y I. apply B1 in I. destruct I as [I|I]; [|auto]. apply A1. exact I.
    - intros p d o g I. apply B2 in I. destruct I as [I|I]; [|auto]. apply A2. exact I.
  Qed.
  Lemma ko_ok : ko ok. Proof. intros w. apply okw_refl. Qed.
  Lemma ko_raise : forall A e, ko (@raise A e). Proof. intros A e w. apply okw_refl. Qed.
  Lemma ko_seq : forall A (a : act unit) (b : act A), ko a -> ko b -> ko (seqa a b).
  Proof.
    intros A a b GA GB w. unfold seqa. specialize (GA w). destruct (a w) as [w' [u|e]]; cbn in *; [|exact GA].
    eapply okw_trans; [exact GA|apply GB].
  Qed.
  Lemma ko_each : forall A (f : A -> act unit) l, (forall a, ko (f a)) -> ko (each f l).
  Proof. intros A f l G. induction l as [|a l IH]; [apply ko_ok|]. cbn [each]. apply ko_seq; auto. Qed.
  Lemma ko_wra : forall f, ko (wra f). Proof. intros f [x r]. split; auto. Qed.
  Lemma ko_wr : forall f, (forall r, rcts (f r) = rcts r) -> (forall r, vrcs (f r) = vrcs r) -> ko (wr f).
  Proof. intros f A B [x r]. unfold wr, okw, getRcts, getVrcs. cbn [fst snd]. rewrite A, B. auto. Qed.
  Lemma ko_addRct : forall p d c, ownBad rc (cg_key c) p local = false -> ko (wr (addRct p d c)).
  Proof.
    intros p d c N [x r]. split; [|intros; left; exact H]. unfold wr. cbn [fst snd]. intros p' d' c' I. unfold addRct, getRcts in *. cbn [rcts set_rcts] in I.
    destruct (aset_cases _ (rcts r) p d (Some (addc cigar_eqb c (olist (rcts r p d)))) p' d') as [(-> & -> & Z)|(_ & Z)]; rewrite Z in I; [|auto].
    cbn [olist] in I. apply addc_In in I. destruct I as [I| ->]; auto.
  Qed.
  Lemma ko_addVrc : forall p d (o : src) g, ownBad rc (fst (fst o)) p local = false -> ko (wr (addVrc p d o g)).
  Proof.
    intros p d o g N [x r]. split; [intros; left; exact H|]. unfold wr. cbn [fst snd]. intros p' d' o' g' I. unfold addVrc, getVrcs in *. cbn [vrcs set_vrcs] in I.
    destruct (aset_cases _ (vrcs r) p d (Some (addc rct_eqb (o, g) (olist (vrcs r p d)))) p' d') as [(-> & -> & Z)|(_ & Z)]; rewrite Z in I; [|auto].
    cbn [olist] in I. apply addc_In in I. destruct I as [I|Q]; [auto|]. inversion Q; subst. auto.
  Qed.
  Lemma ko_addWig : forall Q p d raw i, ko (addWig Q p d raw i).
  Proof. intros Q p d raw i w. unfold addWig. destruct (mkWig Q raw i); [apply ko_wra|apply ko_raise]. Qed.
  Lemma ko_escrowU : forall now p sn d cs, ko (escrowU E now p sn d cs).
  Proof. intros. apply ko_seq; [apply ko_wra|]. apply ko_each. intros c. destruct (transf E (cg_key c)); [apply ko_ok|apply ko_wr; reflexivity]. Qed.
  Lemma ko_escrowUW : forall now p sn d ws, ko (escrowUW now p sn d ws).
  Proof. intros. apply ko_seq; [apply ko_wra|]. apply ko_each. intros c. apply ko_wr; reflexivity. Qed.
  Lemma ko_escrowT : forall now p sn d t, ko (escrowT now p sn d t).
  Proof. intros. apply ko_seq; [apply ko_wra|]. apply ko_each. intros c. apply ko_wr; reflexivity. Qed.
  Lemma ko_recTsg : forall d p sn said ldig now le t, ko (recTsg E rc d p sn said ldig local now le t).
  Proof.
    intros d p sn said ldig now le t w. unfold recTsg. destruct (ownBad rc (t_pre t) p local) eqn:OB; [apply ko_raise|].
    destruct (klast _ _) as [sdig|]; [|apply ko_seq; [apply ko_escrowT|apply ko_raise]]. destruct (evts _ _ _) as [se|]; [|apply ko_raise].
    destruct (negb _); [apply ko_raise|]. destruct (isnil _); [apply ko_raise|]. unfold recSigs. apply ko_each. intros g.
    destruct (nth_error _ _) as [ky|]; [|apply ko_raise]. destruct (vrfy _ _ _ _); [|apply ko_ok]. apply ko_addVrc. exact OB.
  Qed.
  Lemma ko_processReceipt : forall d m, rm_local m = local -> ko (processReceipt E rc d m).
  Proof.
    intros d m LO w. unfold processReceipt. cbv zeta. rewrite LO. destruct (klast _ _) as [ldig|].
    - destruct (evts _ _ _) as [le|]; [|apply ko_raise]. destruct (negb _); [apply ko_raise|]. apply ko_seq.
      + apply ko_each. intros c w0. unfold recCigar. destruct (transf _ _); [apply ko_ok|]. destruct (ownBad _ _ _ _) eqn:OB; [apply ko_ok|].
        destruct (vrfy _ _ _ _); [|apply ko_ok]. destruct (witState _ _ _ _); [|apply ko_raise].
        destruct (indexOf _ _); [apply ko_addWig|]. apply ko_addRct. exact OB.
      + intros w0. destruct (witState _ _ _ _) as [wits|]; [|apply ko_raise]. apply ko_seq; [|apply ko_seq; apply ko_each; intros; apply ko_recTsg].
        apply ko_each. intros g w1. unfold recWiger. destruct (nth_error _ _); [|apply ko_ok]. destruct (transf _ _); [apply ko_ok|].
        destruct (ownBad _ _ _ _); [apply ko_ok|]. destruct (vrfy _ _ _ _); [apply ko_wra|apply ko_ok].
    - apply ko_seq; [destruct (isnil _); [apply ko_ok|apply ko_escrowU]|]. apply ko_seq; [destruct (isnil _); [apply ko_ok|]; apply ko_each; intros; apply ko_escrowT|].
      apply ko_seq; [destruct (isnil _); [apply ko_ok|apply ko_escrowUW]|apply ko_raise].
  Qed.
  Lemma ko_attachedCouples : forall d e cs fo now, ko (attachedCouples E rc d e cs fo local now).
  Proof.
    intros. unfold attachedCouples. destruct (attachedTo _ _ _ _) as [ldig|]; [|apply ko_seq; [apply ko_escrowU|apply ko_raise]].
    destruct (negb _); [apply ko_raise|]. apply ko_each. intros c w. unfold attCigar. destruct (transf _ _); [apply ko_ok|].
    destruct (ownBad _ _ _ _) eqn:OB; [apply ko_ok|]. destruct (vrfy _ _ _ _); [|apply ko_ok]. destruct (witState _ _ _ _); [|apply ko_raise].
    apply ko_addRct. exact OB.
  Qed.
  Lemma ko_attachedGroups : forall d e ts fo now, ko (attachedGroups E rc d e ts fo local now).
  Proof.
    intros. unfold attachedGroups. apply ko_each. intros t w. unfold attTsg. cbv zeta. destruct (ownBad _ _ _ _) eqn:OB; [apply ko_raise|].
    destruct (attachedTo _ _ _ _) as [dig|]; [|apply ko_seq; [apply ko_escrowT|apply ko_raise]].
    destruct (kget _ _ _); [|apply ko_seq; [apply ko_escrowT|apply ko_raise]].
    destruct (negb _); [apply ko_raise|]. destruct (klast _ _) as [sdig|]; [|apply ko_seq; [apply ko_escrowT|apply ko_raise]].
    destruct (evts _ _ _) as [se|]; [|apply ko_raise]. destruct (negb _); [apply ko_raise|]. destruct (isnil _); [apply ko_raise|].
    unfold attSigs. apply ko_each. intros g. destruct (nth_error _ _); [|apply ko_raise]. destruct (vrfy _ _ _ _); [|apply ko_raise]. apply ko_addVrc. exact OB.
  Qed.
End Own.
Lemma ownBad_false : forall rc k p local, ownBad rc k p local = false -> rc_lax rc = false -> In k (c_prefixes (rc_conf rc)) ->
  local = true /\ ~ In p (c_prefixes (rc_conf rc)).
Proof.
  intros rc k p local OB LX I. unfold ownBad in OB. rewrite LX in OB. cbn [negb andb] in OB.
  assert (M : memN k (c_prefixes (rc_conf rc)) = true) by (apply memN_In; exact I). rewrite M in OB. cbn [andb] in OB. apply orb_false_iff in OB. destruct OB as [A B].
  destruct local; [|discriminate]. split; [reflexivity|]. intros J. apply memN_In in J. congruence.
Qed.

Lemma c60_own_receipts_partial : forall E rc s o s' local, rc_lax rc = false ->
  match o with REvent m => m_local (em_msg m) = local | RReceipt m => rm_local m = local | _ => False end ->
  s' = rstep E rc s o ->
  (forall p d c, In c (receiptsOf s' p d) -> In (cg_key c) (c_prefixes (rc_conf rc)) ->
     In c (receiptsOf s p d) \/ (local = true /\ ~ In p (c_prefixes (rc_conf rc)))) /\
  (forall p d sp ssn sd g, In ((sp, ssn, sd), g) (transReceiptsOf s' p d) -> In sp (c_prefixes (rc_conf rc)) ->
     In ((sp, ssn, sd), g) (transReceiptsOf s p d) \/ (local = true /\ ~ In p (c_prefixes (rc_conf rc)))).
Proof.
  intros E rc s o s' local LX LO ->.
  assert (G : okw rc local (snd (fst s), snd s) (snd (fst (rstep E rc s o)), snd (rstep E rc s o))).
  { destruct o as [m|m|now|]; [| |destruct LO..]; cbn [rstep].
    - unfold dispatchEvt. cbv zeta. destruct (isnil _); [apply okw_refl|].
      destruct (processEvent _ _ _ _) as [[d x] [u|ex]]; [|split; auto].
      match goal with |- context [seqa ?a ?b (x, snd s)] => assert (K : ko rc local (seqa a b)) end.
      { apply ko_seq; [destruct (isnil _); [apply ko_ok|rewrite LO; apply ko_attachedCouples]|destruct (isnil _); [apply ko_ok|rewrite LO; apply ko_attachedGroups]]. }
      specialize (K (x, snd s)). destruct (seqa _ _ _) as [[x1 r1] rs]. cbn [fst snd join] in *. exact K.
    - unfold dispatchRct. match goal with |- context [if ?b then _ else _] => destruct b end; [apply okw_refl|]. destruct s as [[d x] r]. cbn [split fst snd].
      pose proof (ko_processReceipt E rc local d m LO (x, r)) as K. destruct (processReceipt E rc d m (x, r)) as [[x1 r1] rs]. exact K. }
  destruct G as [G1 G2]. split.
  - intros p d c I J. destruct (G1 p d c I) as [A|A]; [left; exact A|right; eapply ownBad_false; eauto].
  - intros p d sp ssn sd g I J. destruct (G2 p d (sp, ssn, sd) g I) as [A|A]; [left; exact A|right; eapply ownBad_false; eauto].
Qed.



Lemma c60_escrowed_refuted : exists E H rc ops c o g, world H /\ sane H /\ Forall (rreal H) ops /\ rc_lax rc = false /\
  Forall (fun op => match op with RReceipt m => rm_local m = false | _ => True end) ops /\
  (forall op m, In op ops -> op = REvent m -> em_cigars m = [] /\ em_rsgs m = []) /\
  In (cg_key c) (c_prefixes (rc_conf rc)) /\ In c (receiptsOf (rrun E rc ops rdb0) 7 20) /\
  In (fst (fst o)) (c_prefixes (rc_conf rc)) /\ In (o, g) (transReceiptsOf (rrun E rc ops rdb0) 7 20).
Proof.
  set (evR := fun e sg => REvent (mkEmsg (mkMsg e sg [] None false false 10 None) None [] [])).
  set (ops := [REvent (mkEmsg (mkMsg C0 [sign C0 5 0 None] [] None true true 10 None) None [] []);
               RReceipt (rct A0 [cig A0 1060] [] [grp A0] []); evR A0 [sign A0 1 0 None]; REscrows 11]).
  exists E1, HB, (mkRconf (mkConf [1060; 8] [] (fun _ => None)) false (fun raw i => i :: raw)), ops, (cig A0 1060), (8, 0, 27), (sign A0 5 0 None).
  split; [exact worldB|]. split; [exact saneB|]. split; [unfold ops, evR; rreals|]. split; [reflexivity|].
  split; [unfold ops, evR; repeat constructor|]. split.
  { intros op m I Q. unfold ops in I. cbn in I. destruct I as [I|[I|[I|[I|[]]]]]; subst op; inversion Q; subst m; split; reflexivity. }
  split; [vm_compute; auto|]. split; [vm_compute; auto|]. split; [vm_compute; auto|]. vm_compute. auto.
Qed.

(** ** Receipts that arrive before their event *)
Lemma c61_early_receipt_kept_partial : forall E H rc s m e c t ops s' now,
  world H -> sane H -> rreachable E H rc s ->
  real H e -> alone H e -> fewWits H (e_pre e) -> keepsWits s e ->
  klast (kels (fst (fst s)) (e_pre e)) (e_sn e) = None ->
  rm_pre m = e_pre e -> rm_sn m = e_sn e -> rm_said m = e_said e -> In c (rm_cigars m) -> endorses E e c ->
  t = since s e (rm_now m) ->
  Forall (rreal H) ops -> Forall (inHour t e) ops -> s' = rrun E rc ops (rstep E rc s (RReceipt m)) ->
  acceptedIn s' (e_pre e) (e_said e) -> t <= now <= t + 3600 ->
  recorded (rstep E rc s' (REscrows now)) e c.
Proof.
  intros E H rc s m e c t ops s' now W SN R RE AL (WL & LW & HW) KW KL P1 P2 P3 IC EN -> F1 F2 -> AC [T1 T2].
  destruct R as (ops0 & F0 & ->). set (s := rrun E rc ops0 rdb0) in *.
  assert (B : base E H WL e s) by (apply base_run; auto; apply base0).
  assert (PW : Js false 0 0 0 any s) by (apply (pw_reach E H rc); [exact W|exists ops0; auto]).
  pose proof (keeps_stays E H WL e W s B KW) as ST.
  destruct (base_step E H rc WL e W SN HW s (RReceipt m) B Logic.I) as [B1 M1].
  pose proof (stays_micros E H rc WL e W s _ B ST M1) as ST1.
  assert (K1 : Js true (since s e (rm_now m)) (e_pre e) (e_said e) (R1 e c) (rstep E rc s (RReceipt m))).
  { clearbody s. destruct s as [[d x] r]. cbn [rstep]. unfold dispatchRct.
    destruct (rm_cigars m) as [|c0 cs] eqn:CS; [destruct IC|]. cbn [isnil andb]. rewrite <- CS in *. cbn [split].
    assert (G : J true (since (d, x, r) e (rm_now m)) (e_pre e) (e_said e) (R1 e c) (fst (processReceipt E rc d m (x, r)))).
    { apply early_nt; auto; [exact (proj1 EN)|exact (proj1 PW)|]. unfold since. cbn [fst snd]. destruct (dtss x (e_pre e) (e_said e)); apply N.le_refl. }
    destruct (processReceipt E rc d m (x, r)) as [[x1 r1] rs]. exact G. }
  destruct (Jn_run E H rc WL _ e W SN RE AL HW c EN LW ops _ B1 ST1 F1 F2 K1) as (B2 & ST2 & K2).
  exact (Jn_final E H rc WL _ e W SN RE AL HW c EN LW _ now B2 ST2 T1 T2 K2 AC).
Qed.

Lemma c61_early_trans_receipt_kept_partial : forall E H rc s m e se tg g t ops s' now,
  world H -> rreachable E H rc s -> real H e -> alone H e -> real H se -> alone H se ->
  klast (kels (fst (fst s)) (e_pre e)) (e_sn e) = None ->
  rm_pre m = e_pre e -> rm_sn m = e_sn e -> rm_said m = e_said e -> In tg (rm_tsgs m) ->
  t_pre tg = e_pre se -> t_sn tg = e_sn se -> t_dig tg = e_said se -> In g (t_sigs tg) -> verified E (e_keys se) (e_raw e) g ->
  t = since s e (rm_now m) ->
  Forall (rreal H) ops -> Forall (inHour t e) ops -> s' = rrun E rc ops (rstep E rc s (RReceipt m)) ->
  acceptedIn s' (e_pre e) (e_said e) -> acceptedIn s' (e_pre se) (e_said se) -> t <= now <= t + 3600 ->
  In ((e_pre se, e_sn se, e_said se), g) (transReceiptsOf (rstep E rc s' (REscrows now)) (e_pre e) (e_said e)).
Proof.
  intros E H rc s m e se tg g t ops s' now W R RE AL RS AS KL P1 P2 P3 IT Q1 Q2 Q3 IG VE -> F1 F2 -> AC AS2 [T1 T2].
  pose proof (pw_reach E H rc s W R) as PW. destruct (rreach_rinv _ _ _ _ W R) as [B _].
  destruct (rinv_weak_step E H rc s (RReceipt m) W B Logic.I) as [B1 _].
  assert (K1 : Js true (since s e (rm_now m)) (e_pre e) (e_said e) (R2 e se g) (rstep E rc s (RReceipt m))).
  { clear R B B1 F1 F2 AC AS2. destruct s as [[d x] r]. cbn [rstep]. unfold dispatchRct.
    destruct (rm_tsgs m) as [|c0 cs] eqn:CS; [destruct IT|]. cbn [isnil]. rewrite !andb_false_r. cbn [andb]. rewrite <- CS in *. cbn [split].
    assert (G : J true (since (d, x, r) e (rm_now m)) (e_pre e) (e_said e) (R2 e se g) (fst (processReceipt E rc d m (x, r)))).
    { eapply (early_t E rc d m e se tg); eauto; [exact (proj1 PW)|]. unfold since. cbn [fst snd]. destruct (dtss x (e_pre e) (e_said e)); apply N.le_refl. }
    destruct (processReceipt E rc d m (x, r)) as [[x1 r1] rs]. exact G. }
  destruct (Jt_run E H rc _ e se g W RE AL AS VE ops _ B1 F1 F2 K1) as (B2 & K2).
  exact (Jt_final E H rc _ e se g W RE AL RS AS VE _ now B2 T1 T2 K2 AC AS2).
Qed.

(** a world where nothing competes: identifier 7 with its inception and an interaction, identifier 8 *)
Definition evsC := [B0; B1i; C0].
Definition HC := Hof evsC.
Lemma worldC : world HC. Proof. apply world_of. vm_compute. reflexivity. Qed.
Lemma saneC : sane HC. Proof. apply sane_of. vm_compute. reflexivity. Qed.
Lemma realC : forall e, real HC e -> e = B0 \/ e = B1i \/ e = C0.
Proof. intros e R. unfold real, HC, Hof in R. apply find_some in R. destruct R as [R _]. cbn in R. intuition congruence. Qed.
Lemma aloneC : forall e, real HC e -> alone HC e.
Proof.
  intros e R e' R' P S. apply realC in R. apply realC in R'.
  destruct R as [->|[->| ->]]; destruct R' as [->|[->| ->]]; try reflexivity; vm_compute in P, S; congruence.
Qed.
Lemma fewC : fewWits HC 7.
Proof.
  exists [1050; 1051]. split; [vm_compute; discriminate|]. intros e R _. apply realC in R.
  destruct R as [->|[->| ->]]; split; intros w I; vm_compute in I |- *; tauto.
Qed.
(** the interaction is receipted by a watcher, by a witness and by identifier 8 before it and the
    inception of 8 are known *)
Definition sC : rdb := rrun E1 rc0 [ev B0 [sign B0 1 0 None] [sign B0 1050 0 None]] rdb0.
Definition mC : rmsg := rct B1i [cig B1i 1070; cig B1i 1051] [] [grp B1i] [].
Definition opsC : list rop := [REscrows 20; ev B1i [sign B1i 1 0 None] []; RRestart; REscrows 30; ev B1i [sign B1i 1 0 None] [sign B1i 1050 0 None]; ev C0 [sign C0 5 0 None] []].


(** What is left of a receipt: on record, or still waiting. *)
Definition waiting (s : rdb) (e : evt) (c : cigar) : Prop := In (e_pre e, e_sn e, (e_said e, c)) (ures (snd s)).

Lemma c61_rotation_refuted : exists E H rc s m e c ops now, world H /\ sane H /\ rreachable E H rc s /\ real H e /\
  fewWits H (e_pre e) /\ klast (kels (fst (fst s)) (e_pre e)) (e_sn e) = None /\
  rm_pre m = e_pre e /\ rm_sn m = e_sn e /\ rm_said m = e_said e /\ In c (rm_cigars m) /\ endorses E e c /\
  Forall (rreal H) ops /\ Forall (inHour (since s e (rm_now m)) e) ops /\ since s e (rm_now m) <= now <= since s e (rm_now m) + 3600 /\
  let s' := rrun E rc ops (rstep E rc s (RReceipt m)) in
  acceptedIn s' (e_pre e) (e_said e) /\ ~ recorded (rstep E rc s' (REscrows now)) e c /\ ~ waiting (rstep E rc s' (REscrows now)) e c.
Proof.
  set (ops0 := [ev B0 [sign B0 1 0 None] [sign B0 1050 0 None]]). set (H := Hof [B0; B1a]).
  set (ops := [ev B1a [sign B1a 2 0 (Some 0)] [sign B1a 1050 0 None]; ev B1a [sign B1a 2 0 (Some 0)] [sign B1a 1050 0 None; sign B1a 1051 1 None]]).
  exists E1, H, rc0, (rrun E1 rc0 ops0 rdb0), (rct B1a [cig B1a 1052] [] [] []), B1a, (cig B1a 1052), ops, 12.
  split; [apply world_of; vm_compute; reflexivity|]. split; [apply sane_of; vm_compute; reflexivity|].
  split; [exists ops0; split; [unfold ops0; rreals|reflexivity]|]. split; [reflexivity|]. split.
  { exists [1050; 1051; 1052]. split; [vm_compute; discriminate|]. intros e R _. unfold real, H, Hof in R. apply find_some in R. destruct R as [R _].
    cbn in R. destruct R as [<-|[<-|[]]]; split; intros w I; vm_compute in I |- *; tauto. }
  split; [vm_compute; reflexivity|]. split; [reflexivity|]. split; [reflexivity|]. split; [reflexivity|]. split; [left; reflexivity|].
  split; [split; vm_compute; reflexivity|]. split; [unfold ops; rreals|].
  split; [unfold ops; repeat constructor; try (vm_compute; discriminate); intros; discriminate|]. split; [vm_compute; split; discriminate|].
  split; [vm_compute; auto|]. split.
  - intros [I|(g & I & Q)]; [vm_compute in I; exact I|]. vm_compute in I. repeat (destruct I as [<-|I]; [vm_compute in Q; discriminate|]). exact I.
  - vm_compute. auto.
Qed.

Lemma c61_superseded_refuted : exists E H rc s m e c ops now, world H /\ sane H /\ rreachable E H rc s /\ real H e /\
  fewWits H (e_pre e) /\ keepsWits s e /\ klast (kels (fst (fst s)) (e_pre e)) (e_sn e) = None /\
  rm_pre m = e_pre e /\ rm_sn m = e_sn e /\ rm_said m = e_said e /\ In c (rm_cigars m) /\ endorses E e c /\
  Forall (rreal H) ops /\ Forall (inHour (since s e (rm_now m)) e) ops /\ since s e (rm_now m) <= now <= since s e (rm_now m) + 3600 /\
  let s' := rrun E rc ops (rstep E rc s (RReceipt m)) in
  acceptedIn s' (e_pre e) (e_said e) /\ ~ recorded (rstep E rc s' (REscrows now)) e c /\ ~ waiting (rstep E rc s' (REscrows now)) e c.
Proof.
  set (ops0 := [ev A0 [sign A0 1 0 None] []]). set (H := Hof [A0; A1; A1r]).
  set (ops := [ev A1 [sign A1 1 0 None] []; ev A1r [sign A1r 2 0 (Some 0)] []]).
  exists E1, H, rc0, (rrun E1 rc0 ops0 rdb0), (rct A1 [cig A1 1070] [] [] []), A1, (cig A1 1070), ops, 12.
  split; [apply world_of; vm_compute; reflexivity|]. split; [apply sane_of; vm_compute; reflexivity|].
  split; [exists ops0; split; [unfold ops0; rreals|reflexivity]|]. split; [reflexivity|]. split.
  { exists []. split; [vm_compute; discriminate|]. intros e R _. unfold real, H, Hof in R. apply find_some in R. destruct R as [R _].
    cbn in R. destruct R as [<-|[<-|[<-|[]]]]; split; intros w I; vm_compute in I |- *; tauto. }
  split; [right; split; [reflexivity|]; split; [vm_compute; discriminate|split; reflexivity]|].
  split; [vm_compute; reflexivity|]. split; [reflexivity|]. split; [reflexivity|]. split; [reflexivity|]. split; [left; reflexivity|].
  split; [split; vm_compute; reflexivity|]. split; [unfold ops; rreals|].
  split; [unfold ops; repeat constructor; try (vm_compute; discriminate); intros; discriminate|]. split; [vm_compute; split; discriminate|].
  split; [vm_compute; auto|]. split.
  - intros [I|(g & I & Q)]; vm_compute in I; exact I.
  - vm_compute. auto.
Qed.

Lemma c61_witness_signature_refuted : exists E H rc m e g ops now, world H /\ sane H /\ real H e /\ alone H e /\ fewWits H (e_pre e) /\
  isIncept (e_ilk e) = true /\ rm_pre m = e_pre e /\ rm_sn m = e_sn e /\ rm_said m = e_said e /\ In g (rm_wigers m) /\
  verified E (e_wits e) (e_raw e) g /\ Forall (rreal H) ops /\ Forall (inHour (rm_now m) e) ops /\
  let s := rrun E rc ops (rstep E rc rdb0 (RReceipt m)) in
  In (REscrows 20) ops /\ acceptedIn s (e_pre e) (e_said e) /\ ~ In g (witnessSigsOf s (e_pre e) (e_said e)) /\
  let s' := rstep E rc s (REscrows now) in ~ In g (witnessSigsOf s' (e_pre e) (e_said e)) /\ uwes (snd s') = [].
Proof.
  set (ops := [ev B0 [sign B0 1 0 None] [sign B0 1050 0 None]; REscrows 20]).
  exists E1, HC, rc0, (rct B0 [] [sign B0 1051 1 None] [] []), B0, (sign B0 1051 1 None), ops, 5000.
  split; [exact worldC|]. split; [exact saneC|]. split; [reflexivity|]. split; [apply aloneC; reflexivity|]. split; [exact fewC|].
  split; [reflexivity|]. split; [reflexivity|]. split; [reflexivity|]. split; [reflexivity|]. split; [left; reflexivity|].
  split; [exists 1051; split; vm_compute; reflexivity|]. split; [unfold ops; rreals|].
  split; [unfold ops; repeat constructor; try (vm_compute; discriminate); intros; discriminate|]. split; [cbn; auto|].
  split; [vm_compute; auto|]. split; [vm_compute; intros [X|[]]; discriminate|]. split; [vm_compute; intros [X|[]]; discriminate|vm_compute; reflexivity].
Qed.

Lemma c61_last_event_groups_refuted : exists E H rc s m e se tg g, world H /\ sane H /\ rreachable E H rc s /\ real H e /\ real H se /\
  alone H e /\ alone H se /\ acceptedIn s (e_pre se) (e_said se) /\ verified E (e_keys se) (e_raw e) g /\
  rm_pre m = e_pre e /\ rm_sn m = e_sn e /\ rm_said m = e_said e /\ In tg (rm_rsgs m) /\ In g (t_sigs tg) /\
  t_pre tg = e_pre se /\ t_sn tg = e_sn se /\ t_dig tg = e_said se /\ rstep E rc s (RReceipt m) = s.
Proof.
  set (ops0 := [ev C0 [sign C0 5 0 None] []]).
  exists E1, HC, rc0, (rrun E1 rc0 ops0 rdb0), (rct B0 [] [] [] [grp B0]), B0, C0, (grp B0), (sign B0 5 0 None).
  split; [exact worldC|]. split; [exact saneC|]. split; [exists ops0; split; [unfold ops0; rreals|reflexivity]|].
  split; [reflexivity|]. split; [reflexivity|]. split; [apply aloneC; reflexivity|]. split; [apply aloneC; reflexivity|].
  split; [vm_compute; auto|]. split; [exists 5; split; vm_compute; reflexivity|].
  split; [reflexivity|]. split; [reflexivity|]. split; [reflexivity|]. split; [left; reflexivity|]. split; [left; reflexivity|].
  split; [reflexivity|]. split; [reflexivity|]. split; [reflexivity|].
  unfold rstep, dispatchRct. cbn [rct rm_cigars rm_wigers rm_tsgs rm_rsgs isnil andb].
  remember (rrun E1 rc0 ops0 rdb0) as s eqn:Q. destruct s as [[d x] r]. cbn [split].
  assert (K : klast (kels d 7) 0 = None).
  { assert (Z : klast (kels (fst (fst (rrun E1 rc0 ops0 rdb0))) 7) 0 = None) by (vm_compute; reflexivity). rewrite <- Q in Z. exact Z. }
  unfold processReceipt. cbn [rm_pre rm_sn rct e_pre e_sn B0 icpT]. rewrite K. reflexivity.
Qed.
