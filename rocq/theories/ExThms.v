From Verif Require Import Prelude B64Model SubsModel ThModel ThSpec ThThms JsonModel JsonProofs Lex SerProofs RpModel RpProofs ExModel ExSpec ExProofs ExProofs2 ExProofs3.
Open Scope N_scope.

(** ** what is accepted *)

Lemma c75_saved_signed : forall e routes l d s x, xhist e routes l d -> dget (exns d) s = Some x ->
  x_said x = s /\ delivered l x /\
  exists a kw, In a l /\ senderSigned e (xviewOf a) x /\ essrOk e x kw /\ agreed routes x kw.
Proof.
  intros e routes l d s x H G. destruct (inv1_hist _ _ _ _ H) as (_ & B & _). destruct (B s x G) as (E1 & D & kw & a & d0 & Ia & P1 & P2 & P3 & _).
  split; [exact E1|]. split; [exact D|]. exists a, kw. auto.
Qed.
Lemma c75_handled_signed : forall e routes l d x kw, xhist e routes l d -> In (x, kw) (calls d) ->
  delivered l x /\ essrOk e x kw /\ agreed routes x kw /\ exists a, In a l /\ senderSigned e (xviewOf a) x.
Proof.
  intros e routes l d x kw H I. destruct (inv1_hist _ _ _ _ H) as (_ & _ & C & _). destruct (C x kw I) as (D & a & d0 & Ia & P1 & P2 & P3 & _).
  split; [exact D|]. split; [exact P2|]. split; [exact P3|]. eauto.
Qed.
Lemma c75_announced_signed : forall e routes l d s, xhist e routes l d -> In s (scues d) ->
  exists x a, x_said x = s /\ delivered l x /\ In a l /\ senderSigned e (xviewOf a) x.
Proof.
  intros e routes l d s H I. destruct (inv1_hist _ _ _ _ H) as (_ & _ & _ & C). destruct (C s I) as (x & E1 & D & kw & a & d0 & Ia & P1 & _). eauto 8.
Qed.

(** ** what is kept *)

Lemma dedupB_incl : forall l seen, incl (dedupB seen l) l.
Proof.
  induction l as [|s l IH]; intros seen x I; [destruct I|]. cbn [dedupB] in I. match type of I with In _ (if ?b then _ else _) => destruct b end.
  - right. exact (IH _ _ I).
  - destruct I as [<-|I]; [left; reflexivity|right; exact (IH _ _ I)].
Qed.
Lemma satisfied_group : forall e kv x g, g_pre g = x_sender x -> satisfied e kv (x_raw x) g = Ok true -> groupSigned e kv x g.
Proof.
  intros e kv x g EP H. unfold satisfied, resolve in H. rewrite EP in H. unfold groupSigned. destruct (xtrans e (x_sender x)) eqn:T.
  - destruct (xat kv (x_sender x) (g_sn g)) as [ev|] eqn:X; [|discriminate]. destruct (beq_spec (xe_said ev) (g_dig g)) as [ED|]; [|discriminate]. cbn [negb bind] in H.
    destruct (xe_keys ev) as [ks|] eqn:K; [|discriminate]. destruct (xe_th ev) as [th|] eqn:TH; [|discriminate]. injection H as H.
    exists (fst (verifySigs bytes (xvrfy e) (x_raw x) (g_sigs g) ks)). split; [|exists ev, ks, th; repeat (split; [assumption|]); split; [|split; [|exact H]]].
    + cbn [fst verifySigs]. intros s I. apply filter_In in I. destruct I as (I & _). exact (dedupB_incl _ _ _ I).
    + cbn [fst verifySigs]. pose proof (dedupB_NoDup (g_sigs g) []) as ND. revert ND. generalize (dedupB [] (g_sigs g)). clear. intros l. induction l as [|s l IH]; intros ND; [constructor|]. cbn. inversion ND; subst. destruct (match nth_error _ _ with Some _ => _ | None => _ end); [|auto]. cbn. constructor; [|auto]. intros I. apply H1. clear - I. induction l as [|a l IH]; [destruct I|]. cbn in I. destruct (match nth_error _ _ with Some _ => _ | None => _ end); cbn in *; tauto.
    + intros s I. cbn [fst verifySigs] in I. apply filter_In in I. destruct I as (_ & I). destruct (nth_error ks (N.to_nat (sg_index s))) as [k|]; [|discriminate]. eauto.
  - cbn [bind] in H. injection H as H. unfold satisfy_numeric in H. cbn in H.
    set (l := filter _ _) in H. assert (L : l <> []) by (intros E0; rewrite E0 in H; discriminate). destruct l as [|s l'] eqn:EL; [congruence|].
    assert (I : In s l) by (rewrite EL; left; reflexivity). unfold l in I. apply filter_In in I. destruct I as (I0 & I). apply dedupB_incl in I0. destruct (N.to_nat (sg_index s)) as [|n]; [|cbn in I; destruct n; discriminate]. cbn in I. eauto.
Qed.
Lemma check_every : forall e kv x gs, checkGroups e kv x gs = GOk -> forall g, In g gs -> g_pre g = x_sender x /\ groupSigned e kv x g.
Proof.
  intros e kv x gs. induction gs as [|g gs IH]; intros H g' I; [destruct I|]. cbn [checkGroups] in H. destruct (beq_spec (x_sender x) (g_pre g)) as [EP|]; [|discriminate]. cbn [negb] in H. destruct (ahead kv g); [discriminate|].
  destruct (satisfied e kv (x_raw x) g) as [[|]|] eqn:S1; try discriminate. destruct I as [<-|I]; [|exact (IH H g' I)]. split; [congruence|]. apply satisfied_group; [congruence|exact S1].
Qed.
Lemma c75_every_group : forall e routes kv now x gs cs ptds es nests d d' r, processEvent e routes kv now x gs cs ptds es nests d = (d', r) ->
  scues d' <> scues d \/ exns d' <> exns d \/ calls d' <> calls d ->
  (gs <> [] \/ cs <> []) /\ (forall g, In g gs -> g_pre g = x_sender x /\ groupSigned e kv x g) /\
  (gs = [] -> forall c, In c cs -> c_key c = x_sender x /\ xvrfy e (x_sender x) (c_raw c) (x_raw x) = true).
Proof.
  intros e routes kv now x gs cs ptds es nests d d' r H C.
  assert (W : forall gs', scues (fst (escrowPS now x gs' ptds nests d)) = scues d /\ exns (fst (escrowPS now x gs' ptds nests d)) = exns d /\ calls (fst (escrowPS now x gs' ptds nests d)) = calls d).
  { intros gs'. unfold escrowPS. destruct (dget (epse d) (x_said x)); cbn; auto. }
  unfold processEvent in H. destruct gs as [|g gs].
  - destruct cs as [|c cs]; [apply pair_equal_spec in H; destruct H as [E1 _]; destruct (W []) as (A & B & D); rewrite <- E1 in C; rewrite A, B, D in C; destruct C as [C|[C|C]]; congruence|].
    destruct (forallb (cigOk e x) (c :: cs)) eqn:F; [|injection H as <- _; destruct C as [C|[C|C]]; congruence].
    split; [right; discriminate|]. split; [intros g []|]. intros _ c' I. rewrite forallb_forall in F. specialize (F _ I). unfold cigOk in F. apply andb_true_iff in F. destruct F as (E1 & V). apply beq_eq in E1. rewrite E1 at 1. split; [reflexivity|]. rewrite E1. exact V.
  - destruct (checkGroups e kv x (g :: gs)) as [|ex|pre sn] eqn:K.
    + split; [left; discriminate|]. split; [exact (check_every _ _ _ _ K)|discriminate].
    + injection H as <- _. destruct C as [C|[C|C]]; congruence.
    + destruct (W (g :: gs)) as (A & B & D). destruct (escrowPS now x (g :: gs) ptds nests d) as [d1 new]. cbn [fst] in A, B, D. injection H as <- _.
      destruct new; cbn in C; rewrite A, B, D in C; destruct C as [C|[C|C]]; congruence.
Qed.
Lemma c76_saved_stays : forall e routes l d d' x, xhist e routes l d -> savedMsg d x -> after e routes d d' ->
  savedMsg d' x /\ complete (x_said x) d' = Ok true.
Proof.
  intros e routes l d d' x H S1 A. assert (S2 : savedMsg d' x) by (clear H; induction A as [|d' a A IH]; [exact S1|apply run_exns; exact IH]).
  split; [exact S2|]. unfold complete. unfold savedMsg in S2. rewrite S2, beq_refl. reflexivity.
Qed.

(** ** what can be read back *)

Lemma c77_clone_partial : forall e routes rd kv x l d, xhist e routes l d -> (forall a, In a l -> honest e rd kv x a) ->
  savedMsg d x -> (forall p, exists o, xpath e p = Ok o) -> exists ps, clone e kv (x_said x) d = Ok (Some (x, ps)).
Proof. intros e routes rd kv x l d H HO S1 PX. eapply clone_good; [eapply inv6_hist; eassumption|exact S1|exact PX]. Qed.

(** ** waiting *)

Lemma c78_parts_partial : forall e routes rd kv now x sn dig ptds nests kw l0 d l S,
  xhist e routes l0 d -> fresh (x_said x) d -> parts e rd now x sn dig ptds nests l S ->
  enough e kv x (mkG (x_sender x) sn dig S) -> kwargs e x ptds [] nests = Ok kw -> welcome routes x kw -> NoDup ptds -> NoDup nests ->
  let d' := sweep e routes kv now (xruns e routes l d) in
  savedMsg d' x /\ (routes (x_route x) <> None -> In (x, kw) (calls d')).
Proof.
  intros e routes rd kv now x sn dig ptds nests kw l0 d l S H FR P EN KW WE N1 N2. cbv zeta.
  destruct (J_parts e routes rd now sn x dig ptds nests kw KW WE N1 N2 l S P l0 d H FR) as (H' & JD).
  exact (sweep_done e routes rd now sn x dig ptds nests kw KW WE kv S _ _ H' JD EN).
Qed.

(** ** how often *)

Lemma c79_at_most_delivered : forall e routes l d s, xhist e routes l d ->
  (forall x kw, handleOf e routes x kw <> Err MissingSignatureError) -> (handled s d <= deliveries s l)%nat.
Proof. intros e routes l d s H HM. pose proof (inv2_hist e routes HM l d H s). lia. Qed.

(** ** IPEX *)

Lemma c80_answers_partial : forall e routes l d x v, ipexReady routes -> pathsOk e -> xhist e routes l d -> (forall a, In a l -> coupleless a) -> (forall a, In a l -> logsOk (xviewOf a)) ->
  savedMsg d x -> In v ipexVerbs -> x_route x = ipexRoute v ->
  (x_prior x = [] -> In v ["apply"; "offer"; "grant"]%string) /\
  (x_prior x <> [] -> exists p, dget (exns d) (x_prior x) = Some p /\ x_said p = x_prior x /\
     forall w, In w ipexVerbs -> x_route p = ipexRoute w -> In (v, w) answers).
Proof.
  intros e routes l d x v RD PO H NC LO S1 IV ER. destruct (inv5_hist e routes RD PO l d H NC LO) as (A & _ & C).
  destruct (A _ _ S1) as (kw & Ik); [rewrite ER, (RD v IV); discriminate|]. specialize (C x kw v Ik IV ER).
  destruct (x_prior x) as [|b p'] eqn:XP; [split; [auto|congruence]|]. split; [discriminate|]. intros _. destruct C as (_ & p & G & MB). exists p. split; [exact G|].
  destruct (inv1_hist _ _ _ _ H) as (_ & K & _). split; [apply (K _ _ G)|]. intros w IW EW. rewrite EW, (ipex_base w IW) in MB. apply previous_answers; assumption.
Qed.
Lemma c80_one_answer_partial : forall e routes l d p, ipexReady routes -> pathsOk e -> xhist e routes l d -> (forall a, In a l -> coupleless a) -> (forall a, In a l -> logsOk (xviewOf a)) ->
  p <> [] -> (replies p d <= 1)%nat.
Proof. intros e routes l d p RD PO H NC LO NP. destruct (inv5_hist e routes RD PO l d H NC LO) as (_ & R & _). apply (R p NP). Qed.
Lemma c80_one_saved_partial : forall e routes l d x y v w, ipexReady routes -> pathsOk e -> xhist e routes l d -> (forall a, In a l -> coupleless a) -> (forall a, In a l -> logsOk (xviewOf a)) ->
  savedMsg d x -> savedMsg d y -> In v ipexVerbs -> In w ipexVerbs -> x_route x = ipexRoute v -> x_route y = ipexRoute w ->
  x_prior x = x_prior y -> x_prior x <> [] -> x = y.
Proof.
  intros e routes l d x y v w RD PO H NC LO S1 S2 IV IW EX EY EP NP. destruct (inv5_hist e routes RD PO l d H NC LO) as (A & R & _).
  destruct (A _ _ S1) as (k1 & I1); [rewrite EX, (RD v IV); discriminate|]. destruct (A _ _ S2) as (k2 & I2); [rewrite EY, (RD w IW); discriminate|].
  destruct (R _ NP) as (LE & _). unfold replies in LE. set (f := fun c : xmsg * xkwa => _) in LE.
  assert (F1 : In (x, k1) (filter f (calls d))) by (apply filter_In; split; [exact I1|unfold f; cbn [fst]; rewrite beq_refl; apply (verb_isIpex x v IV EX)]).
  assert (F2 : In (y, k2) (filter f (calls d))) by (apply filter_In; split; [exact I2|unfold f; cbn [fst]; rewrite EP, beq_refl; apply (verb_isIpex y w IW EY)]).
  destruct (filter f (calls d)) as [|a [|b r]]; [destruct F1| |cbn in LE; lia]. destruct F1 as [F1|[]], F2 as [F2|[]]. congruence.
Qed.

(** ** a concrete receiver *)
Definition xe1 : xenv := mkXenv (fun p => match p with 69 :: _ => true | _ => false end) (fun k s r => beq s (k ++ r)) (fun d s => Ok (beq d s))
  (fun p => Ok (Some ([], p))) (fun _ => BTrue).
(** E has the keys K0 and K1, both needed, and later L0 *)
Definition v0 : xview := mkXv (fun p n => if beq p (s2b "E") && (n =? 0) then Some (mkXest (s2b "E0") (Some [s2b "K0"; s2b "K1"]) (Some (TNum 2))) else None)
  (fun p => if beq p (s2b "E") then Some 0 else None).
Definition v1 : xview := mkXv (fun p n => if beq p (s2b "E") then if n =? 0 then Some (mkXest (s2b "E0") (Some [s2b "K0"; s2b "K1"]) (Some (TNum 2)))
    else if n =? 1 then Some (mkXest (s2b "E1") (Some [s2b "L0"]) (Some (TNum 1))) else None else None)
  (fun p => if beq p (s2b "E") then Some 1 else None).
Definition vNone : xview := mkXv (fun _ _ => None) (fun _ => None).
Definition kinds (r : bytes) : option behavior :=
  if memB r (map ipexRoute ipexVerbs) then Some Ipex
  else if beq r (s2b "/note") then Some (Other (fun _ _ => BTrue) (fun _ _ => BTrue))
  else if beq r (s2b "/flaky") then Some (Other (fun _ _ => BNone) (fun _ _ => BTrue)) else None.
Definition ms (said who route prior : string) : xmsg := mkX (s2b said) (s2b said) (s2b who) (s2b route) (s2b prior) None.
Definition sgn (i : N) (k : string) (x : xmsg) : siger := mkSiger (i :: s2b k ++ x_raw x) i (s2b k ++ x_raw x).
Definition rdS (t : bytes) : siger := match t with i :: s => mkSiger t i s | [] => mkSiger [] 0 [] end.
Definition both (x : xmsg) : group := mkG (s2b "E") 0 (s2b "E0") [sgn 0 "K0" x; sgn 1 "K1" x].
Definition send (x : xmsg) : xact := Deliver v0 1 x [both x] [] [] [] [].
Definition ran (l : list xact) : xdb := xruns xe1 kinds l xdb0.
Lemma ran_hist l : xhist xe1 kinds l (ran l).
Proof. unfold ran, xruns. induction l as [|a l IH]; cbn [fold_right]; [constructor|constructor; exact IH]. Qed.
Lemma enough_both x : x_sender x = s2b "E" -> (forall g, g = both x -> asText rdS (g_sigs g) /\ enough xe1 v0 x g).
Proof.
  intros ES g ->. split; [intros s [<-|[<-|[]]]; reflexivity|]. split; [rewrite ES; reflexivity|]. split; [exists 0; split; [reflexivity|apply N.le_refl]|].
  exists [s2b "K0"; s2b "K1"], (TNum 2), [sgn 0 "K0" x; sgn 1 "K1" x]. split; [unfold keysAt; cbn; eexists; repeat split; reflexivity|]. split; [exact Logic.I|]. split; [apply incl_refl|].
  split; [constructor; [intros [E0|[]]; discriminate|constructor; [intros []|constructor]]|]. split; [|reflexivity].
  intros s [<-|[<-|[]]]; eexists; (split; [reflexivity|cbn [xvrfy xe1 sgn mkSiger sg_raw]; apply beq_refl]).
Qed.

Definition note : xmsg := ms "x1" "E" "/note" "".


Lemma c75_failed_verification_refuted : exists routes f h x d, routes (x_route x) = Some (Other f h) /\ (forall kw, f x kw = BNone) /\
  xhist xe1 routes [send x] d /\ savedMsg d x /\ (handled (x_said x) d = 1)%nat.
Proof.
  exists kinds, (fun _ _ => BNone), (fun _ _ => BTrue), (ms "x1" "E" "/flaky" ""), (ran [send (ms "x1" "E" "/flaky" "")]).
  split; [vm_compute; reflexivity|]. split; [reflexivity|]. split; [apply ran_hist|]. split; [vm_compute; reflexivity|vm_compute; reflexivity].
Qed.
Lemma c75_superseded_keys_refuted : exists x d, xcur v1 (x_sender x) = Some 1 /\
  (forall sigs, ~ exists dig, signedAt xe1 v1 x 1 dig sigs /\ incl sigs (g_sigs (both x))) /\
  xhist xe1 kinds [Deliver v1 1 x [both x] [] [] [] []] d /\ savedMsg d x.
Proof.
  exists note, (ran [Deliver v1 1 note [both note] [] [] [] []]). split; [reflexivity|]. split; [|split; [apply ran_hist|vm_compute; reflexivity]].
  intros sigs (dig & (ev & ks & th & X & _ & K & T & ND & V & SA) & IC). cbn in X. injection X as <-. cbn in K, T. injection K as <-. injection T as <-.
  destruct sigs as [|s r]; [discriminate|]. destruct (V s (or_introl eq_refl)) as (k & N1 & N2). destruct (IC s (or_introl eq_refl)) as [<-|[<-|[]]]; cbn in N1; [injection N1 as <-; vm_compute in N2; discriminate|discriminate].
Qed.
(** C75. A transferable sender whose identifier is their first key: an unindexed signature with that key is
    accepted, whatever their log says. *)
Definition xeD : xenv := mkXenv (fun p => match p with 68 :: _ => true | _ => false end) (xvrfy xe1) (xdig xe1) (xpath xe1) (xnotify xe1).
Definition vD : xview := mkXv (fun p n => if beq p (s2b "D1") then if n =? 0 then Some (mkXest (s2b "E0") (Some [s2b "D1"]) (Some (TNum 1)))
    else if n =? 1 then Some (mkXest (s2b "E1") (Some [s2b "L0"]) (Some (TNum 1))) else None else None)
  (fun p => if beq p (s2b "D1") then Some 1 else None).
Lemma c75_couple_of_transferable_refuted : exists x c d, xtrans xeD (x_sender x) = true /\
  (exists ev, xcur vD (x_sender x) = Some 1 /\ xat vD (x_sender x) 1 = Some ev /\ xe_keys ev = Some [s2b "L0"]) /\ c_key c <> s2b "L0" /\
  xhist xeD kinds [Deliver vD 1 x [] [c] [] [] []] d /\ savedMsg d x.
Proof.
  exists (ms "x1" "D1" "/note" ""), (mkCig (s2b "D1") (s2b "D1x1")), (xruns xeD kinds [Deliver vD 1 (ms "x1" "D1" "/note" "") [] [mkCig (s2b "D1") (s2b "D1x1")] [] [] []] xdb0).
  split; [reflexivity|]. split; [eexists; split; [reflexivity|split; reflexivity]|]. split; [discriminate|]. split; [constructor; constructor|vm_compute; reflexivity].
Qed.


Lemma c76_attachments_refuted : exists x a a2 l d, xhist xe1 kinds l d /\ savedMsg d x /\ vget (epath d) (x_said x) = [a] /\
  snd (processEvent xe1 kinds v0 2 x [] [] [a2] [] [] d) = Err MissingSignatureError /\
  vget (epath (xrun xe1 kinds (Deliver v0 2 x [] [] [a2] [] []) d)) (x_said x) = [a2] /\ a <> a2.
Proof.
  exists note, (s2b "a1"), (s2b "a2"), [Deliver v0 1 note [both note] [] [s2b "a1"] [] []], (ran [Deliver v0 1 note [both note] [] [s2b "a1"] [] []]).
  split; [apply ran_hist|]. split; [vm_compute; reflexivity|]. split; [vm_compute; reflexivity|]. split; [vm_compute; reflexivity|]. split; [vm_compute; reflexivity|discriminate].
Qed.


Lemma c77_bogus_group_refuted : exists x g l d, xhist xe1 kinds l d /\ savedMsg d x /\ clone xe1 v0 (x_said x) d = Ok (Some (x, [])) /\
  snd (processEvent xe1 kinds v0 2 x [g] [] [] [] [] d) = Err MissingSignatureError /\
  (forall s k, In s (g_sigs g) -> In k [s2b "K0"; s2b "K1"] -> xvrfy xe1 k (sg_raw s) (x_raw x) = false) /\
  clone xe1 v0 (x_said x) (xrun xe1 kinds (Deliver v0 2 x [g] [] [] [] []) d) = Err MissingSignatureError.
Proof.
  exists note, (mkG (s2b "E") 9 (s2b "E9") [mkSiger (s2b "junk") 0 (s2b "junk")]), [send note], (ran [send note]).
  split; [apply ran_hist|]. split; [vm_compute; reflexivity|]. split; [vm_compute; reflexivity|]. split; [vm_compute; reflexivity|]. split; [|vm_compute; reflexivity].
  intros s k [<-|[]] [<-|[<-|[]]]; reflexivity.
Qed.
Lemma c77_couple_refuted : exists x c d, xtrans xe1 (x_sender x) = false /\ c_key c = x_sender x /\ xvrfy xe1 (c_key c) (c_raw c) (x_raw x) = true /\
  xhist xe1 kinds [Deliver v0 1 x [] [c] [] [] []] d /\ savedMsg d x /\ forall kv, clone xe1 kv (x_said x) d = Err AttributeError.
Proof.
  exists (ms "x1" "F" "/note" ""), (mkCig (s2b "F") (s2b "Fx1")), (ran [Deliver v0 1 (ms "x1" "F" "/note" "") [] [mkCig (s2b "F") (s2b "Fx1")] [] [] []]).
  split; [reflexivity|]. split; [reflexivity|]. split; [reflexivity|]. split; [apply ran_hist|]. split; [vm_compute; reflexivity|]. intros kv. vm_compute. reflexivity.
Qed.
Lemma c77_unverified_couple_refuted : exists x c d, xhist xe1 kinds [Deliver v0 1 x [both x] [c] [] [] []] d /\ savedMsg d x /\
  clone xe1 v0 (x_said x) d = Err AttributeError.
Proof.
  exists note, (mkCig (s2b "K0") (s2b "junk")), (ran [Deliver v0 1 note [both note] [mkCig (s2b "K0") (s2b "junk")] [] [] []]).
  split; [apply ran_hist|]. split; vm_compute; reflexivity.
Qed.

Definition half (i : N) (k : string) (x : xmsg) : group := mkG (s2b "E") 0 (s2b "E0") [sgn i k x].
Definition halves : list xact := [Deliver v0 5 note [half 1 "K1" note] [] [] [] []; Visit v0 3 (s2b "x2"); Visit v0 2 (s2b "x1"); Deliver vNone 1 note [half 0 "K0" note] [] [] [] []].

(** C78. The waiting message is lost for good when it announces an attachment outside of the message: that is not
    kept with it. *)
Definition essr1 : xmsg := mkX (s2b "x1") (s2b "x1") (s2b "E") (s2b "/note") [] (Some (s2b "blob")).
Lemma c78_essr_refuted :
  let wait := xrun xe1 kinds (Deliver vNone 1 essr1 [both essr1] [] [] [s2b "blob"] []) xdb0 in
  savedMsg (xrun xe1 kinds (Deliver v0 1 essr1 [both essr1] [] [] [s2b "blob"] []) xdb0) essr1 /\
  dget (epse wait) (s2b "x1") = Some essr1 /\
  dget (epse (sweep xe1 kinds v0 2 wait)) (s2b "x1") = None /\ dget (exns (sweep xe1 kinds v0 2 wait)) (s2b "x1") = None.
Proof. cbv zeta. split; [vm_compute; reflexivity|]. split; [vm_compute; reflexivity|]. split; [vm_compute; reflexivity|vm_compute; reflexivity]. Qed.
Lemma c78_foreign_group_refuted : exists g l, g_sigs g = [mkSiger (s2b "junk") 0 (s2b "junk")] /\
  l = [Deliver v0 2 note [half 1 "K1" note] [] [] [] []; Deliver v0 1 note [g] [] [] [] []; Deliver v0 1 note [half 0 "K0" note] [] [] [] []] /\
  dget (exns (sweep xe1 kinds v0 3 (ran l))) (s2b "x1") = None /\
  savedMsg (sweep xe1 kinds v0 3 (ran [Deliver v0 2 note [half 1 "K1" note] [] [] [] []; Deliver v0 1 note [half 0 "K0" note] [] [] [] []])) note.
Proof.
  exists (mkG (s2b "E") 9 (s2b "E9") [mkSiger (s2b "junk") 0 (s2b "junk")]). eexists. split; [reflexivity|]. split; [reflexivity|]. split; [vm_compute; reflexivity|vm_compute; reflexivity].
Qed.


Lemma c79_once_refuted : exists x l d, xhist xe1 kinds l d /\ l = [send x; send x] /\ (handled (x_said x) d = 2)%nat.
Proof. exists note, [send note; send note], (ran [send note; send note]). split; [apply ran_hist|]. split; [reflexivity|vm_compute; reflexivity]. Qed.

Definition offer1 : xmsg := ms "x2" "E" "/ipex/offer" "x1".
Definition apply1 : xmsg := ms "x1" "E" "/ipex/apply" "".
Lemma kinds_ready : ipexReady kinds.
Proof. intros v [<-|[<-|[<-|[<-|[<-|[<-|[]]]]]]]; vm_compute; reflexivity. Qed.
Lemma v0_logs : logsOk v0.
Proof. intros p n ev. unfold v0. cbn [xat]. destruct (beq p (s2b "E") && (n =? 0)); [|discriminate]. intros E0. injection E0 as <-. cbn. split; discriminate. Qed.

Lemma c80_other_route_refuted : exists x p d, xhist xe1 kinds [send x; send p] d /\ savedMsg d x /\ x_route x = ipexRoute "admit" /\ x_prior x = x_said p /\
  savedMsg d p /\ kinds (x_route p) = None /\ forall w, x_route p <> ipexRoute w.
Proof.
  exists (ms "x2" "E" "/ipex/admit" "x1"), (ms "x1" "E" "/any/../other/grant/." ""), (ran [send (ms "x2" "E" "/ipex/admit" "x1"); send (ms "x1" "E" "/any/../other/grant/." "")]).
  split; [apply ran_hist|]. split; [vm_compute; reflexivity|]. split; [reflexivity|]. split; [reflexivity|]. split; [vm_compute; reflexivity|]. split; [reflexivity|]. intros w E0. vm_compute in E0. discriminate.
Qed.
(** C80. Any saved message that names a prior counts as its answer: a message of another route by a stranger keeps
    the right party from answering. *)
Definition vF : xview := mkXv (fun p n => if beq p (s2b "EF") && (n =? 0) then Some (mkXest (s2b "F0") (Some [s2b "KF"]) (Some (TNum 1))) else xat v0 p n)
  (fun p => if beq p (s2b "EF") then Some 0 else xcur v0 p).
Definition byEF (x : xmsg) : xact := Deliver vF 1 x [mkG (s2b "EF") 0 (s2b "F0") [sgn 0 "KF" x]] [] [] [] [].
Definition sendF (x : xmsg) : xact := Deliver vF 1 x [both x] [] [] [] [].
Lemma c80_blocked_refuted : exists y x p, x_sender y <> x_sender x /\ (forall w, x_route y <> ipexRoute w) /\
  savedMsg (ran [sendF x; sendF p]) x /\ dget (exns (ran [sendF x; byEF y; sendF p])) (x_said x) = None.
Proof.
  exists (ms "y1" "EF" "/else" "x1"), offer1, apply1. split; [discriminate|]. split; [intros w E0; vm_compute in E0; discriminate|]. split; vm_compute; reflexivity.
Qed.
(** C80. Once a message with an unindexed signature is on record, the rules do not hold for its answers: the
    failure to read it back ends the verification, and the answer is saved and handled.  An admit answers an
    apply; two different messages answer the same one; a stranger's answer with an unindexed signature makes
    any number of further answers to somebody else's message acceptable. *)
Definition byF (x : xmsg) : xact := Deliver v0 1 x [] [mkCig (x_sender x) (x_sender x ++ x_raw x)] [] [] [].
Lemma c80_couple_refuted : exists p x y, x_sender p = s2b "F" /\ xtrans xe1 (x_sender p) = false /\ x_route p = ipexRoute "apply" /\
  x_route x = ipexRoute "admit" /\ x_route y = ipexRoute "agree" /\ x_prior x = x_said p /\ x_prior y = x_said p /\ x <> y /\
  savedMsg (ran [send y; send x; byF p]) x /\ savedMsg (ran [send y; send x; byF p]) y /\ replies (x_said p) (ran [send y; send x; byF p]) = 2%nat.
Proof.
  exists (ms "x1" "F" "/ipex/apply" ""), (ms "x2" "E" "/ipex/admit" "x1"), (ms "x3" "E" "/ipex/agree" "x1").
  split; [reflexivity|]. split; [reflexivity|]. split; [reflexivity|]. split; [reflexivity|]. split; [reflexivity|]. split; [reflexivity|]. split; [reflexivity|]. split; [discriminate|].
  split; [vm_compute; reflexivity|]. split; vm_compute; reflexivity.
Qed.
Lemma c80_couple_answer_refuted : exists p y x x', x_sender y = s2b "F" /\ xtrans xe1 (x_sender y) = false /\ (forall w, x_route y <> ipexRoute w) /\
  x_sender p = s2b "E" /\ x_prior x = x_said p /\ x_prior x' = x_said p /\ x <> x' /\
  dget (exns (ran [send x'; send x; send p])) (x_said x') = None /\
  savedMsg (ran [send x'; byF y; send x; send p]) x /\ savedMsg (ran [send x'; byF y; send x; send p]) x' /\ replies (x_said p) (ran [send x'; byF y; send x; send p]) = 2%nat.
Proof.
  exists apply1, (ms "y1" "F" "/else" "x1"), offer1, (ms "x3" "E" "/ipex/offer" "x1").
  split; [reflexivity|]. split; [reflexivity|]. split; [intros w E0; vm_compute in E0; discriminate|]. split; [reflexivity|]. split; [reflexivity|]. split; [reflexivity|]. split; [discriminate|].
  split; [vm_compute; reflexivity|]. split; [vm_compute; reflexivity|]. split; vm_compute; reflexivity.
Qed.
