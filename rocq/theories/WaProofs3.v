(** Adjudications over histories. *)
From Coq Require Import Lia.
From Verif Require Import Prelude SubsModel ThModel ThProofs SerProofs JsonModel JsonProofs RpModel RpSpec RpProofs RpFair RpLive WaModel WaSpec WaProofs WaProofs2.
Ltac Zify.zify_post_hook ::= Z.div_mod_to_equations.
Open Scope N_scope.

Lemma dots_prefix (cid : bytes) : forall (c x y : bytes), ~ In 46 cid -> ~ In 46 c -> cid ++ x = c ++ 46 :: y -> exists z, c = cid ++ z.
Proof.
  induction cid as [|b cid IH]; intros c x y N1 N2 Q; [exists c; reflexivity|]. destruct c as [|b' c]; cbn [app] in Q; injection Q as Q1 Q2.
  - subst b. elim N1. left. reflexivity.
  - subst b'. destruct (IH c x y) as (z & ->); auto; [intros I; apply N1; right; exact I|intros I; apply N2; right; exact I|]. exists z. reflexivity.
Qed.
Lemma key3_inj (c a o c' a' o' : bytes) : ~ In 46 c -> ~ In 46 a -> ~ In 46 o -> ~ In 46 c' -> ~ In 46 a' -> ~ In 46 o' ->
  key tagWat [c; a; o] = key tagWat [c'; a'; o'] -> c = c' /\ a = a' /\ o = o'.
Proof.
  intros A1 A2 A3 B1 B2 B3 Q. unfold key in Q. injection Q as Q. assert (QQ : joinb 46 [c; a; o] = joinb 46 [c'; a'; o']) by exact Q. pose proof (key3 c a o A1 A2 A3) as K. rewrite QQ, (key3 c' a' o' B1 B2 B3) in K. injection K as -> -> ->. auto.
Qed.
Section Hist.
Context (e : renv) (l : list act) (d : rdb) (H : hist e l d) (cid : bytes) (PW : plain_watchers e l cid).
Lemma wat_from k v : dget (vals d) (tagWat :: k) = Some v -> exists r c a o, delivered l r /\ saidOk e r = true /\ tagWat :: k = key tagWat [c; a; o] /\ says e r c (key tagWat [c; a; o]) v /\
  ~ In 46 c /\ ~ In 46 a /\ ~ In 46 o /\ (forall z, c = cid ++ z -> z = []) /\
    ((exists kv cs gs, In (Msg kv r cs gs) l /\ signedSingle e r c cs) \/ exists x sn dig, In x l /\ signedState e (viewOf x) r c sn dig).
Proof.
  intros Q. destruct (authentic e l d H (tagWat :: k) eq_refl) as [(_ & X)|(r & aid & v' & kv & A1 & A2 & A3 & A4 & A5 & A6 & A7)]; [congruence|].
  assert (v' = v) by congruence. subst v'. pose proof A3 as A3'. inversion A3 as [| |on a c o R1 R2 R3 R4 R5 E1 E2 E3]. subst aid.
  assert (SY : says e r c (key tagWat [c; a; o]) v) by (rewrite <- E3; apply (says_watch e r on a c o); assumption).
  destruct PW as (_ & P). pose proof A5 as (kv0 & cs0 & gs0 & I0). destruct (P _ _ _ _ _ _ _ _ I0 SY) as (N1 & N2 & N3 & N4).
  exists r, c, a, o. do 2 (split; [assumption|]). split; [reflexivity|]. rewrite E3. do 5 (split; [assumption|]). destruct A7 as [(cs & gs & kv' & I & S1)|(sn & dig & S1)].
  - left. exists kv', cs, gs. auto.
  - right. apply in_map_iff in A6. destruct A6 as (x & <- & I). exists x, sn, dig. auto.
Qed.
Lemma tidy_hist : tidy d cid.
Proof.
  split; [apply PW|]. intros x X. destruct (dget (vals d) (tagWat :: cid ++ x)) as [v|] eqn:Q; [|congruence].
  destruct (wat_from _ _ Q) as (r & c & a & o & _ & _ & K & _ & N1 & N2 & N3 & N4 & _). assert (K' : cid ++ x = c ++ 46 :: (a ++ 46 :: o)).
  { unfold key in K. injection K as K. exact K. }
  destruct (dots_prefix cid c x _ (proj1 PW) N1 K') as (z & Z). pose proof (N4 z Z) as ->. rewrite app_nil_r in Z. subst c. exists a, o. auto.
Qed.
Lemma engaged a oid : ~ In 46 a -> ~ In 46 oid -> watches d cid a oid -> has_engaged e l cid a oid.
Proof.
  intros NA NO WA. destruct (wat_from _ _ WA) as (r & c & a' & o & D & S & K & SY & N1 & N2 & N3 & _ & S1). fold (key tagWat [cid; a; oid]) in K.
  apply (key3_inj cid a oid c a' o (proj1 PW) NA NO N1 N2 N3) in K. destruct K as (<- & <- & <-). exists r. auto.
Qed.
End Hist.

Section Sent.
Context (dec : bytes -> ksr) (e : renv) (l : list act) (d : rdb) (H : hist e l d) (SS : sound_states dec e l).
Lemma said (oid a : bytes) (k : ksr) : ~ In 46 oid -> ~ In 46 a -> told dec d oid a k -> ks_i k = oid /\ exists k', has_sent e l a oid k' /\ ks_s k' = ks_s k /\ ks_d k' = ks_d k.
Proof.
  intros NO NA (dg & rec & A1 & A2 & ->). destruct (records e l d H) as (IA & IV).
  destruct (IA (key tagKsn [oid; a]) _ eq_refl A1) as (s & q & N1 & K1 & -> & _). symmetry in K1. apply (key2 _ _ _ _ NO NA) in K1. destruct K1 as (<- & <-). apply notice_sent in N1.
  destruct (IV (key tagKsn [ks_d q]) _ eq_refl A2) as (s' & q' & N2 & K2 & ->). apply notice_sent in N2. assert (ks_d q = ks_d q') by (unfold key in K2; cbn [joinb] in K2; congruence).
  destruct (SS _ _ N2) as (D2 & _). destruct (SS _ _ N1) as (_ & D1). rewrite D2. destruct (D1 _ _ N2 H0) as (E1 & E2). split; [congruence|]. exists q. auto.
Qed.
Lemma stored (oid a x : bytes) : ~ In 46 oid -> ~ In 46 a -> dget (ans d) (key tagKsn [oid; a]) = Some x -> exists rec, dget (vals d) (key tagKsn [x]) = Some rec /\ ks_i (dec rec) = oid.
Proof.
  intros NO NA A1. destruct (records e l d H) as (IA & _). destruct (IA (key tagKsn [oid; a]) _ eq_refl A1) as (s & q & _ & _ & _ & V). destruct (dget (vals d) (key tagKsn [x])) as [rec|] eqn:A2; [|congruence].
  exists rec. split; [reflexivity|]. apply (said oid a (dec rec) NO NA). exists x, rec. auto.
Qed.
End Sent.

Lemma adj_inv dec pick kv d cid oid toad o n dg : tidy d cid -> mystate kv oid = Some (n, dg) -> adjudicate dec pick kv d cid oid toad = Ok o ->
  exists ws, NoDup ws /\ (forall a, In a ws <-> watches d cid a oid) /\ threshold_of toad (len ws) <= len ws /\ verdict dec d cid oid n dg ws toad o.
Proof.
  intros T MY Q. unfold adjudicate in Q. destruct (watchers_ok d cid oid T) as (ws & W & ND & IW). rewrite W in Q. cbn [bind] in Q. destruct (len ws <? threshold_of toad (len ws)) eqn:L; [discriminate|].
  rewrite MY in Q. apply wbind_ok in Q. destruct Q as (states & SO & Q). injection Q as <-. exists ws. do 2 (split; [assumption|]). split; [apply N.ltb_ge in L; exact L|].
  apply judge_verdict; assumption.
Qed.
Lemma adj_runs dec pick kv d cid oid toad : tidy d cid -> mystate kv oid <> None -> feasible d cid oid toad ->
  (forall a x, watches d cid a oid -> dget (ans d) (key tagKsn [oid; a]) = Some x -> exists rec, dget (vals d) (key tagKsn [x]) = Some rec /\ ks_i (dec rec) = oid) ->
  exists o, adjudicate dec pick kv d cid oid toad = Ok o.
Proof.
  intros T MY F ST. unfold adjudicate. destruct (watchers_ok d cid oid T) as (ws & W & ND & IW). rewrite W. cbn [bind].
  assert (L : len ws <? threshold_of toad (len ws) = false).
  { apply N.ltb_ge. unfold threshold_of. destruct toad as [t|]; [|lia]. destruct (t =? 0); [lia|]. destruct F as (V & NV & FV & LE). rewrite Forall_forall in FV.
    assert (LL : (List.length V <= List.length ws)%nat) by (apply NoDup_incl_length; [exact NV|]; intros a I; apply IW, FV; exact I). unfold len in *. lia. }
  rewrite L. destruct (mystate kv oid) as [[n dg]|]; [|congruence]. destruct (statesOf_runs dec d oid n dg ws) as (x & X).
  { intros a y I Y. apply IW in I. eauto. }
  rewrite X. cbn [bind]. eauto.
Qed.
Lemma watches_plain d cid a oid : tidy d cid -> watches d cid a oid -> ~ In 46 a /\ ~ In 46 oid.
Proof.
  intros T WA. destruct (watchers_ok d cid oid T) as (ws & W & _ & IW). destruct (watchersIn_ok d cid oid T (map fst (vals d))) as (ws' & W' & _ & IW'); [intros k I; apply dget_key; exact I|].
  rewrite W in W'. injection W' as <-. apply IW in WA. apply IW' in WA. tauto.
Qed.
Lemma voice_sent dec e l d cid oid a k : hist e l d -> plain_watchers e l cid -> sound_states dec e l -> voice dec d cid oid a k ->
  has_engaged e l cid a oid /\ ks_i k = oid /\ exists k', has_sent e l a oid k' /\ ks_s k' = ks_s k /\ ks_d k' = ks_d k.
Proof.
  intros H PW SS (WA & TO). destruct (watches_plain d cid a oid (tidy_hist e l d H cid PW) WA) as (NA & NO). split; [apply (engaged e l d H cid PW a oid NA NO WA)|].
  apply (said dec e l d H SS oid a k NO NA TO).
Qed.
Lemma adj_hist dec pick e l d kv cid oid toad : hist e l d -> plain_watchers e l cid -> sound_states dec e l -> mystate kv oid <> None -> feasible d cid oid toad ->
  exists o, adjudicate dec pick kv d cid oid toad = Ok o.
Proof.
  intros H PW SS MY F. pose proof (tidy_hist e l d H cid PW) as T. apply adj_runs; auto. intros a x WA A1. destruct (watches_plain d cid a oid T WA) as (NA & NO).
  apply (stored dec e l d H SS oid a x NO NA A1).
Qed.
