(** Service and configuration changes of request authentication. *)
From Verif Require Import Prelude B64Model SubsModel ThModel ThProofs JsonModel JsonProofs Lex SerProofs RpModel RpProofs RpLive KrModel KrSpec KrProofs KrHist KrInv.
Open Scope N_scope.
Ltac Zify.zify_post_hook ::= Z.div_mod_to_equations.

(** ** Service *)
Lemma fresh_cache : forall env t0 l now v m a, clean (l ++ [Deliver now v m a]) -> oneMessage (l ++ [Deliver now v m a]) -> neverDelivered m l ->
  cacheOf m (kruns env l (kdb0 t0)) = None.
Proof.
  intros env t0 l now v m a C One ND. pose proof (inv_hist env t0 l (clean_sub _ _ C) (one_sub _ _ One)) as I.
  destruct (cacheOf m (kruns env l (kdb0 t0))) as [h|] eqn:E; [|reflexivity]. exfalso.
  destruct (cached_one env t0 l _ now v m a h I C One E) as (t & v' & a' & J). exact (ND _ J eq_refl).
Qed.

Lemma start_ok : forall m mdt d, exchangeId m = None \/ m_ilk m = s2b "xip" -> 
  exchangeId m = None \/ (exists x, exchangeId m = Some x) /\ startOf m mdt d = Some mdt /\ beq (m_ilk m) ilkXip = true.
Proof.
  intros m mdt d [H|H]; [left; exact H|]. destruct (exchangeId m) as [x|] eqn:X; [right|left; reflexivity].
  split; [exists x; reflexivity|]. assert (B : beq (m_ilk m) ilkXip = true) by (apply beq_eq; exact H). split; [|exact B].
  unfold startOf. rewrite X, B. reflexivity.
Qed.

Lemma kramit_fresh : forall env v now m a d mdt, m_dt m = Some mdt -> cacheOf m d = None ->
  exchangeId m = None \/ m_ilk m = s2b "xip" -> hasSeals (m_pre m) a = true \/ hasSigs (m_pre m) a = true ->
  exists xw pin xd, kramit env v now m a d = onFresh env v now mdt m a xw pin xd d /\ forall c, xw c = true.
Proof.
  intros env v now m a d mdt Hm Hc He Hh. unfold kramit. rewrite Hm.
  assert (E : negb (hasSeals (m_pre m) a) && negb (hasSigs (m_pre m) a) = false).
  { destruct Hh as [-> | ->]; cbn [negb andb]; [reflexivity|apply andb_false_r]. }
  rewrite E. unfold cacheOf in Hc. destruct (start_ok m mdt d He) as [X|((x & X) & _ & B)].
  - rewrite X in *. rewrite Hc. do 3 eexists. split; [reflexivity|]. intros c. reflexivity.
  - rewrite X in *. rewrite Hc, B. do 3 eexists. split; [reflexivity|]. intros c. cbv beta. rewrite N.leb_refl. cbn [andb]. apply N.leb_le. lia.
Qed.

Lemma signed_admitted : forall env t0 l now v m sigs k c mdt,
  let h := l ++ [Deliver now v m (mkAtt sigs [] [] [] [] [])] in
  clean h -> oneMessage h -> neverDelivered m l ->
  exchangeId m = None \/ m_ilk m = s2b "xip" ->
  m_dt m = Some mdt -> kev v (m_pre m) = Some k ->
  fetchCacheType (kruns env l (kdb0 t0)) (m_ilk m) (m_route m) = Some c ->
  sigs <> [] -> NoDup (map sg_qb64 sigs) -> (forall s, In s sigs -> goodSig env k m s) ->
  (if len (kv_keys k) =? 1 then inWindow (c_d c) (c_sl c) mdt now
   else inWindow (c_d c) (c_ll c) mdt now /\ satisfy (kv_th k) (map sg_index sigs) = true) ->
  admits env v now m (mkAtt sigs [] [] [] [] []) (kruns env l (kdb0 t0)).
Proof.
  intros env t0 l now v m sigs k cc mdt h C One ND He Hm Hk Hf Hne Hnd Hg Hw. unfold h in *. clear h.
  pose proof (fresh_cache env t0 _ _ _ _ _ C One ND) as Hc. set (d := kruns env l (kdb0 t0)) in *. set (a := mkAtt sigs [] [] [] [] []) in *.
  assert (SS : senderSigers (m_pre m) a = sigs) by (unfold senderSigers, a; cbn [a_sigers a_lsgs filter map]; apply app_nil_r).
  assert (HS : hasSigs (m_pre m) a = true) by (unfold hasSigs; rewrite SS; destruct sigs; [congruence|reflexivity]).
  destruct (kramit_fresh env v now m a d mdt Hm Hc He (or_intror HS)) as (xw & pin & xd & E & XW).
  unfold admits. rewrite E. unfold onFresh. rewrite Hf, Hk. unfold resolveAuthType.
  assert (HL : hasSeals (m_pre m) a = false) by reflexivity. rewrite HL.
  assert (V : verifyAttached env k m a = (true, sigs)).
  { unfold verifyAttached. cbn [a_cigars a existsb]. cbv zeta. rewrite SS. cbn [a_tsgs filter map List.concat]. rewrite app_nil_r. unfold verifySigs. cbn [fst].
    rewrite dedupB_id by (auto; intros ? ? []). rewrite filter_id.
    - destruct sigs; [congruence|reflexivity].
    - intros s J. destruct (Hg s J) as (key & K1 & K2). rewrite K1. exact K2. }
  unfold bySigs. destruct (len (kv_keys k) =? 1) eqn:L.
  - destruct Hw as [W1 W2]. apply N.leb_le in W1, W2. rewrite W1, W2, XW. cbn [andb negb]. rewrite V. reflexivity.
  - destruct Hw as [[W1 W2] Hs]. apply N.leb_le in W1, W2. rewrite W1, W2, XW. cbn [andb negb]. rewrite V, Hs. reflexivity.
Qed.

Lemma sealed_admitted : forall env t0 l now v m sn dig seals k c mdt,
  let h := l ++ [Deliver now v m (mkAtt [] [] [] [] [(sn, dig)] [])] in
  clean h -> oneMessage h -> neverDelivered m l ->
  exchangeId m = None \/ m_ilk m = s2b "xip" ->
  m_dt m = Some mdt -> kev v (m_pre m) = Some k ->
  fetchCacheType (kruns env l (kdb0 t0)) (m_ilk m) (m_route m) = Some c ->
  evt v (m_pre m) sn = Some (dig, Some seals) -> In (m_said m) seals ->
  inWindow (c_d c) (c_sl c) mdt now ->
  admits env v now m (mkAtt [] [] [] [] [(sn, dig)] []) (kruns env l (kdb0 t0)).
Proof.
  intros env t0 l now v m sn dig seals k cc mdt h C One ND He Hm Hk Hf Hev Hin [W1 W2]. unfold h in *. clear h.
  pose proof (fresh_cache env t0 _ _ _ _ _ C One ND) as Hc. set (d := kruns env l (kdb0 t0)) in *. set (a := mkAtt [] [] [] [] [(sn, dig)] []) in *.
  assert (HL : hasSeals (m_pre m) a = true) by reflexivity.
  destruct (kramit_fresh env v now m a d mdt Hm Hc He (or_introl HL)) as (xw & pin & xd & E & XW).
  unfold admits. rewrite E. unfold onFresh. rewrite Hf, Hk. unfold resolveAuthType. rewrite HL.
  assert (HS : hasSigs (m_pre m) a = false) by reflexivity. rewrite HS.
  apply N.leb_le in W1, W2. rewrite W1, W2, XW. cbn [andb negb orb].
  assert (V : validateSenderSeal v m a = Some true).
  { unfold validateSenderSeal. unfold senderSeals, a. cbn [a_sscs a_ssts filter map app rev]. rewrite Hev, beq_refl. cbn [negb]. f_equal. apply SerProofs.memB_In. exact Hin. }
  rewrite V. reflexivity.
Qed.

(** ** Configuration *)
Lemma changeOne_other : forall now over old d3 e s ct, ct <> fst e ->
  dget (kctyp (k_db (changeOne now over old d3 e s))) ct = dget (kctyp (k_db s)) ct
  /\ dget (k_pend (changeOne now over old d3 e s)) ct = dget (k_pend s) ct.
Proof.
  intros now over old d3 (x, n) s ct Ne. cbn [fst] in Ne. apply beq_neq in Ne. unfold changeOne.
  destruct (dget old x) as [o|].
  - destruct (_ && _); cbn [k_db kctyp setCtyp k_pend]; rewrite !dget_dset, Ne; split; reflexivity.
  - destruct over as [q|]; [|destruct d3]; cbn [k_db kctyp setCtyp k_pend]; rewrite ?dget_dset, Ne; split; reflexivity.
Qed.
Lemma changes_other : forall now over old d3 l s ct, ~ In ct (map fst l) ->
  dget (kctyp (k_db (fold_left (fun s e => changeOne now over old d3 e s) l s))) ct = dget (kctyp (k_db s)) ct
  /\ dget (k_pend (fold_left (fun s e => changeOne now over old d3 e s) l s)) ct = dget (k_pend s) ct.
Proof.
  intros now over old d3 l. induction l as [|e l IH]; intros s ct Ni; [split; reflexivity|]. cbn [fold_left map] in *.
  destruct (IH (changeOne now over old d3 e s) ct) as [A B]; [intros J; apply Ni; right; exact J|]. rewrite A, B.
  apply changeOne_other. intros ->. apply Ni. left. reflexivity.
Qed.

Lemma remAll_get : forall (l : list (bytes * ctyp)) (t : list (bytes * ctyp)) ct, ~ In ct (map fst l) -> dget (fold_left (fun t e => drem t (fst e)) l t) ct = dget t ct.
Proof.
  induction l as [|e l IH]; intros t ct Ni; [reflexivity|]. cbn [fold_left map] in *. rewrite IH by (intros J; apply Ni; right; exact J).
  rewrite dget_drem. destruct (beq ct (fst e)) eqn:E; [|reflexivity]. apply beq_eq in E. exfalso. apply Ni. left. symmetry. exact E.
Qed.

Definition decreases (n o : ctyp) : bool :=
  (c_sl n <=? c_sl o) && (c_ll n <=? c_ll o) && (c_xl n <=? c_xl o) && (c_psl n <=? c_psl o) && (c_pll n <=? c_pll o) && (c_pxl n <=? c_pxl o).
Definition growth (n o : ctyp) : N := maxN [c_sl n - c_sl o; c_ll n - c_ll o; c_xl n - c_xl o].
Definition entryAfter (n o : ctyp) : ctyp :=
  if decreases n o then mkCt (c_d o) (c_sl n) (c_ll n) (c_xl n) (c_psl n) (c_pll n) (c_pxl n)
  else mkCt (c_d o) (c_sl o) (c_ll o) (c_xl o) (N.max (c_psl n) (c_sl n)) (N.max (c_pll n) (c_ll n)) (N.max (c_pxl n) (c_xl n)).

Lemma change_entry : forall now over new s s' ct o n, changeConfig now over new s = (s', None) -> NoDup (map fst new) ->
  dget (k_cf s) ct = Some o -> dget new ct = Some n ->
  dget (kctyp (k_db s')) ct = Some (entryAfter n o)
  /\ dget (k_pend s') ct = (if decreases n o then dget (k_pend s) ct
                            else Some (mkPend (c_sl n) (c_ll n) (c_xl n) now
                                   (match over with Some x => x | None => N.max (growth n o) (worstDelta (k_cf s) new) end))).
Proof.
  intros now over new s s' ct o n H ND Ho Hn. unfold changeConfig in H.
  destruct (match over with Some 0 => true | _ => false end); [discriminate|].
  destruct (negb (forallb (fun e => ctypOk (snd e)) new)); [discriminate|].
  destruct (negb (coverageOk (k_cf s) new)); [discriminate|]. cbv zeta in H. injection H as <-.
  cbn [k_db kctyp setCtyp k_pend].
  rewrite remAll_get.
  2:{ intros J. apply in_map_iff in J. destruct J as (e & E & J). apply filter_In in J. destruct J as [_ J]. rewrite E, Hn in J. discriminate. }
  assert (G : forall l s0, NoDup (map fst l) -> In (ct, n) l -> dget (k_pend s0) ct = dget (k_pend s) ct ->
     dget (kctyp (k_db (fold_left (fun s1 e => changeOne now over (k_cf s) (worstDelta (k_cf s) new) e s1) l s0))) ct = Some (entryAfter n o)
     /\ dget (k_pend (fold_left (fun s1 e => changeOne now over (k_cf s) (worstDelta (k_cf s) new) e s1) l s0)) ct =
          (if decreases n o then dget (k_pend s) ct
                            else Some (mkPend (c_sl n) (c_ll n) (c_xl n) now
                                   (match over with Some x => x | None => N.max (growth n o) (worstDelta (k_cf s) new) end)))).
  { induction l as [|e l IH]; intros s0 N0 J P; [destruct J|]. cbn [fold_left map] in *. inversion N0 as [|? ? Na Nb]; subst. destruct J as [-> |J].
    - cbn [fst] in Na. destruct (changes_other now over (k_cf s) (worstDelta (k_cf s) new) l (changeOne now over (k_cf s) (worstDelta (k_cf s) new) (ct, n) s0) ct Na) as [A B].
      rewrite A, B. unfold changeOne. rewrite Ho. unfold entryAfter. fold (decreases n o). fold (growth n o). destruct (decreases n o); cbn [k_db kctyp setCtyp k_pend]; rewrite ?dget_dset, ?beq_refl; split; auto.
    - assert (Ne : ct <> fst e) by (intros ->; apply Na; apply in_map_iff; exists (fst e, n); split; [reflexivity|exact J]).
      apply IH; [exact Nb|exact J|]. destruct (changeOne_other now over (k_cf s) (worstDelta (k_cf s) new) e s0 ct Ne) as [_ B]. congruence. }
  apply G; [exact ND|apply dget_In'; exact Hn|reflexivity].
Qed.

Lemma not_wider : forall now over new s s' ct o n,
  changeConfig now over new s = (s', None) -> NoDup (map fst new) ->
  dget (k_cf s) ct = Some o -> dget new ct = Some n ->
  exists c, dget (kctyp (k_db s')) ct = Some c /\ c_d c = c_d o
    /\ c_sl c <= c_sl o /\ c_ll c <= c_ll o /\ c_xl c <= c_xl o.
Proof.
  intros now over new s s' ct o n H ND Ho Hn. destruct (change_entry now over new s s' ct o n H ND Ho Hn) as [E _].
  exists (entryAfter n o). split; [exact E|]. unfold entryAfter. destruct (decreases n o) eqn:D; cbn [c_d c_sl c_ll c_xl]; [|repeat split; lia].
  unfold decreases in D. apply andb_prop in D. destruct D as [D _]. apply andb_prop in D. destruct D as [D _]. apply andb_prop in D. destruct D as [D _].
  apply andb_prop in D. destruct D as [D D3]. apply andb_prop in D. destruct D as [D1 D2]. apply N.leb_le in D1, D2, D3. repeat split; assumption.
Qed.

(** every staged change concerns an entry that exists *)
Lemma staged_exist : forall now over old d3 l s0, (forall ct, dget (k_pend s0) ct <> None -> dget (kctyp (k_db s0)) ct <> None) ->
  forall ct, dget (k_pend (fold_left (fun s1 e => changeOne now over old d3 e s1) l s0)) ct <> None ->
             dget (kctyp (k_db (fold_left (fun s1 e => changeOne now over old d3 e s1) l s0))) ct <> None.
Proof.
  intros now over old d3 l. induction l as [|e l IH]; intros s0 H ct; [apply H|]. cbn [fold_left]. apply IH. clear ct. intros ct.
  destruct e as (x, n). destruct (beq ct x) eqn:E.
  - apply beq_eq in E. subst x. intros _. unfold changeOne. destruct (dget old ct); [destruct (_ && _)|destruct over as [q|]; [|destruct d3]]; cbn [k_db kctyp setCtyp];
      rewrite dget_dset, beq_refl; discriminate.
  - assert (Ne : ct <> fst (x, n)) by (cbn [fst]; intros ->; rewrite beq_refl in E; discriminate).
    destruct (changeOne_other now over old d3 (x, n) s0 ct Ne) as [A B]. rewrite A, B. apply H.
Qed.

Lemma staged_in_new : forall now over old d3 l s0 ct, k_pend s0 = [] ->
  dget (k_pend (fold_left (fun s1 e => changeOne now over old d3 e s1) l s0)) ct <> None -> In ct (map fst l).
Proof.
  intros now over old d3 l s0 ct P H. destruct (in_dec (list_eq_dec N.eq_dec) ct (map fst l)) as [J|J]; [exact J|]. exfalso.
  destruct (changes_other now over old d3 l s0 ct J) as [_ B]. rewrite B, P in H. apply H. reflexivity.
Qed.

Lemma change_keys : forall now over new s s', changeConfig now over new s = (s', None) -> k_pend s = [] ->
  NoDup (keysOf (k_pend s')) /\ forall ct, dget (k_pend s') ct <> None -> dget (kctyp (k_db s')) ct <> None.
Proof.
  intros now over new s s' H P. unfold changeConfig in H.
  destruct (match over with Some 0 => true | _ => false end); [discriminate|].
  destruct (negb (forallb (fun e => ctypOk (snd e)) new)); [discriminate|].
  destruct (negb (coverageOk (k_cf s) new)); [discriminate|]. cbv zeta in H. injection H as <-. cbn [k_db kctyp setCtyp k_pend]. split.
  - assert (G : forall l s0, NoDup (keysOf (k_pend s0)) -> NoDup (keysOf (k_pend (fold_left (fun s1 e => changeOne now over (k_cf s) (worstDelta (k_cf s) new) e s1) l s0)))).
    { induction l as [|e l IH]; intros s0 N0; [exact N0|]. cbn [fold_left]. apply IH. destruct e as (x, n). unfold changeOne.
      destruct (dget (k_cf s) x); [destruct (_ && _)|destruct over as [q|]; [|destruct (worstDelta (k_cf s) new)]]; cbn [k_pend]; try exact N0; apply keys_dset_nodup; exact N0. }
    apply G. rewrite P. constructor.
  - intros ct J. rewrite remAll_get.
    + apply staged_exist; [|exact J]. intros c0. rewrite P. intros Q. exfalso. apply Q. reflexivity.
    + intros K. apply staged_in_new in J; [|exact P]. apply in_map_iff in K. destruct K as (e & <- & K). apply filter_In in K. destruct K as [_ K].
      destruct (dget new (fst e)) eqn:D; [discriminate|]. apply in_map_iff in J. destruct J as (e' & E' & J). apply (in_map fst) in J. rewrite E' in J.
      apply dget_none in D. contradiction.
Qed.

Lemma reconcile_loop : forall t l s, NoDup (map fst l) -> (forall ct p, In (ct, p) l -> dget (kctyp (k_db s)) ct <> None) ->
  exists s', reconcileLoop t l s = (s', None) /\
    forall ct, dget (kctyp (k_db s')) ct =
      match dget l ct with
      | Some p => if pn_start p + pn_delta p * 1000 <=? t
                  then option_map (fun c => mkCt (c_d c) (pn_sl p) (pn_ll p) (pn_xl p) (c_psl c) (c_pll c) (c_pxl c)) (dget (kctyp (k_db s)) ct)
                  else dget (kctyp (k_db s)) ct
      | None => dget (kctyp (k_db s)) ct
      end.
Proof.
  intros t l. induction l as [|(x, p) l IH]; intros s ND H; [exists s; split; reflexivity|]. cbn [map fst] in ND. inversion ND as [|? ? Na Nb]; subst.
  assert (NG : dget l x = None) by (apply dget_none; exact Na).
  cbn [reconcileLoop dget]. destruct (pn_start p + pn_delta p * 1000 <=? t) eqn:W.
  - destruct (dget (kctyp (k_db s)) x) as [cx|] eqn:E; [|exfalso; apply (H x p (or_introl eq_refl)); exact E].
    set (s1 := mkKr _ _ _). destruct (IH s1 Nb) as (s' & R & G).
    { intros ct q J. unfold s1. cbn [k_db kctyp setCtyp]. rewrite dget_dset. destruct (beq ct x); [discriminate|]. apply (H ct q). right. exact J. }
    exists s'. split; [exact R|]. intros ct. rewrite G. unfold s1. cbn [k_db kctyp setCtyp]. rewrite dget_dset. destruct (beq ct x) eqn:B.
    + apply beq_eq in B. subst ct. rewrite NG, W, E. reflexivity.
    + reflexivity.
  - destruct (IH s Nb) as (s' & R & G); [intros ct q J; apply (H ct q); right; exact J|]. exists s'. split; [exact R|]. intros ct. rewrite G.
    destruct (beq ct x) eqn:B; [|reflexivity]. apply beq_eq in B. subst ct. rewrite NG, W. reflexivity.
Qed.

Lemma reconcile_spec : forall now over new s s' t s'' e, changeConfig now over new s = (s', None) -> k_pend s = [] -> reconcileConfig t s' = (s'', e) ->
  e = None /\ forall ct, dget (kctyp (k_db s'')) ct =
      match dget (k_pend s') ct with
      | Some p => if pn_start p + pn_delta p * 1000 <=? t
                  then option_map (fun c => mkCt (c_d c) (pn_sl p) (pn_ll p) (pn_xl p) (c_psl c) (c_pll c) (c_pxl c)) (dget (kctyp (k_db s')) ct)
                  else dget (kctyp (k_db s')) ct
      | None => dget (kctyp (k_db s')) ct
      end.
Proof.
  intros now over new s s' t s'' e H P R. destruct (change_keys now over new s s' H P) as [N1 EX]. unfold reconcileConfig in R.
  destruct (reconcile_loop t (k_pend s') s' N1) as (q & R' & G).
  - intros ct p J. apply EX. rewrite (In_dget _ _ _ N1 J). discriminate.
  - rewrite R' in R. injection R as <- <-. split; [reflexivity|exact G].
Qed.

Lemma growth_ge : forall n o, c_sl n - c_sl o <= growth n o /\ c_ll n - c_ll o <= growth n o /\ c_xl n - c_xl o <= growth n o.
Proof. intros n o. unfold growth, maxN. cbn [fold_left]. lia. Qed.

Lemma increase_delayed : forall now new s s' t s'' ct o n e,
  changeConfig now None new s = (s', None) -> NoDup (map fst new) -> k_pend s = [] ->
  dget (k_cf s) ct = Some o -> dget new ct = Some n ->
  t < now + (c_sl n - c_sl o) * 1000 \/ t < now + (c_ll n - c_ll o) * 1000 \/ t < now + (c_xl n - c_xl o) * 1000 ->
  reconcileConfig t s' = (s'', e) -> e = None /\ dget (kctyp (k_db s'')) ct = dget (kctyp (k_db s')) ct.
Proof.
  intros now new s s' t s'' ct o n e H ND P Ho Hn Ht R. destruct (reconcile_spec now None new s s' t s'' e H P R) as [-> G]. split; [reflexivity|].
  rewrite G. destruct (change_entry now None new s s' ct o n H ND Ho Hn) as [_ E]. rewrite E. rewrite P. destruct (decreases n o); [reflexivity|].
  cbn [pn_start pn_delta]. replace (now + N.max (growth n o) (worstDelta (k_cf s) new) * 1000 <=? t) with false; [reflexivity|].
  symmetry. apply N.leb_gt. destruct (growth_ge n o) as (G1 & G2 & G3). clear - Ht G1 G2 G3. lia.
Qed.

Lemma increase_applied : forall now new s s' t s'' ct o n e,
  changeConfig now None new s = (s', None) -> NoDup (map fst new) -> k_pend s = [] ->
  dget (k_cf s) ct = Some o -> dget new ct = Some n ->
  (forall x p, dget (k_pend s') x = Some p -> now + pn_delta p * 1000 <= t) ->
  reconcileConfig t s' = (s'', e) ->
  e = None /\ exists c, dget (kctyp (k_db s'')) ct = Some c /\ c_d c = c_d o /\ c_sl c = c_sl n /\ c_ll c = c_ll n /\ c_xl c = c_xl n.
Proof.
  intros now new s s' t s'' ct o n e H ND P Ho Hn Ht R. destruct (reconcile_spec now None new s s' t s'' e H P R) as [-> G]. split; [reflexivity|].
  destruct (change_entry now None new s s' ct o n H ND Ho Hn) as [E1 E2]. rewrite G, E1. unfold entryAfter. destruct (decreases n o) eqn:D.
  - rewrite E2, P. cbn [dget]. eexists. split; [reflexivity|]. repeat split.
  - pose proof (Ht ct _ E2) as Q. cbn [pn_delta] in Q. rewrite E2. cbn [pn_start pn_delta pn_sl pn_ll pn_xl]. apply N.leb_le in Q. rewrite Q.
    cbn [option_map]. eexists. split; [reflexivity|]. repeat split.
Qed.
