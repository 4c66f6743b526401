(** Lemmas on out of order delivery: an event with all its signatures is accepted in its turn. *)
From Verif Require Import Prelude B64Model MatterModel SubsModel ThModel ThSpec ThProofs ThThms KelModel KelSpec KelProofs KelInv OoSpec OoProofs.
Open Scope N_scope.
Ltac Zify.zify_post_hook ::= Z.div_mod_to_equations.

(** ** More signatures do no harm *)
Lemma memB_in : forall x l, memB x l = true <-> In x l.
Proof.
  intros x l. unfold memB. rewrite existsb_exists. split.
  - intros (y & I & E). apply beq_eq in E. subst. exact I.
  - intros I. exists x. split; [exact I|apply beq_refl].
Qed.
Lemma dedupB_all : forall l seen s, In s l -> ~ In (sg_qb64 s) seen ->
  exists t, In t (dedupB seen l) /\ sg_qb64 t = sg_qb64 s.
Proof.
  induction l as [|a l IH]; intros seen s I N; [destruct I|]. cbn [dedupB].
  destruct (memB (sg_qb64 a) seen) eqn:M.
  - destruct I as [->|I]; [|apply IH; assumption]. apply memB_in in M. contradiction.
  - destruct I as [->|I]; [exists s; cbn; auto|].
    destruct (list_eq_dec N.eq_dec (sg_qb64 a) (sg_qb64 s)) as [Q|Q]; [exists a; cbn; auto|].
    destruct (IH (sg_qb64 a :: seen) s I) as (t & T1 & T2).
    + intros [Z|Z]; contradiction.
    + exists t. cbn. auto.
Qed.

Lemma verify_more : forall E R raw keys vs sg' , NoDup (map sg_qb64 vs) -> Forall (verified E keys raw) vs ->
  incl vs sg' -> (forall s, In s sg' -> R (sg_qb64 s) = Some s) ->
  exists vs', verifySigs N (vrfy E) raw sg' keys = (vs', map sg_index vs') /\ incl vs vs' /\
    NoDup (map sg_qb64 vs') /\ Forall (verified E keys raw) vs'.
Proof.
  intros E R raw keys vs sg' ND V I RD. destruct (verifySigs N (vrfy E) raw sg' keys) as [vs' is] eqn:Q.
  pose proof (verifySigs_spec _ _ _ _ _ _ Q) as (-> & I' & ND' & V'). exists vs'. split; [reflexivity|].
  split; [|split; assumption]. intros s J. unfold verifySigs in Q. injection Q as Q _. subst vs'.
  destruct (dedupB_all sg' [] s (I _ J)) as (t & T1 & T2); [intros []|].
  assert (t = s).
  { destruct (dedupB_spec sg' []) as (D & _). pose proof (RD _ (D _ T1)). pose proof (RD _ (I _ J)). rewrite T2 in H. congruence. }
  subst t. apply filter_In. split; [exact T1|]. rewrite Forall_forall in V. destruct (V _ J) as (ky & K1 & K2). rewrite K1. exact K2.
Qed.

Lemma NoDup_of_map : forall A B (f : A -> B) l, NoDup (map f l) -> NoDup l.
Proof. intros A B f l. apply NoDup_map_inv. Qed.

Lemma len_incl : forall A (a b : list A), NoDup a -> incl a b -> len a <= len b.
Proof. intros A a b X Y. unfold len. pose proof (NoDup_incl_length X Y). lia. Qed.

Lemma satisfy_more : forall t is1 is2, threshold t -> incl is1 is2 -> len is1 <= len is2 ->
  (forall n, covers t n -> True) -> match t with TNum _ => True | TWt _ => Forall (fun i => i < thsize t) is2 end ->
  satisfy t is1 = true -> satisfy t is2 = true.
Proof.
  intros [n|th] is1 is2 T I L _ B S.
  - rewrite c11_numeric in *. lia.
  - rewrite (c11_set_only th is1 (nodup N.eq_dec is1) T) in S by (intros i; rewrite nodup_In; tauto).
    eapply (c11_monotone (TWt th) (nodup N.eq_dec is1)); [exact T|apply NoDup_nodup| |exact B|exact S].
    intros i J. apply nodup_In in J. auto.
Qed.

Lemma index_bound : forall E keys raw s, verified E keys raw s -> sg_index s < len keys.
Proof.
  intros E keys raw s (ky & K & _). assert (nth_error keys (N.to_nat (sg_index s)) <> None) by congruence.
  apply nth_error_Some in H. unfold len. lia.
Qed.

Lemma satisfy_index : forall E keys raw t vs vs', threshold t -> covers t (len keys) -> NoDup (map sg_qb64 vs) ->
  incl vs vs' -> Forall (verified E keys raw) vs' ->
  satisfy t (map sg_index vs) = true -> satisfy t (map sg_index vs') = true.
Proof.
  intros E keys raw t vs vs' T C ND I V S. eapply satisfy_more; [exact T| | | | |exact S].
  - apply incl_map. exact I.
  - rewrite !len_map. apply len_incl; [apply NoDup_of_map in ND; exact ND|exact I].
  - auto.
  - destruct t as [n|th]; [exact Logic.I|]. unfold covers in C. rewrite C. apply Forall_map.
    eapply Forall_impl; [|exact V]. intros s. apply index_bound.
Qed.

(** signatures that expose a committed key *)
Definition exposer (E : env) (nd keys : list N) (s : siger) : option N :=
  match sg_ondex s with
  | None => None
  | Some o => match nth_error nd (N.to_nat o), nth_error keys (N.to_nat (sg_index s)) with
              | Some dg, Some ky => if commits E dg ky then Some o else None
              | _, _ => None
              end
  end.
Definition isSome {A} (o : option A) : bool := match o with Some _ => true | None => false end.
Lemma exposeds_filter : forall E nd keys sg,
  len (exposeds E nd keys sg) = len (filter (fun s => isSome (exposer E nd keys s)) sg) /\
  (forall o, In o (exposeds E nd keys sg) <-> exists s, In s sg /\ exposer E nd keys s = Some o).
Proof.
  intros E nd keys. induction sg as [|s sg [IH1 IH2]]; [split; [reflexivity|]; split; [intros []|intros (? & [] & _)]|].
  unfold exposeds in *. cbn [flat_map filter].
  assert (Q : (match sg_ondex s with None => [] | Some o => match nth_error nd (N.to_nat o), nth_error keys (N.to_nat (sg_index s)) with
      | Some dg, Some ky => if commits E dg ky then [o] else [] | _, _ => [] end end) =
      match exposer E nd keys s with Some o => [o] | None => [] end).
  { unfold exposer. destruct (sg_ondex s) as [o|]; [|reflexivity]. destruct (nth_error nd (N.to_nat o)); [|reflexivity].
    destruct (nth_error keys (N.to_nat (sg_index s))); [|reflexivity]. destruct (commits E n n0); reflexivity. }
  rewrite Q. clear Q. destruct (exposer E nd keys s) as [o|] eqn:X; cbn [isSome app].
  - split; [unfold len in *; cbn [List.length]; lia|]. intros o'. cbn [In]. rewrite IH2. split.
    + intros [<-|(t & T1 & T2)]; [exists s; auto|exists t; auto].
    + intros (t & [<-|T1] & T2); [left; congruence|right; eauto].
  - split; [exact IH1|]. intros o'. rewrite IH2. split.
    + intros (t & T1 & T2). exists t. cbn. auto.
    + intros (t & [<-|T1] & T2); [congruence|eauto].
Qed.

Lemma satisfy_exposed : forall E nd keys t vs vs', threshold t -> covers t (len nd) -> NoDup (map sg_qb64 vs) ->
  incl vs vs' -> satisfy t (exposeds E nd keys vs) = true -> satisfy t (exposeds E nd keys vs') = true.
Proof.
  intros E nd keys t vs vs' T C ND I S. destruct (exposeds_filter E nd keys vs) as [A1 A2].
  destruct (exposeds_filter E nd keys vs') as [B1 B2]. eapply satisfy_more; [exact T| | | | |exact S].
  - intros o J. apply A2 in J. destruct J as (s & J1 & J2). apply B2. eauto.
  - rewrite A1, B1. apply len_incl; [apply NoDup_filter; apply NoDup_of_map in ND; exact ND|].
    intros s J. apply filter_In in J. apply filter_In. intuition.
  - auto.
  - destruct t as [n|th]; [exact Logic.I|]. unfold covers in C. rewrite C. apply Forall_forall. intros o J.
    apply B2 in J. destruct J as (s & _ & J). unfold exposer in J. destruct (sg_ondex s) as [o'|]; [|discriminate].
    destruct (nth_error nd (N.to_nat o')) eqn:Z; [|discriminate]. destruct (nth_error keys (N.to_nat (sg_index s))); [|discriminate].
    destruct (commits E n n0); [|discriminate]. injection J as ->.
    assert (nth_error nd (N.to_nat o) <> None) by congruence. apply nth_error_Some in H. unfold len. lia.
Qed.

(** ** Validation succeeds *)
Lemma val_ok : forall E cf now d k e sg0 keys th wg0 toad wits sl eager local x vs ws is,
  thsize th <= len keys -> locallyMembered cf k = false -> locallyOwned cf k = false -> locallyWitnessed cf k wits = false ->
  In (e_ilk e) [Icp; Rot; Ixn] ->
  verifySigs N (vrfy E) (e_raw e) sg0 keys = (vs, map sg_index vs) -> vs <> [] ->
  verifySigs N (vrfy E) (e_raw e) wg0 wits = (ws, is) -> len is = len ws ->
  satisfy th (map sg_index vs) = true ->
  (isRot (e_ilk e) = true -> satisfy (k_nt k) (exposeds E (k_ndigs k) keys vs) = true) ->
  (wits = [] -> toad = 0) -> (wits <> [] -> 1 <= toad <= len wits /\ toad <= len ws) ->
  valSigsWigsDel E cf now d k e sg0 keys th wg0 toad wits sl eager local x = (x, Ok (vs, ws, None, None)).
Proof.
  intros E cf now d k e sg0 keys th wg0 toad wits sl eager local x vs ws is SZ LM LO LW IL VS NE WS LE SA RO T1 T2.
  unfold valSigsWigsDel. rewrite (proj2 (N.ltb_ge _ _) SZ), LM, andb_false_r. unfold retm at 1. unfold bindm at 1.
  rewrite VS. assert (NI : isnil (map sg_index vs) = false) by (destruct vs; [congruence|reflexivity]). rewrite NI.
  assert (DP : (match e_ilk e with Dip => match e_delpre e with None => failm ValidationError | Some p => retm (Some p) end
     | Drt => retm (k_delpre k) | _ => retm None end) = retm None).
  { cbn in IL. destruct IL as [<-|[<-|[<-|[]]]]; reflexivity. }
  rewrite DP. unfold retm at 1. unfold bindm at 1. rewrite LO, LW. cbn [orb locallyDelegated]. rewrite andb_false_r.
  rewrite WS, SA. cbn [negb].
  assert (RB : isRot (e_ilk e) && negb (satisfy (k_nt k) (exposeds E (k_ndigs k) keys vs)) = false).
  { destruct (isRot (e_ilk e)); [rewrite (RO eq_refl); reflexivity|reflexivity]. }
  rewrite RB. cbn [orb negb].
  assert (DE : isDel (e_ilk e) = false) by (cbn in IL; destruct IL as [<-|[<-|[<-|[]]]]; reflexivity).
  rewrite DE. cbn [andb].
  destruct wits as [|w wits]; cbn [isnil].
  - rewrite (T1 eq_refl). reflexivity.
  - destruct T2 as [[Q1 Q2] Q3]; [discriminate|].
    rewrite (proj2 (N.ltb_ge _ _) Q1), (proj2 (N.ltb_ge _ _) Q2). cbn [orb].
    rewrite LE, (proj2 (N.ltb_ge _ _) Q3). reflexivity.
Qed.

(** ** The step of the log that accepted [m], as it looks without the database *)
Definition rotated (k : kever) (e : evt) (wits cuts adds : list N) (fn dts : N) : kever :=
  mkKever (k_vn k) (k_pre k) (e_sn e) e (e_ilk e) (e_kt e) (e_keys e) (e_ndigs e)
         (e_nt e) (e_bt e) wits cuts adds (k_estOnly k) (k_dnd k) (e_sn e) (e_said e)
         (k_delpre k) fn dts (k_cues k).
Definition interacted (k : kever) (e : evt) (fn dts : N) : kever :=
  mkKever (k_vn k) (k_pre k) (e_sn e) e (e_ilk e) (k_tholder k) (k_keys k) (k_ndigs k)
         (k_nt k) (k_toad k) (k_wits k) (k_cuts k) (k_adds k) (k_estOnly k) (k_dnd k)
         (k_lastS k) (k_lastD k) (k_delpre k) fn dts (k_cues k).

Inductive atr (E : env) (e : evt) : option kever -> kever -> Prop :=
| atr_icp : forall k0 fn dts, e_ilk e = Icp -> incept E e = Ok k0 -> atr E e None (withDelFn k0 None fn dts)
| atr_rot : forall k wits cuts adds fn dts, transferable E k = true -> e_pre e = k_pre k -> e_ilk e = Rot ->
    k_delpre k = None -> e_sn e = k_sn k + 1 -> rotate acc0 aux0 k e = Ok (wits, cuts, adds) ->
    atr E e (Some k) (rotated k e wits cuts adds fn dts)
| atr_ixn : forall k fn dts, transferable E k = true -> e_pre e = k_pre k -> e_ilk e = Ixn ->
    k_estOnly k = false -> e_sn e = k_sn k + 1 -> e_prior e = Some (e_said (k_evt k)) ->
    atr E e (Some k) (interacted k e fn dts).

Lemma rotate_next : forall d x d' x' k e, e_sn e = k_sn k + 1 -> rotate d x k e = rotate d' x' k e.
Proof.
  intros d x d' x' k e S. unfold rotate. assert (L : (e_sn e <=? k_sn k) = false) by (apply N.leb_gt; lia). rewrite L. reflexivity.
Qed.

Record astep (E : env) (cf : conf) (m : msg) (ko : option kever) (k' : kever) : Prop := mkAstep {
  as_pre : validPre E (e_pre (m_evt m)) = true;
  as_tr : atr E (m_evt m) ko k';
  as_val : exists d x local sg wg dp cpl,
    valid E cf d x (match ko with Some k => k | None => k' end) (m_evt m) (m_sigers m)
              (k_keys k') (k_tholder k') (m_wigers m) (k_toad k') (k_wits k') local sg wg dp cpl }.

Definition sameo (a b : option kever) : Prop := option_map undated a = option_map undated b.

(** undated key states take the same steps *)
Lemma und : forall (A : Type) (f : kever -> A) a b, (forall k, f (undated k) = f k) -> undated a = undated b -> f a = f b.
Proof. intros A f a b X Y. rewrite <- (X a), <- (X b), Y. reflexivity. Qed.

Definition clear (cf : conf) (k : kever) (wits : list N) : Prop :=
  locallyMembered cf k = false /\ locallyOwned cf k = false /\ locallyWitnessed cf k wits = false.

(** what a valid message implies for every copy of it *)
Lemma val_copy : forall E cf R d0 x0 k e sg0 keys th wg0 toad wits local0 sg wg dp cpl sg' wg' kr,
  valid E cf d0 x0 k e sg0 keys th wg0 toad wits local0 sg wg dp cpl ->
  incl sg0 sg' -> incl wg0 wg' -> (forall s, In s (sg' ++ wg') -> R (sg_qb64 s) = Some s) ->
  threshold th -> covers th (len keys) -> threshold (k_nt kr) -> (isRot (e_ilk e) = true -> covers (k_nt kr) (len (k_ndigs kr))) ->
  clear cf kr wits -> isLocal cf k wits = false -> k_nt kr = k_nt k -> k_ndigs kr = k_ndigs k -> In (e_ilk e) [Icp; Rot; Ixn] ->
  forall now d sl eager local x, exists vs ws,
    valSigsWigsDel E cf now d kr e sg' keys th wg' toad wits sl eager local x = (x, Ok (vs, ws, None, None)).
Proof.
  intros E cf R d0 x0 k e sg0 keys th wg0 toad wits local0 sg wg dp cpl sg' wg' kr V I1 I2 RD T1 C1 T2 C2 (L1 & L2 & L3) LO N1 N2 IL now d sl eager local x.
  destruct V.
  destruct (verify_more E R (e_raw e) keys sg sg') as (vs & A1 & A2 & A3 & A4); auto.
  { eapply incl_tran; eauto. } { intros s J. apply RD, in_app_iff. auto. }
  destruct (verify_more E R (e_raw e) wits wg wg') as (ws & B1 & B2 & B3 & B4); auto.
  { eapply incl_tran; eauto. } { intros s J. apply RD, in_app_iff. auto. }
  exists vs, ws. eapply val_ok; eauto.
  - intros ->. destruct sg as [|s sg]; [auto|]. destruct (A2 s). cbn. auto.
  - apply len_map.
  - eapply (satisfy_index E keys (e_raw e) th sg vs); eauto.
  - intros RO. eapply satisfy_exposed; [exact T2|exact (C2 RO)|exact v_nodup|exact A2|]. rewrite N1, N2. exact (v_rot RO).
  - intros NE. destruct (v_toad NE LO) as [Q1 Q2]. split; [exact Q1|].
    etransitivity; [exact Q2|]. apply len_incl; [apply NoDup_of_map in v_wnodup; exact v_wnodup|exact B2].
Qed.
