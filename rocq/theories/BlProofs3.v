(** Proofs about blinded states: their values, and unblinding. *)
From Verif Require Import Prelude B64Model B64Proofs MatterModel MatterProofs MatterInv MatterBinInv MatterSpec MatterThms SubsModel SubsThms CtrModel CtrProofs CtrThms ThModel VerModel JsonModel SerModel SerSpec SerProofs NmModel NmProofs NmProofs3 NkModel NkSpec NkProofs4 MzModel BlModel BlSpec BlProofs BlProofs2.
Open Scope N_scope.
Ltac Zify.zify_post_hook ::= Z.div_mod_to_equations.
Notation val := JsonModel.val.

(** ** Values *)
Lemma noncer_value : forall s, nonceText s -> exists m, noncer_of_nonce s = Ok m /\ nonceOf m = Ok s.
Proof.
  intros s [-> |(_ & m & X & I & C)].
  - eexists. split; vm_compute; reflexivity.
  - exists m. assert (NE : s <> []) by (intros ->; discriminate X). unfold noncer_of_nonce. destruct s as [|x s]; [congruence|]. rewrite X. cbn [bind check].
    assert (D : memB (m_code m) NonceDex = true) by (apply memB_In; right; exact C). rewrite D. split; [reflexivity|]. unfold nonceOf.
    destruct (beq (m_code m) Empty) eqn:E; [|exact I]. apply beq_eq in E. rewrite E in C. exfalso. apply memB_In in C. vm_compute in C. discriminate.
Qed.
Lemma var_total : forall raw d x, varLetter x -> d = 52 \/ d = 53 \/ d = 54 -> (len raw + lead raw) / 3 <= 64 ^ 4 - 1 -> exists m, matter_of_raw raw [d; x] [] None = Ok m.
Proof.
  intros raw d x Hx Hd L. unfold matter_of_raw.
  assert (Z : exists sz, dget Sizes [d; x] = Some sz /\ fs sz = None).
  { destruct Hx as [-> |[-> | ->]], Hd as [-> |[-> | ->]]; eexists; (split; [vm_compute; reflexivity|reflexivity]). }
  destruct Z as (sz & Z1 & Z2). rewrite Z1, Z2. cbv zeta. rewrite ntake_all by lia. rewrite N.eqb_refl. cbn [negb].
  unfold varCode. replace (memN (nth 0 [d; x] 0) SmallVrzDex) with true by (destruct Hd as [-> |[-> | ->]]; reflexivity). fold (lead raw).
  destruct (_ <=? 64 ^ 2 - 1); [eexists; reflexivity|]. apply N.leb_le in L. rewrite L. eexists. reflexivity.
Qed.
Lemma var_bound : forall raw d x m, varLetter x -> d = 52 \/ d = 53 \/ d = 54 -> matter_of_raw raw [d; x] [] None = Ok m -> (len raw + lead raw) / 3 <= 64 ^ 4 - 1.
Proof.
  intros raw d x m Hx Hd H. unfold matter_of_raw in H.
  assert (Z : exists sz, dget Sizes [d; x] = Some sz /\ fs sz = None).
  { destruct Hx as [-> |[-> | ->]], Hd as [-> |[-> | ->]]; eexists; (split; [vm_compute; reflexivity|reflexivity]). }
  destruct Z as (sz & Z1 & Z2). rewrite Z1, Z2 in H. cbv zeta in H. apply bind_ok in H. destruct H as ([c s] & H1 & _).
  unfold varCode in H1. replace (memN (nth 0 [d; x] 0) SmallVrzDex) with true in H1 by (destruct Hd as [-> |[-> | ->]]; reflexivity). fold (lead raw) in H1.
  set (k := (len raw + lead raw) / 3) in *. clearbody k. destruct (N.leb_spec k (64 ^ 2 - 1)); [eapply N.le_trans; [exact H|vm_compute; discriminate]|].
  destruct (N.leb_spec k (64 ^ 4 - 1)); [assumption|discriminate].
Qed.
Lemma labeler_total : forall s, stateText s -> exists m, labeler_text s = Ok m.
Proof.
  intros s [O8 L]. unfold labeler_text. destruct (Reb64 s) eqn:B.
  - destruct s as [|x s]; [eexists; vm_compute; reflexivity|]. pose proof (compact_sized (x :: s) B ltac:(discriminate)) as SZ.
    assert (OK : exists m, compact (x :: s) = Ok m).
    { clear SZ. set (t := x :: s) in *. unfold compact. destruct (tag_codify t) as [code|ex] eqn:Et.
      - assert (L' : 1 <= len t <= 11).
        { unfold tag_codify in Et. cbv zeta in Et. change (len TagDex) with 11 in Et. destruct ((len t <? 1) || (11 <? len t)) eqn:E; [discriminate|lia]. }
        destruct (c08_tag_round_trip t [] B L') as (m' & q & A & _). unfold tagger_of_tag in A. unfold t in A at 1. rewrite B in A. cbn [negb] in A. rewrite Et in A. cbn [bind] in A.
        destruct (matter_of_soft code t) as [m|]; [eauto|discriminate].
      - pose proof B as Bt. apply Reb64_b64text in Bt. pose proof (escape_text t true Bt) as HT.
        destruct (rawify_core (bext_escape t true) HT (escape_unambiguous t)) as (raw & c & sz & R1 & R2 & (s' & R3) & _).
        { pose proof (escape_len t true). clear - H L. unfold t in *. lia. }
        rewrite rawify_true, R1. cbn [bind]. destruct (strCode_cases t) as (d & Ed & Hd). rewrite Ed. apply var_total; [left; reflexivity|exact Hd|].
        exact (var_bound raw 52 65 _ (or_introl eq_refl) (or_introl eq_refl) R3). }
    destruct OK as (m & M). rewrite M in SZ |- *. cbn [bind] in SZ |- *. destruct (inLabelDex m) as [m'|e] eqn:E; [eauto|]. exfalso. pose proof (SZ e eq_refl) as Z.
    unfold inLabelDex in E. destruct (negb (memB (m_code m) LabelDex)); [|discriminate]. injection E as <-. destruct Z; discriminate.
  - destruct (N.eqb_spec (len s) 1) as [E1|E1]; [|destruct (N.eqb_spec (len s) 2) as [E2|E2]].
    + erewrite fixed_raw; [|vm_compute; reflexivity|reflexivity|reflexivity|rewrite E1; reflexivity|discriminate]. eexists. vm_compute. reflexivity.
    + erewrite fixed_raw; [|vm_compute; reflexivity|reflexivity|reflexivity|rewrite E2; reflexivity|discriminate]. eexists. vm_compute. reflexivity.
    + destruct (var_total s 52 66 (or_intror (or_introl eq_refl)) (or_introl eq_refl)) as (m & M); [unfold lead; clear - L; lia|].
      change (s2b "4B") with [52; 66]. rewrite M. cbn [bind]. rewrite (var_label s 52 66 m (or_intror eq_refl) (or_introl eq_refl) M). eauto.
Qed.
Lemma number_value : forall n, n < 256 ^ 17 -> exists m, castVal KNumber (VInt (Z.of_N n)) = Ok m /\ SubsModel.num m = n.
Proof.
  intros n L. cbn [castVal]. destruct (Z.ltb_spec (Z.of_N n) 0) as [H|_]; [lia|]. rewrite N2Z.id.
  destruct (c06_number_round_trip n L) as (m & q & b & A & _ & B & _). exists m. split; [exact A|exact B].
Qed.
Lemma nonce_octets : forall s, nonceText s -> octets s.
Proof. intros s [-> |(R & _)]; [constructor|exact (b64_octets _ R)]. Qed.

Section Digest.
Variable digest : bytes -> bytes -> bytes.
Hypothesis DOK : digest_ok digest.

Lemma makify_total : forall ks ms, Forall2 fit ks ms -> ms <> [] -> exists ms', makify digest ms = Ok ms'.
Proof.
  intros ks ms F NE. destruct ms as [|d rest]; [congruence|]. inversion F as [|k ? ks' ? F1 F2]; subst. destruct F1 as [_ (qd & R)]. destruct (fit_rw _ _ F2) as (qs & FQ).
  unfold makify. rewrite (saidText_eq digest _ _ _ _ R FQ).
  destruct (digerOf_ok digest (saidCode d) (repeat 35 (N.to_nat (if len (saidCode d) =? 1 then 44 else 88)) ++ List.concat qs) DOK (saidCode_dig d)) as (t & T & (C & X & I) & _).
  { destruct (len (saidCode d) =? 1); discriminate. }
  rewrite T. cbn [bind]. unfold readText. rewrite X. cbn [bind check m_code]. rewrite (noncer_dig _ C). eexists. reflexivity.
Qed.
Lemma makify_tl : forall ms ms', makify digest ms = Ok ms' -> exists d, ms' = d :: tl ms.
Proof. intros ms ms' H. unfold makify in H. apply bind_ok in H. destruct H as (said & _ & H). apply bind_ok in H. destruct H as (m & _ & H). apply ok_inj in H. eauto. Qed.

Lemma blinder_total : forall u a s bd, nonceText u -> nonceText a -> stateText s -> boundOk bd -> exists b, blinderOf digest u a s bd = Ok b.
Proof.
  intros u a s bd U A T B. destruct (noncer_value _ U) as (mu & MU & _). destruct (noncer_value _ A) as (ma & MA & _). destruct (labeler_total _ T) as (ml & ML).
  assert (E : exists me, noncer_of_nonce [] = Ok me) by (eexists; vm_compute; reflexivity). destruct E as (me & ME). unfold blinderOf, ofCrew.
  destruct bd as [[n b]|]; cbn [hasClan existsb clansOf clan_eqb negb orb castOf].
  - destruct B as [B1 B2]. destruct (number_value n B1) as (mn & MN & _). destruct (noncer_value _ B2) as (mb & MB & _).
    unfold castAll. rewrite MN. cbn [castVal]. rewrite ME, MU, MA, ML, MB. cbn [bind settle saidive].
    destruct (makify_total [KNoncer; KNoncer; KNoncer; KLabeler; KNumber; KNoncer] [me; mu; ma; ml; mn; mb]) as (ms' & M).
    + apply (castAll_fit _ [VStr []; VStr u; VStr a; VStr s; VInt (Z.of_N n); VStr b]).
      * constructor; [constructor|]. constructor; [exact (nonce_octets _ U)|]. constructor; [exact (nonce_octets _ A)|]. constructor; [exact (proj1 T)|]. constructor; [exact Logic.I|]. constructor; [exact (nonce_octets _ B2)|]. constructor.
      * unfold castAll. rewrite MN. cbn [castVal]. rewrite ME, MU, MA, ML, MB. reflexivity.
    + discriminate.
    + rewrite M. cbn [bind]. eauto.
  - unfold castAll. cbn [castVal]. rewrite ME, MU, MA, ML. cbn [bind settle saidive].
    destruct (makify_total [KNoncer; KNoncer; KNoncer; KLabeler] [me; mu; ma; ml]) as (ms' & M).
    + apply (castAll_fit _ [VStr []; VStr u; VStr a; VStr s]).
      * constructor; [constructor|]. constructor; [exact (nonce_octets _ U)|]. constructor; [exact (nonce_octets _ A)|]. constructor; [exact (proj1 T)|]. constructor.
      * unfold castAll. cbn [castVal]. rewrite ME, MU, MA, ML. reflexivity.
    + discriminate.
    + rewrite M. cbn [bind]. eauto.
Qed.
Lemma blinder_values : forall u a s bd b, nonceText u -> nonceText a -> utf8 s = true -> boundOk bd -> blinderOf digest u a s bd = Ok b ->
  uuidOf b = Ok u /\ acdcOf b = Ok a /\ stateOf b = Ok s /\ boundOf b = Ok bd.
Proof.
  intros u a s bd b U A T B H. destruct (noncer_value _ U) as (mu & MU & VU). destruct (noncer_value _ A) as (ma & MA & VA).
  assert (E : exists me, noncer_of_nonce [] = Ok me) by (eexists; vm_compute; reflexivity). destruct E as (me & ME).
  assert (ML : exists ml, labeler_text s = Ok ml).
  { unfold blinderOf, ofCrew in H. destruct bd as [[n b']|]; apply raise_if_ok in H; destruct H as [_ H]; apply bind_ok in H; destruct H as (ms & C & _); cbn [castOf] in C.
    - unfold castAll in C. destruct B as [B1 B2]. destruct (number_value n B1) as (mn & MN & _). rewrite MN in C. cbn [castVal] in C. rewrite ME, MU, MA in C. cbn [bind] in C. destruct (labeler_text s) as [ml|]; [eauto|discriminate C].
    - unfold castAll in C. cbn [castVal] in C. rewrite ME, MU, MA in C. cbn [bind] in C. destruct (labeler_text s) as [ml|]; [eauto|discriminate C]. }
  destruct ML as (ml & ML). pose proof (proj1 (proj2 (labeler_text_ok _ _ T ML))) as VL. unfold blinderOf, ofCrew in H.
  destruct bd as [[n b']|]; apply raise_if_ok in H; destruct H as [_ H]; apply bind_ok in H; destruct H as (ms & C & H); cbn [castOf] in C.
  - unfold castAll in C. destruct B as [B1 B2]. destruct (number_value n B1) as (mn & MN & VN). destruct (noncer_value _ B2) as (mb & MB & VB).
    rewrite MN in C. cbn [castVal] in C. rewrite ME, MU, MA, ML, MB in C. cbn [bind] in C. apply ok_inj in C. subst ms.
    cbn [settle saidive] in H. apply bind_ok in H. destruct H as (ms' & M & H). apply ok_inj in H. subst b. destruct (makify_tl _ _ M) as (d & ->). cbn [tl].
    unfold uuidOf, acdcOf, stateOf, boundOf. cbn [s_data s_clan]. rewrite VB, VN. auto.
  - unfold castAll in C. cbn [castVal] in C. rewrite ME, MU, MA, ML in C. cbn [bind] in C. apply ok_inj in C. subst ms.
    cbn [settle saidive] in H. apply bind_ok in H. destruct H as (ms' & M & H). apply ok_inj in H. subst b. destruct (makify_tl _ _ M) as (d & ->). cbn [tl].
    unfold uuidOf, acdcOf, stateOf, boundOf. cbn [s_data s_clan]. auto.
Qed.

Lemma blinder_obtained : forall u a s bd b, octets u -> octets a -> octets s -> octetsB bd -> blinderOf digest u a s bd = Ok b -> obtained digest Blinder b.
Proof.
  intros u a s bd b U A T B H. unfold blinderOf in H. destruct bd as [[n b']|].
  - eapply ob_crew; [|exact H]. constructor; [constructor|]. constructor; [exact U|]. constructor; [exact A|]. constructor; [exact T|]. constructor; [exact Logic.I|]. constructor; [exact B|]. constructor.
  - eapply ob_crew; [|exact H]. constructor; [constructor|]. constructor; [exact U|]. constructor; [exact A|]. constructor; [exact T|]. constructor.
Qed.
Lemma sound_nonce : forall b d rest, sound digest Blinder b -> s_data b = d :: rest -> nonceOf d = infil d.
Proof.
  intros b d rest S E. destruct (sd_said _ _ _ S eq_refl) as (d' & rest' & qd & qs & E' & _ & _ & C & _). rewrite E in E'. injection E' as <- <-. unfold nonceOf.
  destruct (beq (m_code d) Empty) eqn:Q; [|reflexivity]. apply beq_eq in Q. rewrite Q in C. exfalso. apply memB_In in C. vm_compute in C. discriminate.
Qed.
Definition candOk (l : list (bytes * bytes * option (N * bytes))) : Prop := Forall (fun c => octets (fst (fst c)) /\ octets (snd (fst c)) /\ octetsB (snd c)) l.
Lemma search_some : forall said u l b, octets u -> candOk l -> search digest said u l = Ok (Some b) ->
  saidOfSt b = Ok said /\ exists a s bd, In (a, s, bd) l /\ blinderOf digest u a s bd = Ok b.
Proof.
  intros said u l b U F H. induction F as [|[[a s] bd] l (F1 & F2 & F3) F IH]; cbn [search] in H; [discriminate|]. cbn [fst snd] in *.
  apply bind_ok in H. destruct H as (b' & B & H). destruct (s_data b') as [|d rest] eqn:E; [discriminate|]. apply bind_ok in H. destruct H as (q & Q & H).
  destruct (beq q said) eqn:EQ.
  - apply beq_eq in EQ. apply ok_inj in H. injection H as ->. subst q. pose proof (obtained_sound digest DOK _ _ (blinder_obtained _ _ _ _ _ U F1 F2 F3 B)) as S.
    rewrite (sound_nonce _ _ _ S E) in Q. split; [unfold saidOfSt; rewrite E; exact Q|]. exists a, s, bd. split; [left; reflexivity|exact B].
  - destruct (IH H) as (I1 & a' & s' & bd' & I2 & I3). split; [exact I1|]. exists a', s', bd'. split; [right; exact I2|exact I3].
Qed.
Lemma search_none : forall said u l, octets u -> candOk l -> search digest said u l = Ok None ->
  forall a s bd b, In (a, s, bd) l -> blinderOf digest u a s bd = Ok b -> saidOfSt b <> Ok said.
Proof.
  intros said u l U F H. induction F as [|[[a s] bd] l (F1 & F2 & F3) F IH]; cbn [search] in H; [intros ? ? ? ? []|]. cbn [fst snd] in *.
  apply bind_ok in H. destruct H as (b' & B & H). destruct (s_data b') as [|d rest] eqn:E; [discriminate|]. apply bind_ok in H. destruct H as (q & Q & H).
  destruct (beq q said) eqn:EQ; [discriminate|]. intros a2 s2 bd2 b2 [I|I] B2; [|exact (IH H _ _ _ _ I B2)].
  injection I as <- <- <-. rewrite B in B2. apply ok_inj in B2. subst b2. pose proof (obtained_sound digest DOK _ _ (blinder_obtained _ _ _ _ _ U F1 F2 F3 B)) as S.
  rewrite (sound_nonce _ _ _ S E) in Q. unfold saidOfSt. rewrite E, Q. intros X. apply ok_inj in X. subst q. rewrite beq_refl in EQ. discriminate.
Qed.
Lemma search_total : forall said u l, (forall a s bd, In (a, s, bd) l -> exists b, blinderOf digest u a s bd = Ok b) -> octets u -> candOk l -> exists r, search digest said u l = Ok r.
Proof.
  intros said u l H U F. induction F as [|[[a s] bd] l (F1 & F2 & F3) F IH]; cbn [search]; [eauto|]. cbn [fst snd] in *.
  destruct (H a s bd (or_introl eq_refl)) as (b & B). rewrite B. cbn [bind]. pose proof (obtained_sound digest DOK _ _ (blinder_obtained _ _ _ _ _ U F1 F2 F3 B)) as S.
  destruct (sd_said _ _ _ S eq_refl) as (d & rest & qd & qs & E & R & _). rewrite E. rewrite (sound_nonce _ _ _ S E), (rw_infil _ _ R). cbn [bind].
  destruct (beq qd said); [eauto|]. apply IH. intros a' s' bd' I. apply H. right. exact I.
Qed.
Lemma withEmpty_In : forall l x, In x (withEmpty l) <-> In x l \/ x = [].
Proof.
  intros l x. unfold withEmpty. destruct (memB [] l) eqn:E.
  - apply memB_In in E. split; [tauto|]. intros [H| ->]; auto.
  - split; [intros H; apply in_app_or in H; destruct H as [H|[<-|[]]]; auto|]. intros [H| ->]; apply in_or_app; [left; exact H|right; left; reflexivity].
Qed.
Lemma withZero_In : forall l x, In x (withZero l) <-> In x l \/ x = (0, []).
Proof.
  intros l x. unfold withZero. destruct (existsb (fun p => (fst p =? 0) && beq (snd p) []) l) eqn:E.
  - apply existsb_exists in E. destruct E as ([n b] & I & E). cbn [fst snd] in E. apply andb_true_iff in E. destruct E as [E1 E2]. apply N.eqb_eq in E1. apply beq_eq in E2. subst n b.
    split; [tauto|]. intros [H| ->]; auto.
  - split; [intros H; apply in_app_or in H; destruct H as [H|[<-|[]]]; auto|]. intros [H| ->]; apply in_or_app; [left; exact H|right; left; reflexivity].
Qed.
Definition candsOf (acdc : bytes) (states : list bytes) (bounds : option (list (N * bytes))) : list (bytes * bytes * option (N * bytes)) :=
  flat_map (fun bd => flat_map (fun td => map (fun ts => (td, ts, bd)) (withEmpty states)) (withEmpty [acdc])) (boundsOf bounds).
Lemma cands_In : forall acdc states bounds td ts bd, In (td, ts, bd) (candsOf acdc states bounds) <-> candidate acdc states bounds td ts bd.
Proof.
  intros acdc states bounds td ts bd. unfold candsOf, candidate. rewrite in_flat_map. split.
  - intros (bd' & B & H). apply in_flat_map in H. destruct H as (td' & T & H). apply in_map_iff in H. destruct H as (ts' & E & S). injection E as -> -> ->.
    apply withEmpty_In in T. apply withEmpty_In in S. cbn [In] in T. split; [destruct T as [[T|[]]|T]; auto|]. split; [exact S|].
    destruct bounds as [l|]; cbn [boundsOf] in B.
    + apply in_map_iff in B. destruct B as (p & <- & B). apply withZero_In. exact B.
    + destruct B as [<-|[]]. exact Logic.I.
  - intros (T & S & B). exists bd. split.
    + destruct bounds as [l|]; destruct bd as [p|]; cbn [boundsOf]; try contradiction; [|left; reflexivity]. apply in_map. apply withZero_In. exact B.
    + apply in_flat_map. exists td. split; [apply withEmpty_In; cbn [In]; destruct T; auto|]. apply in_map_iff. exists ts. split; [reflexivity|]. apply withEmpty_In. exact S.
Qed.
Lemma cands_ok : forall acdc states bounds, inputsOk acdc states bounds -> candOk (candsOf acdc states bounds).
Proof.
  intros acdc states bounds (A & S & B). apply Forall_forall. intros [[td ts] bd] I. apply cands_In in I. destruct I as (T & S' & B'). cbn [fst snd].
  rewrite Forall_forall in S. split; [destruct T as [-> | ->]; [exact A|constructor]|]. split; [destruct S' as [S'| ->]; [auto|constructor]|].
  destruct bounds as [l|]; destruct bd as [[n b]|]; try contradiction; [|exact Logic.I]. cbn [octetsB]. destruct B' as [B'|B']; [rewrite Forall_forall in B; exact (B _ B')|]. injection B' as _ ->. constructor.
Qed.
Lemma unblind_uuid : forall said uuid salt sn acdc states bounds r, unblind digest said uuid salt sn acdc states bounds = Ok r ->
  exists u, uuidIs uuid salt sn u /\ search digest said u (candsOf acdc states bounds) = Ok r.
Proof.
  intros said uuid salt sn acdc states bounds r H. unfold unblind in H. apply bind_ok in H. destruct H as (u & U & H). exists u. split; [|exact H].
  destruct uuid as [u'|]; [apply ok_inj in U; subst u'; left; reflexivity|]. destruct salt as [st|]; [|discriminate]. right. split; [reflexivity|]. exists st. auto.
Qed.
Lemma uuid_unblind : forall said uuid salt sn acdc states bounds u, uuidIs uuid salt sn u ->
  unblind digest said uuid salt sn acdc states bounds = search digest said u (candsOf acdc states bounds).
Proof. intros said uuid salt sn acdc states bounds u [-> |(-> & st & -> & M)]; unfold unblind; [reflexivity|]. rewrite M. reflexivity. Qed.
Lemma uuidIs_inj : forall uuid salt sn u u', uuidIs uuid salt sn u -> uuidIs uuid salt sn u' -> u = u'.
Proof. intros uuid salt sn u u' [A|(A & st & B & C)] [A'|(A' & st' & B' & C')]; congruence. Qed.
Lemma makeUUID_ok : forall stretch sn, (forall p, octets (stretch p) /\ len (stretch p) = 32) -> sn <= MaxON -> exists u, makeUUID stretch sn = Ok u /\ nonceText u.
Proof.
  intros stretch sn H L. unfold makeUUID. apply N.leb_le in L. rewrite N.ltb_antisym, L. cbn [negb]. destruct (H (hexstr sn)) as [O8 Z]. set (raw := stretch (hexstr sn)) in *. clearbody raw.
  assert (M : matter_of_raw raw (s2b "a") [] None = Ok (mkMatter (s2b "a") [] raw)).
  { eapply fixed_raw; [vm_compute; reflexivity|reflexivity|reflexivity|rewrite Z; reflexivity|discriminate]. }
  rewrite M. cbn [bind]. assert (B : built (mkMatter (s2b "a") [] raw)) by (eapply built_raw; [exact O8|exact M]).
  destruct (c01_text_round_trip _ [] B) as (q & Q & _ & R & _). rewrite Q. exists q. split; [reflexivity|]. right. split.
  - apply b64_Reb64. destruct (built_facts _ B) as (sz & F). pose proof (infil_text _ _ F) as Q'. rewrite Q in Q'. apply ok_inj in Q'. subst q. exact (text_b64 _ _ F).
  - exists (mkMatter (s2b "a") [] raw). rewrite app_nil_r in R. split; [exact R|]. split; [exact Q|]. right. left. reflexivity.
Qed.
Lemma makeUUID_sn : forall stretch sn u, makeUUID stretch sn = Ok u -> sn <= MaxON.
Proof. intros stretch sn u H. unfold makeUUID in H. apply raise_if_ok in H. destruct H as [H _]. apply N.ltb_ge in H. exact H. Qed.
Lemma uuid_octets : forall uuid salt sn u, uuidOk uuid -> saltOk salt -> uuidIs uuid salt sn u -> octets u.
Proof.
  intros uuid salt sn u U S [-> |(-> & st & E & M)]; [exact U|]. destruct (makeUUID_ok st sn (S st E) (makeUUID_sn _ _ _ M)) as (u' & M' & N'). rewrite M in M'. apply ok_inj in M'. subst u'. exact (nonce_octets _ N').
Qed.
Lemma unblind_sound : forall said uuid salt sn acdc states bounds b, uuidOk uuid -> saltOk salt -> inputsOk acdc states bounds ->
  unblind digest said uuid salt sn acdc states bounds = Ok (Some b) ->
  saidOfSt b = Ok said /\ exists u td ts bd, uuidIs uuid salt sn u /\ candidate acdc states bounds td ts bd /\ blinderOf digest u td ts bd = Ok b.
Proof.
  intros said uuid salt sn acdc states bounds b U S I H. destruct (unblind_uuid _ _ _ _ _ _ _ _ H) as (u & UI & H').
  destruct (search_some said u _ b (uuid_octets _ _ _ _ U S UI) (cands_ok _ _ _ I) H') as (E & td & ts & bd & C & B). split; [exact E|].
  exists u, td, ts, bd. split; [exact UI|]. split; [apply cands_In; exact C|exact B].
Qed.
Lemma unblind_none : forall said uuid salt sn acdc states bounds, uuidOk uuid -> saltOk salt -> inputsOk acdc states bounds ->
  unblind digest said uuid salt sn acdc states bounds = Ok None ->
  forall u td ts bd b, uuidIs uuid salt sn u -> candidate acdc states bounds td ts bd -> blinderOf digest u td ts bd = Ok b -> saidOfSt b <> Ok said.
Proof.
  intros said uuid salt sn acdc states bounds U S I H u td ts bd b UI C B. rewrite (uuid_unblind _ _ _ _ _ _ _ _ UI) in H.
  eapply search_none; [exact (uuid_octets _ _ _ _ U S UI)|exact (cands_ok _ _ _ I)|exact H|apply cands_In; exact C|exact B].
Qed.
Lemma unblind_total : forall said uuid salt sn acdc states bounds u, uuidIs uuid salt sn u -> nonceText u -> nonceText acdc -> Forall stateText states -> boundsGood bounds ->
  exists r, unblind digest said uuid salt sn acdc states bounds = Ok r.
Proof.
  intros said uuid salt sn acdc states bounds u UI U A S B. rewrite (uuid_unblind _ _ _ _ _ _ _ _ UI). apply search_total.
  - intros td ts bd I. apply cands_In in I. destruct I as (T & S' & B'). apply blinder_total.
    + exact U.
    + destruct T as [-> | ->]; [exact A|left; reflexivity].
    + destruct S' as [S'| ->]; [rewrite Forall_forall in S; auto|split; [constructor|vm_compute; discriminate]].
    + destruct bounds as [l|]; destruct bd as [[n b]|]; try contradiction; [|exact Logic.I]. cbn [boundOk]. destruct B' as [B'|B'].
      * cbn [boundsGood] in B. rewrite Forall_forall in B. exact (B _ B').
      * apply pair_equal_spec in B'. destruct B' as [-> ->]. split; [reflexivity|left; reflexivity].
  - exact (nonce_octets _ U).
  - apply cands_ok. split; [exact (nonce_octets _ A)|]. split; [eapply Forall_impl; [|exact S]; intros x X; exact (proj1 X)|].
    destruct bounds as [l|]; [|exact Logic.I]. cbn [boundsGood] in B. eapply Forall_impl; [|exact B]. intros p P. exact (nonce_octets _ (proj2 P)).
Qed.
(** what was blinded is found again by anyone who has the uuid or the salt and a list of candidates with its values *)
Lemma unblind_complete : forall said uuid salt sn acdc states bounds u td ts bd b, uuidIs uuid salt sn u -> nonceText u -> nonceText acdc -> Forall stateText states -> boundsGood bounds ->
  candidate acdc states bounds td ts bd -> blinderOf digest u td ts bd = Ok b -> saidOfSt b = Ok said ->
  unblind digest said uuid salt sn acdc states bounds = Ok (Some b) \/ collision digest.
Proof.
  intros said uuid salt sn acdc states bounds u td ts bd b UI U A S B C BO E.
  destruct (unblind_total said uuid salt sn acdc states bounds u UI U A S B) as (r & R).
  assert (IO : inputsOk acdc states bounds).
  { split; [exact (nonce_octets _ A)|]. split; [eapply Forall_impl; [|exact S]; intros x X; exact (proj1 X)|].
    destruct bounds as [l|]; [|exact Logic.I]. cbn [boundsGood] in B. eapply Forall_impl; [|exact B]. intros p P. exact (nonce_octets _ (proj2 P)). }
  pose proof (cands_ok _ _ _ IO) as CO. pose proof (nonce_octets _ U) as UO. rewrite (uuid_unblind _ _ _ _ _ _ _ _ UI) in R |- *.
  unfold candOk in CO. pose proof CO as CO'. rewrite Forall_forall in CO'.
  destruct r as [b'|].
  - destruct (search_some said u _ b' UO CO R) as (E' & a' & s' & bd' & I' & B'). destruct (CO' _ I') as (O1 & O2 & O3). cbn [fst snd] in *.
    assert (IC : In (td, ts, bd) (candsOf acdc states bounds)) by (apply cands_In; exact C). destruct (CO' _ IC) as (P1 & P2 & P3). cbn [fst snd] in *.
    destruct (binding digest DOK Blinder b' b eq_refl) as [-> |X].
    + exact (blinder_obtained _ _ _ _ _ UO O1 O2 O3 B').
    + exact (blinder_obtained _ _ _ _ _ UO P1 P2 P3 BO).
    + rewrite E'. symmetry. exact E.
    + left. exact R.
    + right. exact X.
  - exfalso. apply (search_none said u _ UO CO R td ts bd b); [apply cands_In; exact C|exact BO|exact E].
Qed.
End Digest.
