(** Native messages that are made are read back; the binary form; reading ends. *)
From Verif Require Import Prelude B64Model B64Proofs MatterModel MatterProofs MatterInv MatterSpec MatterThms SubsModel SubsProofs SubsThms CtrModel CtrProofs CtrThms ThModel VerModel VerThms JsonModel JsonProofs SerModel SerSpec SerProofs SerInv PsProofs NmModel NmSpec NmProofs NmProofs2 NmProofs3 NmProofs4 NkModel NkSpec NkProofs NkProofs2 NkProofs3 NkProofs4.
Open Scope N_scope.
Ltac Zify.zify_post_hook ::= Z.div_mod_to_equations.
Notation val := JsonModel.val.
Notation versionage := VerModel.versionage.
Notation inhaleNative := NkModel.inhaleNative.

(** ** Reading a message that was written *)
Lemma inhaleText_parts : forall aloads raw ilk fs vt it b sd, parts raw ilk fs vt it b -> nativeLoads (2, 0) G2 raw = Ok sd -> In (s2b "v") (keysOf sd) ->
  forall c, (forall t, cexfil V20 (raw ++ t) = Ok c) -> inhaleText aloads c raw = Ok (mkSerder raw sd (s2b "KERI") (2, 0) G2 KindCesr (len raw)).
Proof.
  intros aloads raw ilk fs vt it b sd [P1 P2 P3 P4 P5] L V c C. destruct (fix_head _ _ P5) as (_ & h & c' & E & _ & _ & _ & _ & C' & (sz & S1 & S2) & _ & CO).
  specialize (C []). specialize (C' []). rewrite C in C'. apply ok_inj in C'. subst c'. unfold inhaleText. rewrite S1. cbn [bind]. rewrite CO. cbn [bind]. rewrite S2. rewrite E at 1. rewrite ndrop_len_app.
  destruct (verser_reads (s2b "KERI") (2, 0) G2 vt eq_refl P2) as (vm & _ & R & VE & _). rewrite (rd_read _ _ _ R). cbn [bind]. rewrite VE. cbn [bind]. unfold cloads. change (beq (s2b "KERI") (s2b "KERI")) with true. cbv iota. rewrite L. cbn [bind].
  rewrite (memB_true _ _ V). reflexivity.
Qed.
Lemma inhale_parts : forall aloads raw ilk fs vt it b sd, parts raw ilk fs vt it b -> nativeLoads (2, 0) G2 raw = Ok sd -> In (s2b "v") (keysOf sd) ->
  forall strip tail, inhaleNative aloads strip (raw ++ tail) = Ok (mkSerder raw sd (s2b "KERI") (2, 0) G2 KindCesr (len raw), if strip then tail else raw ++ tail).
Proof.
  intros aloads raw ilk fs vt it b sd P L V strip tail. pose proof (pa_raw _ _ _ _ _ _ P) as P5. destruct (fix_head _ _ P5) as (_ & h & c & E & _ & _ & (r & HR) & BC & C & (sz & S1 & S2) & _ & CO).
  unfold inhaleNative. assert (SN : sniff (raw ++ tail) = Ok Ctxt) by (rewrite E, HR; reflexivity). rewrite SN. cbn [bind]. rewrite C. cbn [bind]. rewrite S1. cbn [bind]. cbv zeta.
  assert (N : byteCount_txt c + cfs sz = len raw) by (rewrite BC, S2, E; set (z := vt ++ it ++ b); rewrite len_app; lia). rewrite N, ntake_len_app, ndrop_len_app.
  assert (LT : (len (raw ++ tail) <? len raw) = false) by (apply N.ltb_ge; rewrite len_app; lia). rewrite LT. rewrite (inhaleText_parts aloads _ _ _ _ _ _ _ P L V c C). reflexivity.
Qed.

(** ** Made messages *)
Lemma dset_v : forall x (vs : val) y t fs, dset x (s2b "v") vs = (s2b "v", y) :: (s2b "t", t) :: fs -> ~ In (s2b "v") (keysOf fs) -> y = vs /\ exists z, x = (s2b "v", z) :: (s2b "t", t) :: fs.
Proof.
  intros x vs y t fs H N. destruct x as [|[k z] x]; [discriminate H|]. cbn [dset] in H. destruct (beq_spec (s2b "v") k) as [<-|Nk].
  - injection H as -> <-. split; [reflexivity|eauto].
  - exfalso. apply Nk. injection H as Hk _. symmetry. exact Hk.
Qed.
Section Made.
Variable digest : bytes -> bytes -> bytes.
Variable odumps : bytes -> sad -> res bytes.
Variable adumps : versionage -> option versionage -> sad -> res bytes.
Variable aloads : versionage -> option versionage -> bytes -> res sad.
Notation cd_ := (cdumps adumps).
Record made (k : klass) (s : serder) : Prop := {
  ma_verify : verify digest odumps cd_ k s = Ok tt;
  ma_sad : exists x vs, d_sad s = dset x (s2b "v") (VStr vs) /\ nativeDumps (d_pvrsn s) (d_gvrsn s) x = Ok (d_raw s) /\ versify (s2b "KERI") (d_pvrsn s) KindCesr (len (d_raw s)) (d_gvrsn s) = Ok vs;
  ma_proto : d_proto s = s2b "KERI"; ma_kind : d_kind s = KindCesr; ma_size : d_size s = len (d_raw s) }.
Lemma ofSad_made : forall k sd s, serderOfSad digest odumps cd_ k sd = Ok s -> d_proto s = s2b "KERI" -> d_kind s = KindCesr -> made k s.
Proof.
  intros k sd s H P K. unfold serderOfSad in H. apply bind_ok in H. destruct H as (s' & E & H). destruct (verify digest odumps cd_ k s') as [[]|] eqn:V; [|discriminate]. apply ok_inj in H. subst s'.
  unfold SerModel.exhale in E. destruct (dget sd (s2b "v")) as [[ | | |v| | ]|]; try discriminate. apply bind_ok in E. destruct E as (sm & _ & E). cbv zeta in E. apply bind_ok in E. destruct E as (raw & R & E).
  destruct (beq (s_kind sm) KindCesr) eqn:KB.
  - apply bind_ok in E. destruct E as (vs & VS & E). apply ok_inj in E. subst s. cbn [d_proto d_kind] in *. constructor; [exact V| |exact P|exact K|reflexivity]. cbn [d_sad d_raw d_pvrsn d_gvrsn].
    exists sd, vs. split; [reflexivity|]. split; [|rewrite <- P, <- K; exact VS]. unfold SerModel.dumps in R. cbn [d_kind d_proto d_pvrsn d_gvrsn] in R. rewrite K, P in R. exact R.
  - apply ok_inj in E. subst s. cbn [d_kind] in K. rewrite K in KB. discriminate.
Qed.
Lemma make_made : forall k args sd s, serderMake digest odumps cd_ k args sd = Ok s -> d_proto s = s2b "KERI" -> d_kind s = KindCesr -> made k s.
Proof.
  intros k args sd s H P K. unfold serderMake in H. apply bind_ok in H. destruct H as (s' & E & H). destruct (verify digest odumps cd_ k s') as [[]|] eqn:V; [|discriminate]. apply ok_inj in H. subst s'.
  unfold makify in E. apply bind_ok in E. destruct E as ([s0 cds] & _ & E). apply bind_ok in E. destruct E as ([[sd' raw] size] & C & E). apply ok_inj in E. subst s. cbn [d_proto d_kind] in *.
  unfold compute in C. rewrite K in C. change (beq KindCesr KindCesr) with true in C. cbn [negb] in C. cbv iota in C. apply bind_ok in C. destruct C as (D & _ & C). apply bind_ok in C. destruct C as (sd2 & _ & C).
  apply bind_ok in C. destruct C as (raw' & R & C). apply bind_ok in C. destruct C as (vs & VS & C). apply ok_inj in C. apply pair_equal_spec in C. destruct C as [C <-]. apply pair_equal_spec in C. destruct C as [<- <-].
  constructor; [exact V| |exact P|exact K|reflexivity]. cbn [d_sad d_raw d_pvrsn d_gvrsn]. exists sd2, vs. split; [reflexivity|]. split; [|rewrite P in VS; exact VS].
  unfold SerModel.dumps in R. rewrite K, P in R. exact R.
Qed.
Lemma made_versions : forall k s, made k s -> d_pvrsn s = (2, 0) /\ d_gvrsn s = G2.
Proof.
  intros k s [V (x & vs & ES & DU & VS) P K SZ]. apply verify_base in V. unfold verifyBase in V. apply bind_ok in V. destruct V as ([sd0 cds] & VA & V). unfold validate in VA.
  apply raise_if_ok in VA. destruct VA as [_ VA]. apply raise_if_ok in VA. destruct VA as [_ VA]. apply raise_if_ok in VA. destruct VA as [GM VA]. apply raise_if_ok in VA. destruct VA as [PM VA].
  rewrite K in PM. change (beq KindCesr KindCesr) with true in PM. cbn [andb] in PM. rewrite P in VA. destruct (Fields (s2b "KERI") (d_pvrsn s)) as [tbl|] eqn:FT; [|discriminate]. clear VA.
  assert (EP : d_pvrsn s = (2, 0)).
  { unfold Fields in FT. change (beq (s2b "KERI") (s2b "KERI")) with true in FT. cbv iota zeta in FT. destruct (d_pvrsn s) as [a c]. cbn [fst snd] in *.
    destruct ((a =? 1) && (c =? 0)) eqn:E1; [apply andb_true_iff in E1; destruct E1 as [E1 _]; apply N.eqb_eq in E1; subst a; discriminate|].
    destruct ((a =? 2) && (c =? 0)) eqn:E2; [|discriminate]. apply andb_true_iff in E2. destruct E2 as [E2 E3]. apply N.eqb_eq in E2, E3. subst. reflexivity. }
  split; [exact EP|].
  apply bind_ok in V. destruct V as ([[sdv raw] size] & C & V). apply raise_if_ok in V. destruct V as [_ V]. unfold compute in C. rewrite K in C. change (beq KindCesr KindCesr) with true in C. cbn [negb] in C. cbv iota in C.
  apply bind_ok in C. destruct C as (D & _ & C). apply bind_ok in C. destruct C as (sd2 & _ & C). apply bind_ok in C. destruct C as (raw' & _ & C). apply bind_ok in C. destruct C as (vs' & VS' & C). apply ok_inj in C.
  apply pair_equal_spec in C. destruct C as [C _]. apply pair_equal_spec in C. destruct C as [<- _]. rewrite dget_dset, beq_refl in V. apply bind_ok in V. destruct V as (sm & DV & V).
  do 4 (apply raise_if_ok in V; destruct V as [_ V]). apply raise_if_ok in V. destruct V as [G _]. apply negb_false_iff, oveq_eq in G. destruct (c09_never_misread _ _ _ _ _ _ _ VS' DV) as (_ & _ & _ & _ & M5). rewrite EP in M5. change (fst (2, 0) <? 2) with false in M5. cbv iota in M5. rewrite M5 in G.
  destruct (d_gvrsn s) as [[a c]|]; [|discriminate]. unfold nativeDumps in DU. apply bind_ok in DU. destruct DU as (ilk & _ & DU). apply bind_ok in DU. destruct DU as (bdy & _ & DU). unfold enclose in DU. apply raise_if_ok in DU. destruct DU as [_ DU].
  apply bind_ok in DU. destruct DU as (ct & CT & _). unfold counter_of in CT. apply bind_ok in CT. destruct CT as ([co si] & T & _). cbn [ctrV] in T. unfold ctables in T. cbn [vmajor vminor] in T. cbn [fst] in GM.
  destruct (a =? 1) eqn:E1; [apply N.eqb_eq in E1; subst a; discriminate|]. destruct (a =? 2) eqn:E2; [|discriminate]. apply raise_if_ok in T. destruct T as [T _]. apply N.eqb_eq in E2. apply N.ltb_ge in T.
  assert (c = 0) by lia. subst. reflexivity.
Qed.
Lemma made_read : forall k s, made k s -> wellFormed (d_sad s) ->
  (exists ilk fs vt it b, parts (d_raw s) ilk fs vt it b) /\ nativeDumps (2, 0) G2 (d_sad s) = Ok (d_raw s) /\ nativeLoads (2, 0) G2 (d_raw s) = Ok (d_sad s) /\ b64text (d_raw s) /\ len (d_raw s) mod 4 = 0 /\ In (s2b "v") (keysOf (d_sad s)) /\
  s = mkSerder (d_raw s) (d_sad s) (s2b "KERI") (2, 0) G2 KindCesr (len (d_raw s)).
Proof.
  intros k s M W. destruct (made_versions _ _ M) as [EP EG]. destruct M as [V (x & vs & ES & DU & VS) P K SZ]. rewrite EP, EG in DU, VS.
  destruct (wellFormed_shape _ W) as (y & ilk & fs & fd & ls & E & L & KF & F). rewrite ES in E. pose proof E as E0. apply dset_v in E; [|rewrite KF; exact (la_v _ _ _ L)]. destruct E as [-> (z & EX)]. rewrite EX in DU.
  destruct (dumps_parts _ _ _ _ DU) as (ilk' & vt & it & b & E & (fd' & FF) & PA). injection E as <-. assert (DS : nativeDumps (2, 0) G2 (d_sad s) = Ok (d_raw s)) by (rewrite ES, E0; eapply parts_dumps; eassumption).
  destruct (native_read _ _ _ W DS VS) as (R & T & F4). rewrite ES, E0 in R. change (dset ((s2b "v", VStr vs) :: (s2b "t", VStr ilk) :: fs) (s2b "v") (VStr vs)) with ((s2b "v", VStr vs) :: (s2b "t", VStr ilk) :: fs) in R. rewrite <- E0, <- ES in R.
  split; [exists ilk, fs, vt, it, b; exact PA|]. split; [exact DS|]. split; [exact R|]. split; [exact T|]. split; [exact F4|]. split; [rewrite ES, E0; left; reflexivity|].
  destruct s as [x1 x2 x3 x4 x5 x6 x7]. cbn [d_proto d_kind d_pvrsn d_gvrsn d_size d_raw d_sad] in *. congruence.
Qed.
Lemma made_round_trip : forall k s, made k s -> wellFormed (d_sad s) -> forall strip tail,
  nativeOfRaw digest odumps adumps aloads k strip (d_raw s ++ tail) = Ok (s, if strip then tail else d_raw s ++ tail).
Proof.
  intros k s M W strip tail. destruct (made_read _ _ M W) as ((ilk & fs & vt & it & b & P) & _ & R & _ & _ & IV & E). unfold nativeOfRaw. rewrite (inhale_parts aloads _ _ _ _ _ _ _ P R IV). cbn [bind]. rewrite <- E. rewrite (ma_verify _ _ M). reflexivity.
Qed.

(** ** The binary form of a message alone *)
Lemma made_binary : forall k s, made k s -> wellFormed (d_sad s) -> exists q, decodeB64 (d_raw s) = Ok q /\ octets q /\ encodeB64 q = d_raw s /\ 4 * len q = 3 * len (d_raw s) /\
  nativeOfRaw digest odumps adumps aloads k false q = Ok (s, q).
Proof.
  intros k s M W. destruct (made_read _ _ M W) as ((ilk & fs & vt & it & b & P) & _ & R & T & F & IV & E). pose proof (pa_raw _ _ _ _ _ _ P) as P5.
  destruct (four_nat _ F) as (n & K). destruct (decode_text n _ T K) as (q & D & O8 & LB & EQ & _). exists q. split; [exact D|]. split; [exact O8|]. split; [exact EQ|]. split; [unfold len; lia|].
  destruct (fix_head2 _ _ P5) as (F4 & h & c & Eq & H1 & H2 & _ & H4 & HC & (sz & HS1 & HS2) & _ & CC & CO & CI).
  set (bdy := vt ++ it ++ b) in *. set (raw := d_raw s) in *.
  destruct (c39_binary_round_trip _ _ _ _ CO) as (h' & hb & I1 & I2 & I3 & I4 & I5 & I6). rewrite CI in I1. apply ok_inj in I1. subst h'.
  assert (TB : b64text bdy) by (rewrite Eq in T; apply b64text_app in T; tauto).
  destruct (four_nat bdy F4) as (k2 & K2). destruct (decode_text k2 bdy TB K2) as (bb & D2 & O2 & LB2 & E2 & _).
  destruct (four_nat h H2) as (k1 & K1). destruct (decode_text k1 h H1 K1) as (hb' & D1 & O1 & LB1 & E1 & _). rewrite I4 in D1. apply ok_inj in D1. subst hb'.
  assert (EB : q = hb ++ bb).
  { assert (X : encodeB64 (hb ++ bb) = raw) by (rewrite (encodeB64_app3 k1), E1, E2 by exact LB1; symmetry; exact Eq).
    assert (Y : decodeB64 (encodeB64 (hb ++ bb)) = Ok (hb ++ bb)) by (apply (decode_encode (k1 + k2)); [apply Forall_app; auto|rewrite app_length; lia]).
    rewrite X, D in Y. apply ok_inj in Y. exact Y. }
  specialize (I6 bb). unfold counter_bstrip in I6. rewrite <- EB in I6. apply bind_ok in I6. destruct I6 as (c' & C1 & I6). apply bind_ok in I6. destruct I6 as (sz' & C2 & I6). apply ok_inj in I6. injection I6 as -> _.
  unfold nativeOfRaw, inhaleNative. rewrite (sniff_bin _ _ _ O8 C1). cbn [bind]. rewrite C1. cbn [bind]. rewrite HS1. cbn [bind]. cbv zeta.
  assert (LL : byteCount_bny c + cfs sz * 3 / 4 = len q).
  { unfold byteCount_bny, byteCount_txt in *. rewrite HS2, EB, len_app. unfold len in *. lia. }
  rewrite LL, N.ltb_irrefl. rewrite EQ. rewrite (inhaleText_parts aloads _ _ _ _ _ _ _ P R IV c HC). cbn [bind]. rewrite <- E. rewrite (ma_verify _ _ M). reflexivity.
Qed.
End Made.

(** ** Reading ends *)
Lemma readAll_nov : forall A (f : bytes -> res (A * bytes)), (forall s, nov (f s)) -> (forall s a r, f s = Ok (a, r) -> (List.length r < List.length s)%nat) -> forall n s, (List.length s <= n)%nat -> nov (readAll f n s).
Proof.
  intros A f N S. induction n as [|n IH]; intros s L; destruct s as [|x s]; try apply nov_ok; [cbn in L; lia|]. cbn [readAll]. apply nov_bind; [apply N|]. intros [a r] E. apply S in E. apply nov_bind; [apply IH; lia|]. intros. apply nov_ok.
Qed.
Lemma readFrame_nov : forall A (f : bytes -> res (A * bytes)), (forall s, nov (f s)) -> (forall s a r, f s = Ok (a, r) -> (List.length r < List.length s)%nat) -> forall s, nov (readFrame f s).
Proof. intros A f N S s. apply readAll_nov; auto. Qed.
Lemma mapr_nov : forall A B (f : A -> res B), (forall x, nov (f x)) -> forall l, nov (mapr f l).
Proof. intros A B f N l. induction l as [|x l IH]; cbn [mapr]; [apply nov_ok|]. apply nov_bind; [apply N|]. intros. apply nov_bind; [exact IH|]. intros. apply nov_ok. Qed.
Lemma bytes_to_nov : forall raw c soft rize, nov (matter_of_raw raw c soft rize).
Proof. intros raw c soft rize. unfold matter_of_raw, varCode, rawSize. novs. Qed.
Lemma weight_nov : forall w, nov (weight w).
Proof. intros w. unfold weight. novs. Qed.
Lemma number_nov : forall n o, nov (number_of_num n o).
Proof. intros n o. unfold number_of_num, numCode. novs; try apply bytes_to_nov. Qed.
Lemma bexter_nov : forall b p, nov (bexter_of_bext b p).
Proof. intros b p. unfold bexter_of_bext, rawify. novs; first [apply bytes_to_nov|apply decodeB64_nov|idtac]. Qed.
Lemma limenElem_nov : forall e, nov (limenElem e).
Proof. intros e. unfold limenElem. novs; first [apply weight_nov|apply mapr_nov; apply weight_nov|idtac]. Qed.
Lemma processLimen_nov : forall s, nov (processLimen s).
Proof.
  intros s. unfold processLimen, processUnweighted, processWeighted, bext. novs; first [apply exfil_nov|apply bytes_to_nov|apply derawify_nov|apply number_nov|apply bexter_nov|apply mapr_nov; intros; apply mapr_nov; apply limenElem_nov|idtac].
Qed.
Lemma stripTag_nov : forall s, nov (stripTag s).
Proof. intros s. unfold stripTag. novs; first [apply matter_strip_nov|idtac]. Qed.
Lemma verserStrip_nov : forall s, nov (verserStrip s).
Proof. intros s. unfold verserStrip, isVerser. novs; first [apply stripTag_nov|idtac]. Qed.
Lemma stripDex_nov : forall dex s, nov (stripDex dex s).
Proof. intros dex s. unfold stripDex. novs; first [apply matter_strip_nov|apply infil_nov]. Qed.
Lemma numberStrip_nov : forall s, nov (numberStrip s).
Proof. intros s. unfold numberStrip. novs; apply matter_strip_nov. Qed.
Lemma castStrip_nov : forall t s, nov (castStrip t s).
Proof. intros t s. unfold castStrip. destruct t; novs; first [apply stripDex_nov|apply numberStrip_nov|apply verserStrip_nov|apply infil_nov]. Qed.
Lemma sealStrip_nov : forall c s, nov (sealStrip c s).
Proof. induction c as [|[l t] c IH]; intros s; cbn [sealStrip]; [apply nov_ok|]. novs; first [apply castStrip_nov|apply IH]. Qed.

Lemma cstrip_shorterV : forall v s c r, counter_strip v s = Ok (c, r) -> (List.length r < List.length s)%nat.
Proof.
  intros v s c r H. unfold counter_strip in H. apply bind_ok in H. destruct H as (c' & X & H). apply bind_ok in H. destruct H as (sz & F & H). apply ok_inj in H. injection H as -> <-.
  destruct (cexfil_inv _ _ _ X) as (codes & sizes & sz' & K & _ & _ & L). rewrite (csize_ok _ _ _ _ K) in F. apply ok_inj in F. subst sz'.
  pose proof (csizes_wf _ _ _ _ _ (co_tab _ _ _ _ K) (co_sz _ _ _ _ K)) as W. pose proof (cw_hs _ _ _ W). pose proof (cw_fs _ _ _ W). unfold ndrop. rewrite skipn_length. unfold len in L. lia.
Qed.
Lemma stripTag_shorter : forall s m r, stripTag s = Ok (m, r) -> (List.length r < List.length s)%nat.
Proof.
  intros s m r H. unfold stripTag in H. apply bind_ok in H. destruct H as ([m' r'] & S & H). apply strip_shorter in S. apply raise_if_ok in H. destruct H as [_ H]. apply ok_inj in H. injection H as _ <-. exact S.
Qed.
Lemma castStrip_shorter : forall t s q r, castStrip t s = Ok (q, r) -> (List.length r < List.length s)%nat.
Proof.
  intros t s q r H. unfold castStrip in H. destruct t.
  - unfold stripDex in H. apply bind_ok in H. destruct H as ([m' r'] & S & H). apply strip_shorter in S. apply raise_if_ok in H. destruct H as [_ H]. apply bind_ok in H. destruct H as (q' & _ & H). apply ok_inj in H. injection H as _ <-. exact S.
  - unfold numberStrip in H. apply bind_ok in H. destruct H as ([m' r'] & S & H). apply strip_shorter in S. apply raise_if_ok in H. destruct H as [_ H]. apply ok_inj in H. injection H as _ <-. exact S.
  - unfold stripDex in H. apply bind_ok in H. destruct H as ([m' r'] & S & H). apply strip_shorter in S. apply raise_if_ok in H. destruct H as [_ H]. apply bind_ok in H. destruct H as (q' & _ & H). apply ok_inj in H. injection H as _ <-. exact S.
  - apply bind_ok in H. destruct H as ([m' r'] & V & H). apply bind_ok in H. destruct H as (q' & _ & H). apply ok_inj in H. injection H as _ <-. unfold verserStrip in V. apply bind_ok in V. destruct V as ([m2 r2] & S & V). apply stripTag_shorter in S.
    apply bind_ok in V. destruct V as (m3 & _ & V). apply ok_inj in V. injection V as _ <-. exact S.
Qed.
Lemma sealStrip_shorter : forall c s m r, sealStrip c s = Ok (m, r) -> (List.length r <= List.length s)%nat /\ (c <> [] -> List.length r < List.length s)%nat.
Proof.
  induction c as [|[l t] c IH]; intros s m r H; cbn [sealStrip] in H; [apply ok_inj in H; injection H as _ <-; split; [lia|congruence]|].
  apply bind_ok in H. destruct H as ([q r1] & C & H). apply castStrip_shorter in C. apply bind_ok in H. destruct H as ([m' r2] & S & H). destruct (IH _ _ _ S) as [L _]. apply ok_inj in H. injection H as _ <-. split; [lia|intros _; lia].
Qed.
Lemma groupStrip_nov : forall v s, nov (groupStrip v s).
Proof.
  intros v s. unfold groupStrip. apply nov_bind; [apply counter_strip_nov|]. intros [c r] _. destruct (dget Seals (c_code c)) as [cast|] eqn:D; [|discriminate]. apply nov_bind; [|intros; apply nov_ok]. apply readFrame_nov; [apply sealStrip_nov|].
  intros s' a r' S. apply (sealStrip_shorter _ _ _ _ S). apply dget_In in D. cbn [Seals In] in D. repeat (destruct D as [E|D]; [injection E as _ <-; discriminate|]). contradiction.
Qed.
Lemma groupStrip_shorter : forall v s l r, groupStrip v s = Ok (l, r) -> (List.length r < List.length s)%nat.
Proof.
  intros v s l r H. unfold groupStrip in H. apply bind_ok in H. destruct H as ([c r1] & C & H). apply cstrip_shorterV in C. destruct (dget Seals (c_code c)); [|discriminate]. apply bind_ok in H. destruct H as (x & _ & H). apply ok_inj in H. injection H as _ <-.
  unfold ndrop. rewrite skipn_length. lia.
Qed.
Lemma listFrame_nov : forall v s, nov (listFrame v s).
Proof. intros v s. unfold listFrame. novs. apply counter_strip_nov. Qed.
Lemma mapperStrip_nov : forall s, nov (mapperStrip s).
Proof. intros s. unfold mapperStrip. destruct s; [apply nov_ok|]. novs; first [apply cexfil_nov|apply csize_nov|apply read_nov]. Qed.
Lemma versify_nov : forall a b c d e, nov (versify a b c d e).
Proof. intros a b c d e. unfold versify. novs. Qed.
Lemma loadField_nov : forall p g size ilk l s, nov (loadField p g size ilk l s).
Proof.
  intros p g size ilk l s. unfold loadField. cbv zeta. destruct (dget fkinds l) as [k|]; [|discriminate]. destruct k.
  - novs. apply versify_nov.
  - apply nov_ok.
  - novs. apply stripDex_nov.
  - novs. apply stripDex_nov.
  - novs. apply stripDex_nov.
  - novs. apply numberStrip_nov.
  - unfold tholderStrip. novs; first [apply matter_strip_nov|apply processLimen_nov].
  - apply nov_bind; [apply listFrame_nov|]. intros [f r] _. apply nov_bind; [|intros; apply nov_ok]. apply readFrame_nov; [intros; novs; first [apply matter_strip_nov|apply infil_nov]|].
    intros s' a r' H. apply bind_ok in H. destruct H as ([m r2] & S & H). apply strip_shorter in S. apply bind_ok in H. destruct H as (q & _ & H). apply ok_inj in H. injection H as _ <-. exact S.
  - unfold daterStrip. novs; first [apply matter_strip_nov|apply infil_nov].
  - unfold patherStrip, pathOf, decode. novs; first [apply matter_strip_nov|apply derawify_nov].
  - apply nov_bind; [apply listFrame_nov|]. intros [f r] _. apply nov_bind; [|intros; apply nov_ok]. apply readFrame_nov; [intros; unfold traitorStrip; novs; apply stripTag_nov|].
    intros s' a r' H. apply bind_ok in H. destruct H as ([m r2] & S & H). apply ok_inj in H. injection H as _ <-. unfold traitorStrip in S. apply bind_ok in S. destruct S as ([m3 r3] & S & H). apply stripTag_shorter in S. apply raise_if_ok in H. destruct H as [_ H].
    apply ok_inj in H. injection H as _ <-. exact S.
  - apply nov_bind; [apply cexfil_nov|]. intros c _. apply nov_if; [novs; apply mapperStrip_nov|]. apply nov_if; [|discriminate]. apply nov_if; [discriminate|]. apply nov_bind; [apply listFrame_nov|]. intros [f r] _. apply nov_bind; [|intros; apply nov_ok].
    apply readFrame_nov; [apply groupStrip_nov|]. intros s' a r'. apply groupStrip_shorter.
  - novs. apply mapperStrip_nov.
Qed.
Lemma loads_nov : forall p g raw, nov (nativeLoads p g raw).
Proof.
  intros p g raw. unfold nativeLoads. apply nov_bind; [apply counter_strip_nov|]. intros [c r] _. apply nov_if; [discriminate|]. apply nov_if; [discriminate|]. apply nov_bind; [apply verserStrip_nov|]. intros [vm r1] _.
  apply nov_bind; [unfold versage, b64ToVer; novs; first [apply b64ToInt_nov|idtac]|]. intros va _. apply nov_bind; [unfold ilkerStrip, isIlker; novs; apply stripTag_nov|]. intros [ilk r2] _. apply nov_if; [discriminate|].
  apply nov_bind; [unfold fixedFields; novs|]. intros fd _. generalize (keysOf (f_alls fd)). intros ls. revert r2. induction ls as [|l ls IH]; intros s; cbn [loadFields]; [apply nov_ok|]. apply nov_bind; [apply loadField_nov|]. intros [v r3] _. apply nov_bind; [apply IH|]. intros. apply nov_ok.
Qed.
