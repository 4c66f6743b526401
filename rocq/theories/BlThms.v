From Verif Require Import Prelude B64Model B64Proofs MatterModel MatterProofs MatterInv MatterSpec MatterThms SubsModel SubsThms CtrModel CtrProofs CtrThms ThModel VerModel JsonModel SerModel SerSpec SerProofs SerThms NmModel NmProofs NkModel NkSpec NkProofs4 NkThms MzModel BlModel BlSpec BlProofs BlProofs2 BlProofs3 BlProofs4.
Open Scope N_scope.
Ltac Zify.zify_post_hook ::= Z.div_mod_to_equations.
Notation val := JsonModel.val.

Lemma c03_reread : forall s m, exfil s = Ok m -> exists q, infil m = Ok q /\ len q mod 4 = 0 /\ forall t, exfil (q ++ t) = Ok m.
Proof. intros s m H. destruct (exfil_rw _ _ H) as (q & [R1 R2 R3 R4]). exists q. auto. Qed.


Lemma c92_said_is_digest : forall digest, digest_ok digest -> forall f s, f = Blinder \/ f = Mediar -> obtained digest f s -> saidOver digest s.
Proof. intros digest DOK f s F. apply (said_over digest DOK). destruct F as [-> | ->]; reflexivity. Qed.
Lemma c92_layouts : forall digest, digest_ok digest -> forall f s, obtained digest f s ->
  ofFamily f (s_clan s) /\ Forall2 (fun codes m => In (m_code m) codes) (layout (s_clan s)) (s_data s).
Proof.
  intros digest DOK f s OB. apply (obtained_sound digest DOK) in OB. destruct OB as [C F _].
  split; [destruct f, (s_clan s); try discriminate; cbn; tauto|].
  set (codes := fun k => match k with KDiger => digestCodes | KPrefixer => prefixCodes | KNumber => numberCodes
    | KVerser => map s2b ["Y"; "0O"]%string | KNoncer => nonceCodes | KLabeler => labelCodes
    | KTexter => map s2b ["4B"; "5B"; "6B"; "7AAB"; "8AAB"; "9AAB"]%string | KDater => map s2b ["1AAG"]%string end).
  assert (K : forall k m, fit k m -> In (m_code m) (codes k)).
  { intros k m [X _]. destruct k; cbn [check] in X; unfold isVerser, inLabelDex in X; apply raise_if_ok in X; destruct X as [X Y];
      try (apply negb_false_iff in X; apply memB_In in X; exact X).
    - apply raise_if_ok in Y. destruct Y as [Y _]. apply negb_false_iff in Y. apply memB_In in Y. exact Y.
    - apply negb_false_iff in X. apply beq_eq in X. rewrite X. left. reflexivity. }
  assert (L : layout (s_clan s) = map codes (castOf (s_clan s))) by (destruct (s_clan s); reflexivity).
  rewrite L. clear - F K. induction F as [|k m ks ms X F IH]; cbn [map]; constructor; [exact (K k m X)|exact IH].
Qed.

Lemma c92_binding : forall digest, digest_ok digest -> forall f s1 s2, f = Blinder \/ f = Mediar -> obtained digest f s1 -> obtained digest f s2 ->
  saidOfSt s1 = saidOfSt s2 -> s1 = s2 \/ collision digest.
Proof. intros digest DOK f s1 s2 F. apply (binding digest DOK). destruct F as [-> | ->]; reflexivity. Qed.
Lemma obtained_crew : forall digest, digest_ok digest -> forall f c crew ms, hasClan f c = true -> saidive f = true -> Forall crewOk crew -> castAll (castOf c) crew = Ok ms -> ms <> [] ->
  exists ms', makify digest ms = Ok ms' /\ ofCrew digest f true c crew = Ok (mkSt c ms').
Proof.
  intros digest DOK f c crew ms HC SV CO C NE. destruct (makify_total digest DOK _ _ (castAll_fit _ _ _ CO C) NE) as (ms' & M). exists ms'. split; [exact M|].
  unfold ofCrew. rewrite HC, C. cbn [negb bind]. unfold settle. rewrite SV, M. reflexivity.
Qed.
Lemma c92_kinds_refuted : forall digest, digest_ok digest -> exists s1 s2, obtained digest Blinder s1 /\ obtained digest Mediar s2 /\
  s_data s1 = s_data s2 /\ saidOfSt s1 = saidOfSt s2 /\ s_clan s1 <> s_clan s2.
Proof.
  intros digest DOK. set (crew := [VStr []; VStr (s2b "0A" ++ repeat 65 22); VStr []; VStr (s2b "a b c")]).
  assert (CO : Forall crewOk crew) by (repeat constructor).
  assert (C : exists ms, castAll (castOf BlindState) crew = Ok ms /\ castAll (castOf TypeMedia) crew = Ok ms /\ ms <> []).
  { eexists. split; [vm_compute; reflexivity|]. split; [vm_compute; reflexivity|discriminate]. }
  destruct C as (ms & C1 & C2 & NE). destruct (obtained_crew digest DOK Blinder BlindState crew ms eq_refl eq_refl CO C1 NE) as (m1 & M1 & O1). destruct (obtained_crew digest DOK Mediar TypeMedia crew ms eq_refl eq_refl CO C2 NE) as (m2 & M2 & O2).
  rewrite M1 in M2. apply ok_inj in M2. subst m2. exists (mkSt BlindState m1), (mkSt TypeMedia m1). split; [eapply ob_crew; [exact CO|exact O1]|]. split; [eapply ob_crew; [exact CO|exact O2]|].
  split; [reflexivity|]. split; [reflexivity|discriminate].
Qed.
Definition uu : bytes := s2b "a" ++ repeat 65 43.
Definition blCrew (st : string) : list val := [VStr []; VStr uu; VStr (dg "A"); VStr (s2b st)].
Definition blAt (st : string) : res structor := ofCrew toyDigest Blinder true BlindState (blCrew st).


Lemma c93_blinds : forall digest, digest_ok digest -> forall stretch sn acdc state bd, saltOk (Some stretch) -> sn <= MaxON -> nonceText acdc -> stateText state -> boundOk bd ->
  exists b, blind digest stretch sn acdc state bd = Ok b.
Proof.
  intros digest DOK stretch sn acdc state bd S L A T B. destruct (makeUUID_ok stretch sn (S _ eq_refl) L) as (u & U & NU). unfold blind. rewrite U. cbn [bind]. exact (blinder_total digest DOK u acdc state bd NU A T B).
Qed.
Lemma c93_values : forall digest u acdc state bd b, nonceText u -> nonceText acdc -> utf8 state = true -> boundOk bd -> blinderOf digest u acdc state bd = Ok b ->
  uuidOf b = Ok u /\ acdcOf b = Ok acdc /\ stateOf b = Ok state /\ boundOf b = Ok bd.
Proof. intros digest u acdc state bd b. apply blinder_values. Qed.
Lemma c93_unblind_sound : forall digest, digest_ok digest -> forall said uuid salt sn acdc states bounds b, uuidOk uuid -> saltOk salt -> inputsOk acdc states bounds ->
  unblind digest said uuid salt sn acdc states bounds = Ok (Some b) ->
  saidOfSt b = Ok said /\ exists u td ts bd, uuidIs uuid salt sn u /\ candidate acdc states bounds td ts bd /\ blinderOf digest u td ts bd = Ok b.
Proof. intros digest DOK. exact (unblind_sound digest DOK). Qed.
Lemma c93_unblind_same : forall digest, digest_ok digest -> forall said uuid salt sn acdc states bounds b b', uuidOk uuid -> saltOk salt -> inputsOk acdc states bounds ->
  obtained digest Blinder b -> saidOfSt b = Ok said -> unblind digest said uuid salt sn acdc states bounds = Ok (Some b') -> b' = b \/ collision digest.
Proof.
  intros digest DOK said uuid salt sn acdc states bounds b b' U S I O E H. destruct (unblind_sound digest DOK _ _ _ _ _ _ _ _ U S I H) as (E' & u & td & ts & bd & UI & C & B).
  apply (binding digest DOK Blinder); [reflexivity| |exact O|congruence]. pose proof (cands_ok _ _ _ I) as CO. unfold candOk in CO. rewrite Forall_forall in CO. destruct (CO _ (proj2 (cands_In _ _ _ _ _ _) C)) as (O1 & O2 & O3). cbn [fst snd] in *.
  exact (blinder_obtained digest _ _ _ _ _ (uuid_octets _ _ _ _ U S UI) O1 O2 O3 B).
Qed.
Lemma c93_unblind_complete : forall digest, digest_ok digest -> forall said uuid salt sn acdc states bounds u td ts bd b,
  uuidIs uuid salt sn u -> nonceText u -> nonceText acdc -> Forall stateText states -> boundsGood bounds ->
  candidate acdc states bounds td ts bd -> blinderOf digest u td ts bd = Ok b -> saidOfSt b = Ok said ->
  unblind digest said uuid salt sn acdc states bounds = Ok (Some b) \/ collision digest.
Proof. intros digest DOK. exact (unblind_complete digest DOK). Qed.
Lemma c93_blind_unblind : forall digest, digest_ok digest -> forall stretch sn acdc states bounds td ts bd b said,
  saltOk (Some stretch) -> nonceText acdc -> Forall stateText states -> boundsGood bounds -> candidate acdc states bounds td ts bd ->
  blind digest stretch sn td ts bd = Ok b -> saidOfSt b = Ok said ->
  unblind digest said None (Some stretch) sn acdc states bounds = Ok (Some b) \/ collision digest.
Proof.
  intros digest DOK stretch sn acdc states bounds td ts bd b said S A T B C H E. unfold blind in H. apply bind_ok in H. destruct H as (u & U & H).
  destruct (makeUUID_ok stretch sn (S _ eq_refl) (makeUUID_sn _ _ _ U)) as (u' & U' & N'). rewrite U in U'. apply ok_inj in U'. subst u'.
  apply (unblind_complete digest DOK said None (Some stretch) sn acdc states bounds u td ts bd b); auto. right. split; [reflexivity|]. exists stretch. auto.
Qed.
Lemma c93_unblind_none : forall digest, digest_ok digest -> forall said uuid salt sn acdc states bounds, uuidOk uuid -> saltOk salt -> inputsOk acdc states bounds ->
  unblind digest said uuid salt sn acdc states bounds = Ok None ->
  forall u td ts bd b, uuidIs uuid salt sn u -> candidate acdc states bounds td ts bd -> blinderOf digest u td ts bd = Ok b -> saidOfSt b <> Ok said.
Proof. intros digest DOK. exact (unblind_none digest DOK). Qed.
Lemma c93_unblind_total : forall digest, digest_ok digest -> forall said uuid salt sn acdc states bounds u,
  uuidIs uuid salt sn u -> nonceText u -> nonceText acdc -> Forall stateText states -> boundsGood bounds ->
  exists r, unblind digest said uuid salt sn acdc states bounds = Ok r.
Proof. intros digest DOK. exact (unblind_total digest DOK). Qed.
(** A salt of zeros, stretched to zeros but for the length of the path. *)
Definition stretch0 (p : bytes) : bytes := len p mod 256 :: repeat 0 31.
Definition sts : list bytes := [s2b "issued"; s2b "not yet"; s2b "revoked"].
Definition blSaid (sn : N) (st : string) (bd : option (N * bytes)) : bytes :=
  match (b <- blind toyDigest stretch0 sn (dg "A") (s2b st) bd ;; saidOfSt b) with Ok q => q | Err _ => [] end.
Definition blFound (sn : N) (st : string) (bd : option (N * bytes)) (bounds : option (list (N * bytes))) : res (option (res bytes * res (option (N * bytes)))) :=
  r <- unblind toyDigest (blSaid sn st bd) None (Some stretch0) sn (dg "A") sts bounds ;; Ok (match r with Some b => Some (stateOf b, boundOf b) | None => None end).
Lemma dg_nonce : nonceText (dg "A") /\ nonceText (dg "B").
Proof. split; right; (split; [vm_compute; reflexivity|]); eexists; (split; [vm_compute; reflexivity|]); (split; [vm_compute; reflexivity|]); apply SerProofs.memB_In; vm_compute; reflexivity. Qed.
Lemma sts_ok : Forall stateText sts.
Proof. repeat (constructor; [split; [repeat constructor|vm_compute; discriminate]|]). constructor. Qed.
Lemma stretch0_ok : saltOk (Some stretch0).
Proof.
  intros st E p. injection E as <-. unfold stretch0. split; [|reflexivity]. constructor; [|apply Forall_forall; intros x X; apply repeat_spec in X; subst x; reflexivity].
  apply N.mod_lt. discriminate.
Qed.


Lemma c94_encloses : forall digest, digest_ok digest -> forall f l c, hasClan f c = true -> Forall (fun s => obtained digest f s /\ s_clan s = c) l -> l <> [] ->
  exists buf, concatr stText l = Ok buf /\ len buf mod 4 = 0 /\ (len buf < 4 * 64 ^ 5 -> exists g, encloseText f l = Ok g).
Proof. intros digest DOK. exact (group_total digest DOK). Qed.
Lemma c94_round_trip_partial : forall digest, digest_ok digest -> forall f l g rest, Forall (obtained digest f) l -> encloseText f l = Ok g -> len g <= 16384 ->
  extractText digest f (g ++ rest) = Ok (l, rest).
Proof. intros digest DOK. exact (group_text digest DOK). Qed.
Lemma c94_binary_round_trip_partial : forall digest, digest_ok digest -> forall f l g rest, Forall (obtained digest f) l -> encloseBin f l = Ok g -> len g <= 12288 ->
  extractBin digest f (g ++ rest) = Ok (l, rest).
Proof. intros digest DOK. exact (group_bin digest DOK). Qed.
Definition dseal : val := VStr (dg "A").
Definition aSeal : structor := match ofCrew toyDigest Sealer false SealDigest [dseal] with Ok s => s | Err _ => mkSt SealDigest [] end.
Lemma c94_big_refuted :
  (exists l g, (forall digest, Forall (obtained digest Sealer) l) /\ encloseText Sealer l = Ok g /\ 16384 < len g) /\
  forall digest f l g rest, (encloseText f l = Ok g -> 16384 < len g -> extractText digest f (g ++ rest) = Err KeyError) /\
    (encloseBin f l = Ok g -> 12288 < len g -> extractBin digest f (g ++ rest) = Err KeyError).
Proof.
  split; [|intros digest f l g rest; split; [apply group_text_big|apply group_bin_big]].
  exists (repeat aSeal 373). assert (E : exists g, encloseText Sealer (repeat aSeal 373) = Ok g /\ 16384 <? len g = true) by (eexists; split; vm_compute; reflexivity). destruct E as (g & G & L). exists g.
  split; [|split; [exact G|apply N.ltb_lt; exact L]]. intros digest. apply Forall_forall. intros x X. apply repeat_spec in X. subst x. eapply (ob_crew _ _ _ false SealDigest [dseal]); [repeat constructor|]. vm_compute. reflexivity.
Qed.
Lemma c94_extract_sound_partial : forall digest, digest_ok digest -> forall f s l rest, extractText digest f s = Ok (l, rest) ->
  (exists c, Forall (fun x => obtained digest f x /\ s_clan x = c) l) /\ (b64text s -> exists h qs, Forall2 (fun x q => stText x = Ok q) l qs /\ s = h ++ List.concat qs ++ rest).
Proof. intros digest DOK. exact (extract_text_sound digest DOK). Qed.
Lemma c94_extract_binary_sound_partial : forall digest, digest_ok digest -> forall f s l rest, octets s -> extractBin digest f s = Ok (l, rest) ->
  (exists c, Forall (fun x => obtained digest f x /\ s_clan x = c) l) /\ exists h qs, Forall2 (fun x q => stBin x = Ok q) l qs /\ s = h ++ List.concat qs ++ rest.
Proof. intros digest DOK. exact (extract_bin_sound digest DOK). Qed.
Lemma c94_truncated_refuted : exists g l l', (forall digest, Forall (obtained digest Sealer) l) /\ encloseText Sealer l = Ok g /\
  (forall digest, extractText digest Sealer (ntake (len g - 44) g) = Ok (l', [])) /\ l <> l' /\ List.length l = 2%nat /\ List.length l' = 1%nat.
Proof.
  assert (E : exists g, encloseText Sealer [aSeal; aSeal] = Ok g /\ forall digest, extractText digest Sealer (ntake (len g - 44) g) = Ok ([aSeal], [])).
  { eexists. split; [vm_compute; reflexivity|]. intros digest. vm_compute. reflexivity. }
  destruct E as (g & G & T). exists g, [aSeal; aSeal], [aSeal]. split; [|split; [exact G|split; [exact T|split; [discriminate|split; reflexivity]]]].
  intros digest. assert (O : obtained digest Sealer aSeal) by (eapply (ob_crew _ _ _ false SealDigest [dseal]); [repeat constructor|]; vm_compute; reflexivity). constructor; [exact O|]. constructor; [exact O|constructor].
Qed.
Lemma c94_ends : forall digest f s, extractText digest f s <> Err OverflowError /\ (octets s -> extractBin digest f s <> Err OverflowError).
Proof. intros digest f s. split; [exact (extract_text_ends digest f s)|]. apply (extract_bin_ends digest). Qed.

