(** structures of primitives and blinded states *)
From Verif Require Import Prelude B64Model B64Proofs MatterModel MatterProofs MatterInv MatterSpec MatterThms SubsModel SubsThms CtrModel CtrProofs CtrThms ThModel VerModel JsonModel SerModel SerSpec SerProofs SerThms NmModel NmProofs NkModel NkSpec NkProofs4 NkThms MzModel BlModel BlSpec BlProofs BlProofs2 BlProofs3 BlProofs4 BlThms.
Open Scope N_scope.

(** A primitive that was read from any text writes a text in whole quadlets from which it is read again, whatever follows. *)
Theorem C03_reread : forall s m, exfil s = Ok m -> exists q, infil m = Ok q /\ len q mod 4 = 0 /\ forall t, exfil (q ++ t) = Ok m.
Proof. exact c03_reread. Qed.
Print Assumptions C03_reread.

(** Also from a text outside the alphabet: what is written need not be what was read. *)
Example C03_reread_example : exists m, exfil (s2b "MP+/") = Ok m /\ infil m = Ok (s2b "MP-_") /\ exfil (s2b "0K!!") = Ok (mkMatter (s2b "0K") (s2b "!!") []) /\ infil (mkMatter (s2b "0K") (s2b "!!") []) = Ok (s2b "0K!!").
Proof. eexists. split; [vm_compute; reflexivity|]. split; [vm_compute; reflexivity|]. split; vm_compute; reflexivity. Qed.

(** The said of a blinder or mediar, however it was obtained, is the digest of its other fields. *)
Theorem C92_said_is_digest : forall digest, digest_ok digest -> forall f s, f = Blinder \/ f = Mediar -> obtained digest f s -> saidOver digest s.
Proof. exact c92_said_is_digest. Qed.
Print Assumptions C92_said_is_digest.

(** A structure is of a kind that its class allows, and its fields have codes of the families that the kind sets out,
    in that order and number. *)
Theorem C92_layouts : forall digest, digest_ok digest -> forall f s, obtained digest f s ->
  ofFamily f (s_clan s) /\ Forall2 (fun codes m => In (m_code m) codes) (layout (s_clan s)) (s_data s).
Proof. exact c92_layouts. Qed.
Print Assumptions C92_layouts.

Example C92_layouts_ex : exists s, ofCrew (fun _ _ => []) Sealer false SealSource [VInt 5; VStr (s2b "E" ++ repeat 65 43)] = Ok s /\ map m_code (s_data s) = [s2b "M"; s2b "E"].
Proof. eexists. split; vm_compute; reflexivity. Qed.

(** Two blinders, or two mediars, with the same said have the same kind and the same fields, or exhibit a collision. *)
Theorem C92_binding : forall digest, digest_ok digest -> forall f s1 s2, f = Blinder \/ f = Mediar -> obtained digest f s1 -> obtained digest f s2 ->
  saidOfSt s1 = saidOfSt s2 -> s1 = s2 \/ collision digest.
Proof. exact c92_binding. Qed.
Print Assumptions C92_binding.

(** A blinded state and a media value can have the same fields, and so the same said: the said does not commit to the kind. *)
Theorem C92_kinds_refuted : forall digest, digest_ok digest -> exists s1 s2, obtained digest Blinder s1 /\ obtained digest Mediar s2 /\
  s_data s1 = s_data s2 /\ saidOfSt s1 = saidOfSt s2 /\ s_clan s1 <> s_clan s2.
Proof. exact c92_kinds_refuted. Qed.
Print Assumptions C92_kinds_refuted.

Example C92_example : Forall crewOk (blCrew "issued") /\ isOk (blAt "issued") = true /\ isOk (ofCrew toyDigest Mediar true TypeMedia [VStr []; VStr uu; VStr (s2b "text/plain"); VStr (s2b "Hello")]) = true /\
  ('(s, _) <- (s <- blAt "issued" ;; q <- stText s ;; ofText toyDigest Blinder BlindState (setAt 60 66 q)) ;; Ok s) = Err ValidationError /\
  (s <- blAt "issued" ;; q <- stText s ;; ofText toyDigest Blinder BlindState q) = (s <- blAt "issued" ;; Ok (s, [])).
Proof. split; [repeat constructor|]. split; [vm_compute; reflexivity|]. split; [vm_compute; reflexivity|]. split; vm_compute; reflexivity. Qed.

(** A state can be blinded with any salt. *)
Theorem C93_blinds : forall digest, digest_ok digest -> forall stretch sn acdc state bd, saltOk (Some stretch) -> sn <= MaxON -> nonceText acdc -> stateText state -> boundOk bd ->
  exists b, blind digest stretch sn acdc state bd = Ok b.
Proof. exact c93_blinds. Qed.
Print Assumptions C93_blinds.

(** The blinder has the values it was made of. *)
Theorem C93_values : forall digest u acdc state bd b, nonceText u -> nonceText acdc -> utf8 state = true -> boundOk bd -> blinderOf digest u acdc state bd = Ok b ->
  uuidOf b = Ok u /\ acdcOf b = Ok acdc /\ stateOf b = Ok state /\ boundOf b = Ok bd.
Proof. exact c93_values. Qed.
Print Assumptions C93_values.

(** What unblind returns has the said that was looked for, the uuid that was given or derived, and values among the candidates. *)
Theorem C93_unblind_sound : forall digest, digest_ok digest -> forall said uuid salt sn acdc states bounds b, uuidOk uuid -> saltOk salt -> inputsOk acdc states bounds ->
  unblind digest said uuid salt sn acdc states bounds = Ok (Some b) ->
  saidOfSt b = Ok said /\ exists u td ts bd, uuidIs uuid salt sn u /\ candidate acdc states bounds td ts bd /\ blinderOf digest u td ts bd = Ok b.
Proof. exact c93_unblind_sound. Qed.
Print Assumptions C93_unblind_sound.

(** It is the very state that was blinded under that said, whatever the candidates are. *)
Theorem C93_unblind_same : forall digest, digest_ok digest -> forall said uuid salt sn acdc states bounds b b', uuidOk uuid -> saltOk salt -> inputsOk acdc states bounds ->
  obtained digest Blinder b -> saidOfSt b = Ok said -> unblind digest said uuid salt sn acdc states bounds = Ok (Some b') -> b' = b \/ collision digest.
Proof. exact c93_unblind_same. Qed.
Print Assumptions C93_unblind_same.

(** A blinded state is found by whoever has its uuid, or the salt and the sequence number, and lists of candidates with its values. *)
Theorem C93_unblind_complete : forall digest, digest_ok digest -> forall said uuid salt sn acdc states bounds u td ts bd b,
  uuidIs uuid salt sn u -> nonceText u -> nonceText acdc -> Forall stateText states -> boundsGood bounds ->
  candidate acdc states bounds td ts bd -> blinderOf digest u td ts bd = Ok b -> saidOfSt b = Ok said ->
  unblind digest said uuid salt sn acdc states bounds = Ok (Some b) \/ collision digest.
Proof. exact c93_unblind_complete. Qed.
Print Assumptions C93_unblind_complete.

Theorem C93_blind_unblind : forall digest, digest_ok digest -> forall stretch sn acdc states bounds td ts bd b said,
  saltOk (Some stretch) -> nonceText acdc -> Forall stateText states -> boundsGood bounds -> candidate acdc states bounds td ts bd ->
  blind digest stretch sn td ts bd = Ok b -> saidOfSt b = Ok said ->
  unblind digest said None (Some stretch) sn acdc states bounds = Ok (Some b) \/ collision digest.
Proof. exact c93_blind_unblind. Qed.
Print Assumptions C93_blind_unblind.

(** None means that no candidate has that said. *)
Theorem C93_unblind_none : forall digest, digest_ok digest -> forall said uuid salt sn acdc states bounds, uuidOk uuid -> saltOk salt -> inputsOk acdc states bounds ->
  unblind digest said uuid salt sn acdc states bounds = Ok None ->
  forall u td ts bd b, uuidIs uuid salt sn u -> candidate acdc states bounds td ts bd -> blinderOf digest u td ts bd = Ok b -> saidOfSt b <> Ok said.
Proof. exact c93_unblind_none. Qed.
Print Assumptions C93_unblind_none.

(** Unblinding with values that can be blinded raises nothing. *)
Theorem C93_unblind_total : forall digest, digest_ok digest -> forall said uuid salt sn acdc states bounds u,
  uuidIs uuid salt sn u -> nonceText u -> nonceText acdc -> Forall stateText states -> boundsGood bounds ->
  exists r, unblind digest said uuid salt sn acdc states bounds = Ok r.
Proof. exact c93_unblind_total. Qed.
Print Assumptions C93_unblind_total.

Example C93_example : saltOk (Some stretch0) /\ nonceText (dg "A") /\ Forall stateText sts /\ boundsGood (Some [(1, dg "B")]) /\
  blFound 5 "not yet" None None = Ok (Some (Ok (s2b "not yet"), Ok None)) /\ blFound 5 "gone" None None = Ok None /\
  blFound 5 "revoked" (Some (1, dg "B")) (Some [(1, dg "B")]) = Ok (Some (Ok (s2b "revoked"), Ok (Some (1, dg "B")))) /\
  candidate (dg "A") sts (Some [(1, dg "B")]) (dg "A") (s2b "revoked") (Some (1, dg "B")).
Proof.
  split; [exact stretch0_ok|]. split; [exact (proj1 dg_nonce)|]. split; [exact sts_ok|]. split; [constructor; [split; [reflexivity|exact (proj2 dg_nonce)]|constructor]|].
  split; [vm_compute; reflexivity|]. split; [vm_compute; reflexivity|]. split; [vm_compute; reflexivity|]. split; [left; reflexivity|]. split; [left; right; right; left; reflexivity|]. left. left. reflexivity.
Qed.

(** A list of structures of one kind is enclosed in a counted group if it is shorter than 4 GiB. *)
Theorem C94_encloses : forall digest, digest_ok digest -> forall f l c, hasClan f c = true -> Forall (fun s => obtained digest f s /\ s_clan s = c) l -> l <> [] ->
  exists buf, concatr stText l = Ok buf /\ len buf mod 4 = 0 /\ (len buf < 4 * 64 ^ 5 -> exists g, encloseText f l = Ok g).
Proof. exact c94_encloses. Qed.
Print Assumptions C94_encloses.

(** A group of at most 16384 characters is read back, and what follows it is left. *)
Theorem C94_round_trip_partial : forall digest, digest_ok digest -> forall f l g rest, Forall (obtained digest f) l -> encloseText f l = Ok g -> len g <= 16384 ->
  extractText digest f (g ++ rest) = Ok (l, rest).
Proof. exact c94_round_trip_partial. Qed.
Print Assumptions C94_round_trip_partial.

Theorem C94_binary_round_trip_partial : forall digest, digest_ok digest -> forall f l g rest, Forall (obtained digest f) l -> encloseBin f l = Ok g -> len g <= 12288 ->
  extractBin digest f (g ++ rest) = Ok (l, rest).
Proof. exact c94_binary_round_trip_partial. Qed.
Print Assumptions C94_binary_round_trip_partial.

(** Every longer group is enclosed with a big counter, which extract does not know. *)
Theorem C94_big_refuted :
  (exists l g, (forall digest, Forall (obtained digest Sealer) l) /\ encloseText Sealer l = Ok g /\ 16384 < len g) /\
  forall digest f l g rest, (encloseText f l = Ok g -> 16384 < len g -> extractText digest f (g ++ rest) = Err KeyError) /\
    (encloseBin f l = Ok g -> 12288 < len g -> extractBin digest f (g ++ rest) = Err KeyError).
Proof. exact c94_big_refuted. Qed.
Print Assumptions C94_big_refuted.

(** The structures that are extracted are of the kind that the counter names and are checked as if read alone; their serializations are all there is in the group. *)
Theorem C94_extract_sound_partial : forall digest, digest_ok digest -> forall f s l rest, extractText digest f s = Ok (l, rest) ->
  (exists c, Forall (fun x => obtained digest f x /\ s_clan x = c) l) /\ (b64text s -> exists h qs, Forall2 (fun x q => stText x = Ok q) l qs /\ s = h ++ List.concat qs ++ rest).
Proof. exact c94_extract_sound_partial. Qed.
Print Assumptions C94_extract_sound_partial.

Theorem C94_extract_binary_sound_partial : forall digest, digest_ok digest -> forall f s l rest, octets s -> extractBin digest f s = Ok (l, rest) ->
  (exists c, Forall (fun x => obtained digest f x /\ s_clan x = c) l) /\ exists h qs, Forall2 (fun x q => stBin x = Ok q) l qs /\ s = h ++ List.concat qs ++ rest.
Proof. exact c94_extract_binary_sound_partial. Qed.
Print Assumptions C94_extract_binary_sound_partial.

(** A group that is cut off between two structures is accepted as a shorter list. *)
Theorem C94_truncated_refuted : exists g l l', (forall digest, Forall (obtained digest Sealer) l) /\ encloseText Sealer l = Ok g /\
  (forall digest, extractText digest Sealer (ntake (len g - 44) g) = Ok (l', [])) /\ l <> l' /\ List.length l = 2%nat /\ List.length l' = 1%nat.
Proof. exact c94_truncated_refuted. Qed.
Print Assumptions C94_truncated_refuted.

(** Extracting ends. *)
Theorem C94_ends : forall digest f s, extractText digest f s <> Err OverflowError /\ (octets s -> extractBin digest f s <> Err OverflowError).
Proof. exact c94_ends. Qed.
Print Assumptions C94_ends.

Example C94_example : (forall digest, obtained digest Sealer aSeal) /\ (exists g, encloseText Sealer [aSeal; aSeal] = Ok g /\ len g = 92 /\ extractText toyDigest Sealer (g ++ s2b "rest") = Ok ([aSeal; aSeal], s2b "rest")) /\
  (exists g, encloseBin Sealer [aSeal; aSeal] = Ok g /\ len g = 69 /\ extractBin toyDigest Sealer (g ++ [1; 2]) = Ok ([aSeal; aSeal], [1; 2])).
Proof.
  split; [intros digest; eapply (ob_crew _ _ _ false SealDigest [dseal]); [repeat constructor|]; vm_compute; reflexivity|].
  split; eexists; (split; [vm_compute; reflexivity|]); split; vm_compute; reflexivity.
Qed.
