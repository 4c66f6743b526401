(** Vocabulary of the statements about structures of primitives and blinded states. *)
From Verif Require Import Prelude B64Model MatterModel SubsModel CtrModel VerModel JsonModel SerModel SerSpec NmModel NkModel NkSpec MzModel BlModel.
Open Scope N_scope.

(** Texts that Python can encode. *)
Definition crewOk (v : val) : Prop := match v with VStr s => octets s | _ => True end.
(** The structor was returned by one of the constructors of its class. *)
Inductive obtained (digest : bytes -> bytes -> bytes) (f : family) (s : structor) : Prop :=
| ob_crew : forall make c crew, Forall crewOk crew -> ofCrew digest f make c crew = Ok s -> obtained digest f s
| ob_text : forall c q r, ofText digest f c q = Ok (s, r) -> obtained digest f s
| ob_bin : forall c q r, octets q -> ofBin digest f c q = Ok (s, r) -> obtained digest f s.

(** The said is the digest of the texts of the other fields behind as many hash marks as the said has characters. *)
Definition saidOver (digest : bytes -> bytes -> bytes) (s : structor) : Prop :=
  exists code said d rest qs, s_data s = d :: rest /\ infil d = Ok said /\ Forall2 (fun m q => infil m = Ok q) rest qs /\
  isDigestOf digest code (repeat 35 (List.length said) ++ List.concat qs) said.

(** A nonce or digest in its text form, or the empty text. *)
Definition nonceText (s : bytes) : Prop := s = [] \/ isPrimOf ([s2b "0A"; s2b "a"] ++ DigDex) s.
(** The blinder of these values. *)
Definition candidate (acdc : bytes) (states : list bytes) (bounds : option (list (N * bytes))) (td ts : bytes) (bd : option (N * bytes)) : Prop :=
  (td = acdc \/ td = []) /\ (In ts states \/ ts = []) /\
  match bounds, bd with
  | None, None => True
  | Some l, Some p => In p l \/ p = (0, [])
  | _, _ => False
  end.
(** The uuid that is given, or that is derived from the salt and the sequence number. *)
Definition uuidIs (uuid : option bytes) (salt : option (bytes -> bytes)) (sn : N) (u : bytes) : Prop :=
  uuid = Some u \/ uuid = None /\ exists stretch, salt = Some stretch /\ makeUUID stretch sn = Ok u.
(** A state text that a Labeler can hold. *)
Definition stateText (s : bytes) : Prop := octets s /\ len s <= 3 * (64 ^ 4 - 1).
(** The sequence number and digest of an event of the issuee that a state is bound to. *)
Definition boundOk (bd : option (N * bytes)) : Prop := match bd with Some (n, b) => n < 256 ^ 17 /\ nonceText b | None => True end.
Definition boundsGood (bounds : option (list (N * bytes))) : Prop :=
  match bounds with Some l => Forall (fun p => fst p < 256 ^ 17 /\ nonceText (snd p)) l | None => True end.
(** Arguments are texts of octets. *)
Definition octetsB (bd : option (N * bytes)) : Prop := match bd with Some (_, b) => octets b | None => True end.
Definition inputsOk (acdc : bytes) (states : list bytes) (bounds : option (list (N * bytes))) : Prop :=
  octets acdc /\ Forall octets states /\ match bounds with Some l => Forall (fun p => octets (snd p)) l | None => True end.
Definition uuidOk (uuid : option bytes) : Prop := match uuid with Some u => octets u | None => True end.
(** The stretching of the salt gives the 32 bytes that are asked for. *)
Definition saltOk (salt : option (bytes -> bytes)) : Prop :=
  forall stretch, salt = Some stretch -> forall p, octets (stretch p) /\ len (stretch p) = 32.

(** The codes that the fields of each kind of structure may have, in order: digests, prefixes, numbers, protocol
    versions, nonces, labels, texts and dates. *)
Definition digestCodes := map s2b ["E"; "F"; "G"; "H"; "I"; "0D"; "0E"; "0F"; "0G"]%string.
Definition prefixCodes := map s2b ["B"; "D"; "E"; "F"; "G"; "H"; "I"; "0D"; "0E"; "0F"; "0G"; "1AAA"; "1AAB"; "1AAC"; "1AAD"; "1AAE"; "1AAI"; "1AAJ"]%string.
Definition numberCodes := map s2b ["M"; "0H"; "R"; "N"; "S"; "T"; "0A"; "U"]%string.
Definition nonceCodes := map s2b ["1AAP"; "0A"; "a"]%string ++ digestCodes.
Definition labelCodes := map s2b ["1AAP"; "0J"; "0K"; "X"; "1AAF"; "0L"; "0M"; "Y"; "1AAN"; "0N"; "0O"; "Z"; "4A"; "5A"; "6A"; "7AAA"; "8AAA"; "9AAA";
  "V"; "W"; "4B"; "5B"; "6B"; "7AAB"; "8AAB"; "9AAB"]%string.
Definition layout (c : clan) : list (list bytes) :=
  match c with
  | SealDigest | SealRoot => [digestCodes]
  | SealSource => [numberCodes; digestCodes]
  | SealEvent => [prefixCodes; numberCodes; digestCodes]
  | SealLast => [prefixCodes]
  | SealBack => [prefixCodes; digestCodes]
  | SealKind => [map s2b ["Y"; "0O"]%string; digestCodes]
  | BlindState => [nonceCodes; nonceCodes; nonceCodes; labelCodes]
  | BoundState => [nonceCodes; nonceCodes; nonceCodes; labelCodes; numberCodes; nonceCodes]
  | TypeMedia => [nonceCodes; nonceCodes; labelCodes; map s2b ["4B"; "5B"; "6B"; "7AAB"; "8AAB"; "9AAB"]%string]
  | FirstSeen => [numberCodes; map s2b ["1AAG"]%string]
  end.
Definition ofFamily (f : family) (c : clan) : Prop :=
  match f with
  | Structor => True
  | Sealer => In c [SealDigest; SealRoot; SealSource; SealEvent; SealLast; SealBack; SealKind]
  | Blinder => c = BlindState \/ c = BoundState
  | Mediar => c = TypeMedia
  end.
