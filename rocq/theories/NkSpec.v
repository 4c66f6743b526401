(** Vocabulary of the statements about native KERI messages. *)
From Verif Require Import Prelude B64Model MatterModel SubsModel CtrModel ThModel VerModel JsonModel SerModel NmModel NmSpec NkModel.
Open Scope N_scope.

(** The codes of digests, of prefixes and of nonces, and the configuration traits. *)
Definition digCodes : list bytes := map s2b ["E"; "F"; "G"; "H"; "I"; "0D"; "0E"; "0F"; "0G"]%string.
Definition preCodes : list bytes := map s2b
  ["B"; "D"; "E"; "F"; "G"; "H"; "I"; "0D"; "0E"; "0F"; "0G"; "1AAA"; "1AAB"; "1AAC"; "1AAD"; "1AAE"; "1AAI"; "1AAJ"]%string.
Definition nonceCodes : list bytes := map s2b ["1AAP"; "0A"; "a"; "E"; "F"; "G"; "H"; "I"; "0D"; "0E"; "0F"; "0G"]%string.
Definition traitNames : list bytes := map s2b ["EO"; "DND"; "RB"; "NB"; "NRB"; "DID"]%string.

(** The text is that of a primitive of one of the codes, and of nothing else. *)
Definition isPrimOf (dex : list bytes) (s : bytes) : Prop :=
  Reb64 s = true /\ exists m, exfil s = Ok m /\ infil m = Ok s /\ In (m_code m) dex.
(** A hexadecimal number of at most 17 bytes without leading zeros. *)
Definition isNumber (s : bytes) : Prop := exists n, n < 256 ^ 17 /\ s = hexstr n.
(** A threshold in the form in which Tholder gives it back. *)
Definition isThreshold (v : val) : Prop := exists s t, valSith v = Ok s /\ processSith s = Ok t /\ sithVal (sithOf t) = v.
(** An ISO 8601 date and time with microseconds and offset: 32 characters. *)
Definition isDate (s : bytes) : Prop := len s = 32 /\ Forall (fun x => 48 <= x <= 57 \/ In x (s2b "T:.+-")) s.
(** A route: a well formed text without newlines and, unless it has slashes, without hyphens. *)
Definition isRoute (s : bytes) : Prop := utf8 s = true /\ ~ In 10 s /\ (In 47 s \/ ~ In 45 s).
Definition all (P : bytes -> Prop) (v : val) : Prop := exists l, v = VList (map VStr l) /\ Forall P l.
Definition text (P : bytes -> Prop) (v : val) : Prop := exists s, v = VStr s /\ P s.

(** ** Seals *)
(** the labels of the seven types of seals *)
Definition sealLabels : list (list bytes) := map (map s2b)
  [["d"]; ["rd"]; ["s"; "d"]; ["i"; "s"; "d"]; ["i"]; ["bi"; "d"]; ["t"; "d"]]%string.
Definition sealField (kv : bytes * val) : Prop :=
  text (if beq (fst kv) (s2b "s") then isNumber
        else if memB (fst kv) [s2b "i"; s2b "bi"] then isPrimOf preCodes
        else if beq (fst kv) (s2b "t") then isPrimOf [s2b "Y"; s2b "0O"]
        else isPrimOf digCodes) (snd kv).
Definition isSeal (v : val) : Prop := exists m, v = VMap m /\ In (keysOf m) sealLabels /\ Forall sealField m.
(** at most as many characters as the seal has in a message; a number has at most 24 *)
Definition sealSize (v : val) : N :=
  match v with
  | VMap m => fold_right (fun kv n => (if beq (fst kv) (s2b "s") then 24 else match snd kv with VStr s => len s | _ => 0 end) + n) 0 m
  | _ => 0
  end.
Definition sealsSize (l : list val) : N := fold_right (fun e n => sealSize e + n) 0 l.
Definition labelsOf (v : val) : list bytes := match v with VMap m => keysOf m | _ => [] end.
(** Seals of the same type that follow each other take at most 4095 quadlets. *)
Definition smallRuns (l : list val) : Prop :=
  forall a run b k, l = a ++ run ++ b -> Forall (fun e => labelsOf e = k) run -> sealsSize run <= 4 * 4095.

(** ** Messages *)
Definition fieldOk (l : bytes) (v : val) : Prop :=
  (In l [s2b "d"; s2b "p"; s2b "x"] -> text (isPrimOf digCodes) v) /\
  (In l [s2b "i"; s2b "di"; s2b "ri"] -> text (isPrimOf preCodes) v) /\
  (l = s2b "u" -> text (isPrimOf nonceCodes) v) /\
  (In l [s2b "s"; s2b "bt"] -> text isNumber v) /\
  (In l [s2b "kt"; s2b "nt"] -> isThreshold v) /\
  (In l [s2b "k"; s2b "n"; s2b "b"; s2b "ba"; s2b "br"] -> all (isPrimOf (map fst Sizes)) v) /\
  (l = s2b "dt" -> text isDate v) /\
  (In l [s2b "r"; s2b "rr"] -> text isRoute v) /\
  (l = s2b "c" -> all (fun s => In s traitNames) v) /\
  (l = s2b "q" -> exists m, v = VMap m /\ plainMap m) /\
  (l = s2b "a" -> (exists m, v = VMap m /\ plainMap m) \/ exists es, v = VList es /\ Forall isSeal es /\ smallRuns es).
(** The field map has the fields of its type in their order, with values that their native form can express. *)
Definition wellFormed (sd : sad) : Prop :=
  exists ilk fd, dget sd (s2b "t") = Some (VStr ilk) /\ In (Some ilk, fd) Fields_KERI_2 /\ keysOf sd = keysOf (f_alls fd) /\
  Forall (fun kv => fieldOk (fst kv) (snd kv)) sd.
