(** Vocabulary of the statements about messages, independent of the functions that build and check them. *)
From Verif Require Import Prelude B64Model MatterModel SubsModel VerModel ThModel JsonModel JsonProofs SerModel.
Open Scope N_scope.

(** labels of the self addressing fields of a message type: receipts have none, inceptions of key
    event logs and registries have the said and the identifier, everything else has the said *)
Definition saidFields (ilk : option bytes) : list bytes :=
  match ilk with
  | None => [s2b "d"]
  | Some t => if beq t (s2b "rct") then []
              else if memB t [s2b "icp"; s2b "dip"; s2b "vcp"] then [s2b "d"; s2b "i"]
              else [s2b "d"]
  end.

(** a text that reads as a digest, and its derivation code *)
Definition digestCode (v : val) : option bytes :=
  match v with
  | VStr t => match exfil t with Ok m => if memB (m_code m) DigDex then Some (m_code m) else None | Err _ => None end
  | _ => None
  end.

(** the field map with the digests in the self addressing fields replaced by as many # *)
Definition blank (labels : list bytes) (sd : sad) : sad :=
  map (fun kv => if memB (fst kv) labels then
                   match digestCode (snd kv), snd kv with Some _, VStr t => (fst kv, VStr (repeat 35 (List.length t))) | _, _ => kv end
                 else kv) sd.

(** the digest functions return octets of the size of the code *)
Definition digestSize (code : bytes) : N := if len code =? 1 then 32 else 64.
Definition digest_ok (digest : bytes -> bytes -> bytes) : Prop :=
  forall code ser, In code DigDex -> octets (digest code ser) /\ len (digest code ser) = digestSize code.

(** [t] is the qualified text of the digest of [ser] with derivation code [code] *)
Definition isDigestOf (digest : bytes -> bytes -> bytes) (code ser t : bytes) : Prop :=
  In code DigDex /\ exfil t = Ok (mkMatter code [] (digest code ser)) /\ infil (mkMatter code [] (digest code ser)) = Ok t.

(** characters that serializations copy as they are *)
Definition plain (t : bytes) : Prop := Forall (fun x => 32 <= x /\ x <> 34 /\ x <> 92 /\ x < 128) t.

(** what is assumed of the json, cbor and msgpack libraries: reading yields Python dicts (distinct labels),
    reading what was written yields what was written, and texts of the same length are written in the same length *)
Record library (odumps : bytes -> sad -> res bytes) (loads : bytes -> bytes -> res sad) : Prop := {
  lib_wf : forall kind r m, loads kind r = Ok m -> wfv (VMap m);
  lib_json : forall m, wfv (VMap m) -> loads (s2b "JSON") (json (VMap m)) = Ok m;
  lib_other : forall kind m r, In kind [s2b "CBOR"; s2b "MGPK"] -> wfv (VMap m) -> odumps kind m = Ok r -> loads kind r = Ok m;
  lib_len : forall kind m k a b ra, In kind [s2b "CBOR"; s2b "MGPK"] -> dget m k = Some (VStr a) -> plain a -> plain b -> len a = len b ->
            odumps kind m = Ok ra -> exists rb, odumps kind (dset m k (VStr b)) = Ok rb /\ len rb = len ra }.

(** version string values of a message *)
Definition smellOf (s : serder) : smellage :=
  {| s_proto := d_proto s; s_pvrsn := d_pvrsn s; s_kind := d_kind s; s_size := d_size s; s_gvrsn := d_gvrsn s |}.

Definition collision (digest : bytes -> bytes -> bytes) : Prop := exists code x y, In code DigDex /\ x <> y /\ digest code x = digest code y.

(** the json library on serializations that json.dumps can produce; raises for the other kinds *)
Definition refLoads (kind r : bytes) : res sad :=
  if beq kind (s2b "JSON") then match jread r with Some (VMap m) => if wfvB (VMap m) then Ok m else Err DeserializeError | _ => Err DeserializeError end
  else Err DeserializeError.
Definition noDumps (kind : bytes) (sd : sad) : res bytes := Err SerializeError.
