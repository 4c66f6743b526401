(** Model of the Base64 utilities of src/keri/help/helping.py:256-388 and of the
    Python standard library codecs base64.urlsafe_b64encode/decode that
    coring.py:15-16 imports as encodeB64/decodeB64. *)
From Verif Require Import Prelude.

(** helping.py:34-44 [sceil].  Only used on quotients [k*3/4] with k >= 0, so it
    is the ordinary ceiling.  Simplification: exact division instead of a float. *)
Definition sceil34 (k : N) : N := (k * 3 + 3) / 4.

(** helping.py:262-269 [B64ChrByIdx]: A-Z a-z 0-9 - _ . *)
Definition B64ChrByIdx (i : N) : N :=
  if i <? 26 then 65 + i
  else if i <? 52 then 97 + (i - 26)
  else if i <? 62 then 48 + (i - 52)
  else if i =? 62 then 45 else 95.

(** helping.py:271 [B64IdxByChr]; None models the KeyError of a missing key. *)
Definition B64IdxByChr (ch : N) : option N :=
  if (65 <=? ch) && (ch <=? 90) then Some (ch - 65)
  else if (97 <=? ch) && (ch <=? 122) then Some (ch - 97 + 26)
  else if (48 <=? ch) && (ch <=? 57) then Some (ch - 48 + 52)
  else if ch =? 45 then Some 62
  else if ch =? 95 then Some 63
  else None.

(** helping.py:276-277 [Reb64.match]: '^[0-9A-Za-z_-]*\Z'. *)
Definition isB64 (ch : N) : bool := match B64IdxByChr ch with Some _ => true | None => false end.
Definition Reb64 (s : bytes) : bool := forallb isB64 s.

(** helping.py:279-292 [intToB64].  The while loop: at least one digit is emitted
    when l is truthy.  [fuel] bounds the digit count; [N.size_nat i] + 1 suffices. *)
Fixpoint intToB64_loop (fuel : nat) (i : N) (d : bytes) : bytes :=
  match fuel with
  | O => d
  | S f =>
      let d' := B64ChrByIdx (i mod 64) :: d in
      let i' := i / 64 in
      if i' =? 0 then d' else intToB64_loop f i' d'
  end.
Definition intToB64 (i : N) (l : N) : bytes :=
  let d := if l =? 0 then [] else intToB64_loop (S (N.size_nat i)) i [] in
  repeat 65 (N.to_nat (l - len d)) ++ d.

(** helping.py:302-312 [b64ToInt]: enumerate reversed s, or-ing shifted digits. *)
Fixpoint b64ToInt_loop (rs : bytes) (e : N) (i : N) : res N :=
  match rs with
  | [] => Ok i
  | ch :: rs' =>
      match B64IdxByChr ch with
      | None => Err KeyError
      | Some d => b64ToInt_loop rs' (e + 1) (N.lor i (N.shiftl d (e * 6)))
      end
  end.
Definition b64ToInt (s : bytes) : res N :=
  match s with [] => Err ValueError | _ => b64ToInt_loop (rev s) 0 0 end.

(** helping.py:316-335 [codeB64ToB2] *)
Definition codeB64ToB2 (s : bytes) : res bytes :=
  i <- b64ToInt s ;;
  int_to_bytes (sceil34 (len s)) (N.shiftl i (2 * (len s mod 4))).

(** helping.py:338-363 [codeB2ToB64] *)
Definition codeB2ToB64 (b : bytes) (l : N) : res bytes :=
  let n := sceil34 l in
  if len b <? n then Err ValueError
  else Ok (intToB64 (N.shiftr (int_from_bytes (ntake n b)) (2 * (l mod 4))) l).

(** helping.py:366-388 [nabSextets] *)
Definition nabSextets (b : bytes) (l : N) : res bytes :=
  let n := sceil34 l in
  if len b <? n then Err ValueError
  else
    let p := 2 * (l mod 4) in
    int_to_bytes n (N.shiftl (N.shiftr (int_from_bytes (ntake n b)) p) p).

(** CPython base64.urlsafe_b64encode: three octets to four characters, '=' (61)
    padding at the end. *)
Fixpoint encodeB64 (b : bytes) : bytes :=
  match b with
  | [] => []
  | [x] => [B64ChrByIdx (x / 4); B64ChrByIdx ((x mod 4) * 16); 61; 61]
  | [x; y] => [B64ChrByIdx (x / 4); B64ChrByIdx ((x mod 4) * 16 + y / 16);
               B64ChrByIdx ((y mod 16) * 4); 61]
  | x :: y :: z :: r =>
      B64ChrByIdx (x / 4) :: B64ChrByIdx ((x mod 4) * 16 + y / 16)
      :: B64ChrByIdx ((y mod 16) * 4 + z / 64) :: B64ChrByIdx (z mod 64)
      :: encodeB64 r
  end.

(** CPython base64.urlsafe_b64decode: '-' and '_' are translated to '+' and '/'
    and the result is decoded by binascii.a2b_base64 in non strict mode
    (Modules/binascii.c): characters outside the standard alphabet are skipped,
    a complete '=' padding ends decoding.  So '+' (43) and '/' (47) are accepted
    as aliases of '-' and '_'. *)
Definition a2bIdx (ch : N) : option N :=
  if ch =? 43 then Some 62 else if ch =? 47 then Some 63 else B64IdxByChr ch.

(** base64.urlsafe_b64decode as CPython binascii.a2b_base64 in its non strict mode, see the comment above; used through coring.py:15-16 *)
Fixpoint decodeB64_loop (s : bytes) (quad pads left : N) (acc : bytes) : res bytes :=
  match s with
  | [] => if quad =? 0 then Ok (rev acc) else Err BinasciiError
  | ch :: s' =>
      if ch =? 61 then
        if (2 <=? quad) && (4 <=? quad + (pads + 1)) then Ok (rev acc)
        else decodeB64_loop s' quad (if 2 <=? quad then pads + 1 else pads) left acc
      else
        match a2bIdx ch with
        | None => decodeB64_loop s' quad pads left acc
        | Some d =>
            if quad =? 0 then decodeB64_loop s' 1 0 d acc
            else if quad =? 1 then
              decodeB64_loop s' 2 0 (d mod 16) (left * 4 + d / 16 :: acc)
            else if quad =? 2 then
              decodeB64_loop s' 3 0 (d mod 4) (left * 16 + d / 4 :: acc)
            else
              decodeB64_loop s' 0 0 0 (left * 64 + d :: acc)
        end
  end.
(** coring.py:15-16 decodeB64 *)
Definition decodeB64 (s : bytes) : res bytes := decodeB64_loop s 0 0 0 [].
