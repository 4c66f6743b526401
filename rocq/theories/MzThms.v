(** Messages with their attachments, written and read. *)
From Verif Require Import Prelude B64Model MatterModel MatterSpec IdxModel SubsModel VerModel CtrModel KelModel PsModel PsSpec PsProofs PsThms MzModel MzSpec MzProofs MzProofs2.
Open Scope N_scope.

Lemma c55_round_trip_partial : forall Ser sload nload kcheck raw sv x a ts bs framed nested gv genusify m v,
  accepting kcheck -> v = V1 \/ v = V2 -> sentAt gv sv (nested || negb (isnil bs)) = v ->
  octets raw -> bodyOf Ser sload v raw x -> auth_ok kcheck v a -> writtens Ser sload kcheck ts bs ->
  messagize raw sv false a bs framed nested gv genusify = Ok m ->
  exists n0 es e, gotTrees Ser ts es /\ got Ser v x a es e /\
   forall n fr v0, (n0 <= n)%nat -> (framed = true -> nested = false -> bs = [] -> fr = true) ->
    v0 = v \/ genusify = true /\ (v0 = V1 \/ v0 = V2) -> delivers Ser sload nload kcheck n fr v0 v m e.
Proof.
  intros Ser sload nload kcheck raw sv x a ts bs framed nested gv genusify m v Acc Hv Sv Oc Bo Ka W H.
  exact (proj2 (round_trip Ser sload nload kcheck Acc raw sv x a ts bs framed nested gv genusify m v Hv Sv Oc Bo Ka W H)).
Qed.

Lemma c55_stream_partial : forall Ser sload nload kcheck v ts bs,
  accepting kcheck -> v = V1 \/ v = V2 -> Forall2 (posted Ser sload kcheck v) ts bs ->
  exists n0, forall n, (n0 <= n)%nat -> exists es, Forall2 (gotAt Ser v) ts es /\
   let start := fresh Ser sload nload kcheck n false (mkP v []) in
   forall cs, List.concat cs = List.concat bs ->
    (exists x, session Ser sload nload kcheck n false start cs es x) /\
    (forall es' x, session Ser sload nload kcheck n false start cs es' x -> es' = es).
Proof. intros Ser sload nload kcheck v ts bs Acc. exact (stream Ser sload nload kcheck Acc v ts bs). Qed.

(** *** Concrete messages *)
Definition yMat (code : string) (n : N) : matter :=
  match matter_of_raw (repeat 7 (N.to_nat n)) (s2b code) [] None with Ok m => m | Err _ => mkMatter [] [] [] end.
Definition ySig (i : N) : indexer := match siger_of_raw (repeat 5 64) (s2b "A") i None with Ok x => x | Err _ => xIdx end.
Definition yNum : matter := match number_of_num 300 None with Ok m => m | Err _ => mkMatter [] [] [] end.
Definition yBody (v t : string) : bytes := s2b "{""v"":""KERI" ++ s2b v ++ s2b """,""t"":""ixn"",""d"":""" ++ s2b t ++ s2b """}".
Definition yRaw1 := yBody "10JSON00002d_" "one".
Definition yRaw2 := yBody "CAACAAJSONAAAv." "two".
Definition yTsg := (yMat "E" 32, yNum, yMat "E" 32, [ySig 0; ySig 3]).
Definition yAuth1 : auth := mkA [ySig 0; ySig 1] [yTsg; yTsg] [(yMat "D" 32, [ySig 2])] [(ySig 0, Some (s2b "B")); (ySig 4, None)] [(yMat "B" 32, yMat "0B" 64)] [yTsg]
  [(SealSource, [yNum; yMat "E" 32]); (SealEvent, [yMat "E" 32; yNum; yMat "E" 32]); (SealSource, [yNum; yMat "F" 32])].
Definition yAuth2 : auth := mkA [ySig 0; ySig 1] [yTsg; yTsg] [(yMat "D" 32, [ySig 2])] [(ySig 0, Some (s2b "B")); (ySig 4, None)] [(yMat "B" 32, yMat "0B" 64)] [yTsg]
  [(SealSource, [yNum; yMat "E" 32]); (BlindState, [yMat "E" 32; yMat "0A" 16; yMat "0A" 16; yMat "V" 1]); (SealSource, [yNum; yMat "F" 32])].
Definition yLone : auth := mkA [ySig 1] [] [] [] [] [] [].
Definition yText (r : res bytes) : bytes := match r with Ok b => b | Err _ => [] end.
(* a version 1 message; a version 2 message with two nested ones, one of which has a nested one itself *)
Definition yMsg1 := yText (messagize yRaw1 V1 false yAuth1 [] false false V1 false).
Definition yLeaf := yText (messagize yRaw1 V1 false yLone [] false true V1 false).
Definition yMid := yText (messagize yRaw2 V2 false yAuth2 [yLeaf] true true V2 false).
Definition yMsg2 := yText (messagize yRaw2 V2 false yAuth2 [yMid; yLeaf] false false V2 false).
Definition yT1 := Node bytes yRaw1 yRaw1 yAuth1 [].
Definition yTleaf := Node bytes yRaw1 yRaw1 yLone [].
Definition yT2 := Node bytes yRaw2 yRaw2 yAuth2 [Node bytes yRaw2 yRaw2 yAuth2 [yTleaf]; yTleaf].

Lemma octets_dec : forall b, forallb (fun x => x <? 256) b = true -> octets b.
Proof. intros b H. apply Forall_forall. intros x J. rewrite forallb_forall in H. apply N.ltb_lt. apply (H x J). Qed.
Lemma ySig_ok : forall i x, siger_of_raw (repeat 5 64) (s2b "A") i None = Ok x -> sig_ok x.
Proof. intros i x H. exists (repeat 5 64), (s2b "A"), i, None. split; [apply octets_dec; vm_compute; reflexivity|exact H]. Qed.
Lemma yMat_ok : forall k n c m, matter_of_raw (repeat 7 (N.to_nat n)) (s2b c) [] None = Ok m -> prim xCheck k m.
Proof. intros k n c m H. split; [|reflexivity]. apply (built_raw (repeat 7 (N.to_nat n)) (s2b c) [] None); [|exact H]. apply Forall_forall. intros x J. apply repeat_spec in J. subst x. reflexivity. Qed.
Lemma yNum_ok : forall k, prim xCheck k yNum.
Proof. intros k. split; [|reflexivity]. apply (SubsThms.number_built 300 None). vm_compute. reflexivity. Qed.
Ltac pm c n := apply (yMat_ok _ n c); vm_compute; reflexivity.
Ltac pr := first [apply yNum_ok | pm "E"%string 32 | pm "F"%string 32 | pm "D"%string 32 | pm "B"%string 32 | pm "0B"%string 64 | pm "0A"%string 16 | pm "V"%string 1].
Ltac sg := match goal with |- sig_ok (ySig ?i) => apply (ySig_ok i); vm_compute; reflexivity end.
Lemma yFew : forall v, fewSigs v [ySig 0; ySig 3] /\ fewSigs v [ySig 2].
Proof. intros v. split; intros _ b H; vm_compute in H; apply ok_inj in H; subst b; vm_compute; reflexivity. Qed.
Lemma yTsg_ok : forall v, tsg_ok xCheck v yTsg.
Proof. intros v. split; [pr|]. split; [apply yNum_ok|]. split; [pr|]. split; [constructor; [sg|constructor; [sg|constructor]]|apply yFew]. Qed.
Ltac fa := first [apply Forall_nil | apply Forall_cons; [|fa]].
Ltac au v := constructor; cbn [a_sigers a_tsgs a_lsgs a_wigers a_cigars a_rsgs a_bonds yAuth1 yAuth2 yLone];
  [ fa; sg | fa; apply yTsg_ok | fa; (split; [pr|split; [fa; sg|apply (proj2 (yFew v))]]) | fa; cbn [fst]; sg | fa; cbn [fst snd]; split; pr | fa; apply yTsg_ok
  | fa; eexists; eexists; (split; [vm_compute; reflexivity|]); cbn [snd]; repeat (first [apply Forall2_nil | apply Forall2_cons; [pr|]]) ].
Lemma yAuth1_ok : auth_ok xCheck V1 yAuth1. Proof. au V1. Qed.
Lemma yAuth2_ok : auth_ok xCheck V2 yAuth2. Proof. au V2. Qed.
Lemma yLone_ok : auth_ok xCheck V2 yLone. Proof. au V2. Qed.
Ltac bo := split; [split; [vm_compute; reflexivity|eexists; split; vm_compute; reflexivity]|vm_compute; reflexivity].
Lemma yLeaf_ok : written bytes xLoad xCheck yTleaf yLeaf.
Proof. apply (written_node _ _ _ _ V1 _ _ _ [] false V1); [apply octets_dec; vm_compute; reflexivity|vm_compute; reflexivity|exact yLone_ok|constructor|vm_compute; reflexivity|vm_compute; reflexivity]. Qed.




(** *** What is written but cannot be read, or not written at all *)
Definition yLost (framed : bool) (v : CtrModel.versionage) (m : bytes) : Prop :=
  exists x, session bytes xLoad xNative xCheck 5 framed (fresh bytes xLoad xNative xCheck 5 framed (mkP v [])) [m] [] x.
Ltac lost := apply (run_session bytes xLoad xNative xCheck 5 _ 6); vm_compute; reflexivity.

(** A group of 187 signatures of one controller (16456 characters): written with the code for big groups,
    which the reader does not know inside other groups. *)
Definition yMany : auth := mkA [] [(yMat "E" 32, yNum, yMat "E" 32, repeat (ySig 0) 187)] [] [] [] [] [].
Lemma c55_many_signatures_refuted : exists m, messagize yRaw2 V2 false yMany [] false false V2 false = Ok m /\ yLost false V2 m /\
  Forall sig_ok (repeat (ySig 0) 187).
Proof.
  exists (yText (messagize yRaw2 V2 false yMany [] false false V2 false)). split; [vm_compute; reflexivity|]. split; [lost|].
  apply Forall_forall. intros x J. apply repeat_spec in J. subst x. sg.
Qed.

(** Bonds that seal the last event of a registrar, a digest, a root or a backer: messagize accepts them,
    the parser has no method for them and drops the whole message. *)
Definition yBond (c : clan) (ms : list matter) : auth := mkA [ySig 0] [] [] [] [] [] [(c, ms)].
Lemma c55_bonds_refuted : forall c ms, In (c, ms) [(SealLast, [yMat "E" 32]); (SealDigest, [yMat "E" 32]); (SealRoot, [yMat "E" 32]); (SealBack, [yMat "B" 32; yMat "E" 32])] ->
  exists m, messagize yRaw2 V2 false (yBond c ms) [] false false V2 false = Ok m /\ yLost false V2 m.
Proof.
  intros c ms J. exists (yText (messagize yRaw2 V2 false (yBond c ms) [] false false V2 false)). cbn [In] in J.
  destruct J as [J|[J|[J|[J|[]]]]]; injection J as <- <-; (split; [vm_compute; reflexivity|lost]).
Qed.
Lemma c55_last_v1_refuted : v1clan SealLast = true /\ exists e, messagize yRaw1 V1 false (yBond SealLast [yMat "E" 32]) [] false false V1 false = Err e.
Proof. split; [reflexivity|]. eexists. vm_compute. reflexivity. Qed.
