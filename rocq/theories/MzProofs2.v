(** Proofs for C55: attachment groups, the loop over them, whole messages. *)
From Verif Require Import Prelude B64Model B64Proofs MatterModel MatterProofs MatterSpec MatterThms IdxModel IdxThms SubsModel SubsProofs SubsThms
  SerModel VerModel CtrModel CtrProofs CtrThms KelModel PsModel PsSpec PsProofs PsTerm MzModel MzSpec MzProofs.
Open Scope N_scope.
Ltac Zify.zify_post_hook ::= Z.div_mod_to_equations.

Lemma cat_app : forall l1 l2 b, cat (l1 ++ l2) = Ok b -> exists b1 b2, cat l1 = Ok b1 /\ cat l2 = Ok b2 /\ b = b1 ++ b2.
Proof.
  induction l1 as [|r l1 IH]; intros l2 b H.
  - exists [], b. auto.
  - cbn [app] in H. destruct (cat_cons _ _ _ H) as (x & y & R & Y & ->). destruct (IH _ _ Y) as (b1 & b2 & B1 & B2 & ->).
    exists (x ++ b1), b2. split; [cbn [cat]; rewrite R; cbn [bind]; rewrite B1; reflexivity|]. split; [exact B2|apply app_assoc].
Qed.

(** counters as the reader sees them *)
Lemma cnt_read : forall v name n q, v = V1 \/ v = V2 -> cnt v name n = Ok q -> exists c, counter_of v (s2b name) n = Ok c /\ c_count c = n /\ c_vrsn c = v /\ sniff q = Ok Ctxt
  /\ (forall t, counter_strip v (q ++ t) = Ok (c, t)) /\ byteSize c Ctxt = Ok (len q).
Proof.
  intros v name n q Hv H. unfold cnt in H. apply bind_ok in H. destruct H as (c & Hc & Hq). exists c. split; [exact Hc|].
  destruct (c39_text_round_trip _ _ _ _ Hc) as (E1 & E2 & q' & D & _ & _ & E). rewrite Hq in D. apply ok_inj in D. subst q'.
  split; [exact E1|]. split; [exact E2|].
  destruct (counter_of_ok _ _ _ _ Hc) as (_ & _ & codes & sizes & sz & K & _).
  pose proof (cinfil_ok _ _ _ _ K) as Q2. rewrite Hq in Q2. apply ok_inj in Q2. pose proof (cboth_len _ _ _ _ K) as QL. destruct (counter_code0 _ _ _ _ K) as (r & C0).
  split; [rewrite Q2; unfold cboth; rewrite C0; reflexivity|]. split; [exact E|]. unfold byteSize. rewrite (csize_ok _ _ _ _ K). cbn [bind]. rewrite Q2, QL. reflexivity.
Qed.
Lemma enclose_read : forall v name s g, v = V1 \/ v = V2 -> enclose v (s2b name) s = Ok g -> exists c h, counter_of v (s2b name) (len s / 4) = Ok c /\ c_vrsn c = v
  /\ g = h ++ s /\ sniff g = Ok Ctxt /\ (forall t, counter_strip v (g ++ t) = Ok (c, s ++ t)) /\ byteSize c Ctxt = Ok (len h) /\ byteCount c Ctxt = Ok (len s).
Proof.
  intros v name s g Hv H. unfold enclose in H. apply raise_if_ok in H. destruct H as [H4 H].
  apply bind_ok in H. destruct H as (c & Hc & H). apply raise_if_ok in H. destruct H as [_ H]. apply bind_ok in H. destruct H as (q & Hq & H). apply ok_inj in H. subst g.
  destruct (cnt_read v name (len s / 4) q Hv) as (c' & E1 & E2 & E3 & E4 & E5 & E6); [unfold cnt; rewrite Hc; exact Hq|]. rewrite Hc in E1. apply ok_inj in E1. subst c'.
  exists c, q. split; [exact Hc|]. split; [exact E3|]. split; [reflexivity|].
  split; [rewrite sniff_app; [exact E4|intros ->; discriminate E4]|]. split; [intros t; rewrite <- app_assoc; apply E5|]. split; [exact E6|].
  unfold byteCount. rewrite E2. f_equal. lia.
Qed.

Lemma takeF_ok : forall n v b framed, n <= len b -> resume (takeF n framed) (mkP v b) = Done (Ok (ntake n b)) (mkP v (ndrop n b)).
Proof. intros n v b framed L. unfold takeF. rewrite resume_op. cbn [pb pv]. replace (len b <? n) with false by lia. reflexivity. Qed.

Section Mz.
Variable Ser : Type.
Variable sload : smellage -> bytes -> res Ser.
Variable nload : bool -> counter -> bytes -> res Ser.
Variable kcheck : klas -> matter -> res unit.
Local Notation exts := (exts Ser).
Local Notation prim := (prim kcheck).
Local Notation matAt := (matAt kcheck).
Local Notation elemP := (elemP kcheck).
Local Notation elemC := (elemC kcheck).
Local Notation readsP := (readsP kcheck).
Local Notation readsC := (readsC kcheck).
Local Notation attMethod := (attMethod Ser kcheck).
Local Notation addAtts := (addAtts Ser).
Local Notation attLoop := (attLoop Ser kcheck).
Local Notation attach := (attach Ser kcheck).
Local Notation msgP := (msgP Ser sload nload kcheck).

Lemma len_nat : forall {A} (l : list A), N.to_nat (len l) = List.length l.
Proof. intros A l. unfold len. apply Nnat.Nat2N.id. Qed.

(* ------------------------------------------------------------------ *)
(** Elements. *)
Lemma sig_reads : forall v x q, sig_ok x -> iinfil x = Ok q -> readsC v SSig q (ISig x) /\ readsP v SSig q (ISig x).
Proof.
  intros v x q P Q. destruct (sig_read _ _ P Q) as (Nq & R). split; [intros t|split; [exact Nq|intros t]].
  - cbn [PsModel.elemC]. rewrite resume_bindc. unfold extractor. rewrite resume_op. cbn [pb pv]. rewrite R. reflexivity.
  - cbn [PsModel.elemP]. rewrite R. reflexivity.
Qed.
Lemma mats_reads : forall v ks ms b, Forall2 prim ks ms -> ks <> [] -> matsB ms = Ok b -> readsC v (SMat ks) b (IMats ms []) /\ readsP v (SMat ks) b (IMats ms []).
Proof.
  intros v ks ms b F Nk B. destruct (matsB_read _ _ _ F _ B) as (Nb & R1 & R2). split; [intros t|split; [exact (Nb Nk)|intros t]].
  - cbn [PsModel.elemC]. rewrite resume_bindc, R2. reflexivity.
  - cbn [PsModel.elemP]. rewrite R1. reflexivity.
Qed.
Lemma grp_reads1 : forall ks ms b xs q s, Forall2 prim ks ms -> ks <> [] -> matsB ms = Ok b -> Forall sig_ok xs ->
  cnt V1 "ControllerIdxSigs" (len xs) = Ok q -> sigsB xs = Ok s ->
  readsC V1 (SGrp ks) (b ++ q ++ s) (IMats ms xs) /\ readsP V1 (SGrp ks) (b ++ q ++ s) (IMats ms xs).
Proof.
  intros ks ms b xs q s F Nk B Fx Q Sx. destruct (matsB_read _ _ _ F _ B) as (Nb & R1 & R2). destruct (sigsB_read _ Fx _ Sx) as (S1 & S2 & _).
  destruct (cnt_read _ _ _ _ (or_introl eq_refl) Q) as (c & C1 & C2 & C3 & _ & C4 & _).
  assert (Ix : isIdxSigs c = true) by (apply (ctr_idxsigs V1 (len xs)); [auto|exact C1|discriminate]).
  split; [intros t|split; [intros E; apply app_eq_nil in E; destruct E as [E _]; exact (Nb Nk E)|intros t]].
  - cbn [PsModel.elemC]. rewrite resume_bindc, <- app_assoc, R2, resume_bindc. unfold extractor. rewrite resume_op. cbn [pb pv counterAt]. rewrite <- app_assoc, C4.
    cbn [pv]. rewrite Ix. cbn [negb]. rewrite resume_bindc, C2, len_nat, S2. reflexivity.
  - cbn [PsModel.elemP]. rewrite <- app_assoc, R1. cbn [bind]. unfold groupSigs. cbn [counterAt]. rewrite <- app_assoc, C4. cbn [bind]. rewrite Ix. cbn [negb V1 vmajor].
    replace (1 =? 1) with true by reflexivity. rewrite C2, len_nat, S1. reflexivity.
Qed.
Lemma grp_reads2 : forall ks ms b xs g, Forall2 prim ks ms -> ks <> [] -> matsB ms = Ok b -> Forall sig_ok xs -> fewSigs V2 xs ->
  sigs2 V2 "ControllerIdxSigs" xs = Ok g -> readsP V2 (SGrp ks) (b ++ g) (IMats ms xs).
Proof.
  intros ks ms b xs g F Nk B Fx Few G. destruct (matsB_read _ _ _ F _ B) as (Nb & R1 & _).
  unfold sigs2 in G. apply bind_ok in G. destruct G as (s & Sx & G). destruct (sigsB_read _ Fx _ Sx) as (_ & _ & S3).
  destruct (enclose_read _ _ _ _ (or_intror eq_refl) G) as (c & h & C1 & C2 & Eg & C3 & C4 & C5 & C6).
  assert (Ix : isIdxSigs c = true).
  { apply (ctr_idxsigs V2 (len s / 4)); [auto|exact C1|]. intros _. specialize (Few eq_refl _ Sx). clear - Few. lia. }
  split; [intros E; apply app_eq_nil in E; destruct E as [E _]; exact (Nb Nk E)|intros t].
  cbn [PsModel.elemP]. rewrite <- app_assoc, R1. cbn [bind]. unfold groupSigs. cbn [counterAt]. rewrite C4. cbn [bind]. rewrite Ix. cbn [negb V2 vmajor].
  replace (2 =? 1) with false by reflexivity. rewrite C6. cbn [bind].
  replace (len (s ++ t) <? len s) with false by (rewrite len_app; clear; lia). rewrite ntake_len_app, ndrop_len_app, S3; [reflexivity|]. rewrite app_length. lia.
Qed.

(* ------------------------------------------------------------------ *)
(** Groups. *)
Definition attseg (v : CtrModel.versionage) (g : bytes) (f : fld) (is : list item) : Prop :=
  sniff g = Ok Ctxt /\ exists ct content n, (forall t, counter_strip v (g ++ t) = Ok (ct, content ++ t)) /\ byteSize ct Ctxt = Ok n /\ plainCtr ct /\
   forall e t, resume (attMethod ct Ctxt true e) (mkP v (content ++ t)) = Done (Ok (addAtts e f is)) (mkP v t).

Lemma seg1 : forall name f sh q bs is, In name smalls1 -> methodNamed V1 name = Some (M1 f sh) -> cnt V1 name (len is) = Ok q ->
  Forall2 (readsC V1 sh) bs is -> attseg V1 (q ++ List.concat bs) f is.
Proof.
  intros name f sh q bs is I M Q F. destruct (cnt_read _ _ _ _ (or_introl eq_refl) Q) as (c & C1 & C2 & C3 & Sn & C4 & C5).
  destruct (ctr_method V1 name _ _ (or_introl eq_refl) I C1) as (Mc & Pl).
  split; [rewrite sniff_app; [exact Sn|intros ->; discriminate Sn]|]. exists c, (List.concat bs), (len q).
  split; [intros t; rewrite <- app_assoc; apply C4|]. split; [exact C5|]. split; [exact Pl|]. intros e t. unfold PsModel.attMethod. rewrite Mc, M.
  rewrite resume_bindc, C2, len_nat, (elemsC_read _ _ _ _ _ F). reflexivity.
Qed.
Lemma seg2 : forall v name f sh g bs is, v = V1 \/ v = V2 -> In name (smalls v) -> methodNamed v name = Some (M2 f sh) -> enclose v (s2b name) (List.concat bs) = Ok g ->
  Forall2 (readsP v sh) bs is -> attseg v g f is.
Proof.
  intros v name f sh g bs is Hv I M G F. destruct (enclose_read _ _ _ _ Hv G) as (c & h & C1 & C2 & Eg & Sn & C4 & C5 & C6).
  destruct (ctr_method v name _ _ Hv I C1) as (Mc & Pl).
  split; [exact Sn|]. exists c, (List.concat bs), (len h).
  split; [exact C4|]. split; [exact C5|]. split; [exact Pl|]. intros e t. unfold PsModel.attMethod. rewrite Mc, M.
  rewrite resume_bindc, resume_lift, C6, resume_bindc, resume_op. cbn [pb pv].
  replace (len (List.concat bs ++ t) <? len (List.concat bs)) with false by (rewrite len_app; clear; lia).
  rewrite ntake_len_app, ndrop_len_app, resume_bindc. unfold getV. rewrite resume_op. cbn [pv]. rewrite resume_bindc, resume_lift.
  rewrite (elemsP_read _ _ _ _ _ F) by lia. reflexivity.
Qed.

(** a run of groups: its text, what it adds, how many groups *)
Definition pieces (v : CtrModel.versionage) (b : bytes) (atts : list (fld * item)) (k : nat) : Prop :=
  exists segs : list (bytes * (fld * list item)), Forall (fun s => attseg v (fst s) (fst (snd s)) (snd (snd s))) segs
   /\ b = List.concat (map fst segs) /\ atts = List.concat (map (fun s => map (pair (fst (snd s))) (snd (snd s))) segs) /\ List.length segs = k.
Lemma pieces_nil : forall v, pieces v [] [] 0.
Proof. intros v. exists []. auto. Qed.
Lemma pieces_one : forall v g f is, attseg v g f is -> pieces v g (map (pair f) is) 1.
Proof. intros v g f is A. exists [(g, (f, is))]. cbn. rewrite !app_nil_r. auto. Qed.
Lemma pieces_app : forall v b1 a1 k1 b2 a2 k2, pieces v b1 a1 k1 -> pieces v b2 a2 k2 -> pieces v (b1 ++ b2) (a1 ++ a2) (k1 + k2).
Proof.
  intros v b1 a1 k1 b2 a2 k2 (s1 & F1 & -> & -> & <-) (s2 & F2 & -> & -> & <-). exists (s1 ++ s2).
  split; [apply Forall_app; auto|]. rewrite !map_app, !concat_app, app_length. auto.
Qed.

Definition some {A} (l : list A) : nat := match l with [] => O | _ => 1%nat end.
Lemma when_pieces : forall {A} (l : list A) r b v f is, when l r = Ok b -> List.length is = List.length l ->
  (forall b, r = Ok b -> attseg v b f is) -> pieces v b (map (pair f) is) (some l).
Proof.
  intros A [|x l] r b v f is H L K.
  - apply ok_inj in H. subst b. destruct is; [apply pieces_nil|discriminate].
  - apply pieces_one. apply K. exact H.
Qed.

(* ------------------------------------------------------------------ *)
(** What is sent. *)
Definition sentNum (v : CtrModel.versionage) (m : matter) : matter :=
  if vmajor v =? 1 then match v1seqner m with Ok s => s | Err _ => m end else m.
Fixpoint sent (v : CtrModel.versionage) (ks : list klas) (ms : list matter) : list matter :=
  match ks, ms with
  | k :: ks, m :: ms => (match k with KNumber => sentNum v m | _ => m end) :: sent v ks ms
  | _, _ => ms
  end.

Hypothesis Acc : accepting kcheck.

Lemma v1seqner_ok : forall m s, v1seqner m = Ok s -> built s /\ m_code s = s2b "0A" /\ num s = num m.
Proof.
  intros m s H. unfold v1seqner in H. destruct (c06_huge_round_trip m []) as [Le Gt].
  destruct (N.le_gt_cases (num m) MaxON) as [L|G]; [|destruct (Gt G) as (_ & E & _); congruence].
  destruct (Le L) as (q & s' & _ & _ & E & _ & _ & Nm). rewrite H in E. apply ok_inj in E. subst s'.
  unfold seqner_of_sn in H. apply raise_if_ok in H. destruct H as [_ H]. apply bind_ok in H. destruct H as (raw & Hr & H).
  split.
  - apply (built_raw raw NumHuge [] None); [|exact H]. unfold int_to_bytes in Hr.
    match type of Hr with (if ?b then _ else _) = _ => destruct b; [|discriminate] end. apply ok_inj in Hr. subst raw. apply to_digits_bound. lia.
  - split; [|exact Nm]. unfold matter_of_raw in H. change (dget Sizes NumHuge) with (Some (mkSizage 2 0 0 (Some 24) 0)) in H.
    cbn [fs bind] in H. change NumHuge with (48 :: [65]) in H. cbv iota in H. apply bind_ok in H. destruct H as (rz & _ & H). apply bind_ok in H. destruct H as (so & _ & H).
    apply raise_if_ok in H. destruct H as [_ H]. apply ok_inj in H. subst s. reflexivity.
Qed.
Lemma v1seqner_prim : forall m s, v1seqner m = Ok s -> prim KNumber s.
Proof. intros m s H. destruct (v1seqner_ok _ _ H) as (B & C & _). split; [exact B|]. apply (proj1 Acc). exact C. Qed.

Lemma sent_sames : forall v ks ms, v = V1 \/ v = V2 -> Forall2 prim ks ms -> sames v ks ms (sent v ks ms).
Proof.
  intros v ks ms Hv. induction 1 as [|k m ks ms P F IH]; [exact Logic.I|]. cbn [sent sames]. split; [|exact IH].
  destruct k; try reflexivity. cbn [same]. unfold sentNum. destruct Hv as [-> | ->]; cbn [V1 V2 vmajor].
  - replace (1 =? 1) with true by reflexivity. destruct (v1seqner m) as [s|e] eqn:E; [|split; [reflexivity|discriminate]]. split; [apply (v1seqner_ok _ _ E)|discriminate].
  - replace (2 =? 1) with false by reflexivity. split; reflexivity.
Qed.
Lemma sent2 : forall ks ms, sent V2 ks ms = ms.
Proof. induction ks as [|k ks IH]; intros [|m ms]; try reflexivity. cbn [sent]. rewrite IH. destruct k; reflexivity. Qed.

(** what arrives *)
Definition itemT (v : CtrModel.versionage) (t : matter * matter * matter * list indexer) : item :=
  let '(p, n, d, xs) := t in IMats (sent v [KPrefixer; KNumber; KDiger] [p; n; d]) xs.
Definition itemL (t : matter * list indexer) : item := IMats [fst t] (snd t).
Definition itemC (c : matter * matter) : item := IMats [fst c; snd c] [].
Definition itemB (v : CtrModel.versionage) (c : clan) (ms : list matter) : item :=
  IMats (match fieldsOf v c with Some (_, ks) => sent v ks ms | None => ms end) [].
Definition attsB (v : CtrModel.versionage) (g : clan * list (list matter)) : list (fld * item) :=
  match fieldsOf v (fst g) with Some (f, _) => map (pair f) (map (itemB v (fst g)) (snd g)) | None => [] end.
Definition attsOf (v : CtrModel.versionage) (a : auth) : list (fld * item) :=
  map (pair Fsigers) (map ISig (a_sigers a)) ++ map (pair Ftsgs) (map (itemT v) (a_tsgs a)) ++ map (pair Flsgs) (map itemL (a_lsgs a)) ++
  map (pair Fwigers) (map ISig (map fst (a_wigers a))) ++ map (pair Fcigars) (map itemC (a_cigars a)) ++ map (pair Frsgs) (map (itemT v) (a_rsgs a)) ++
  List.concat (map (attsB v) (collate (a_bonds a))).
Definition groupsOf (a : auth) : nat :=
  (some (a_sigers a) + (some (a_tsgs a) + (some (a_lsgs a) + (some (a_wigers a) + (some (a_cigars a) + (some (a_rsgs a) + List.length (collate (a_bonds a))))))))%nat.

Lemma tsg1_reads : forall t b, tsg_ok kcheck V1 t -> tsg1 t = Ok b ->
  readsC V1 (SGrp [KPrefixer; KNumber; KDiger]) b (itemT V1 t) /\ readsP V1 (SGrp [KPrefixer; KNumber; KDiger]) b (itemT V1 t).
Proof.
  intros [[[p n] d] xs] b (Pp & Pn & Pd & Fx & _) H. unfold tsg1 in H. apply bind_ok in H. destruct H as (s & Hs & H).
  change [infil p; infil s; infil d; cnt V1 "ControllerIdxSigs" (len xs); sigsB xs] with (map infil [p; s; d] ++ [cnt V1 "ControllerIdxSigs" (len xs); sigsB xs]) in H.
  destruct (cat_app _ _ _ H) as (b1 & b2 & B1 & B2 & ->). destruct (cat_cons _ _ _ B2) as (q & y & Q & Y & ->). destruct (cat_cons _ _ _ Y) as (s' & z & Sx & Z & ->).
  apply ok_inj in Z. subst z. rewrite app_nil_r.
  replace (itemT V1 (p, n, d, xs)) with (IMats [p; s; d] xs).
  - apply (grp_reads1 [KPrefixer; KNumber; KDiger]); [|discriminate|exact B1|exact Fx|exact Q|exact Sx].
    constructor; [exact Pp|]. constructor; [apply (v1seqner_prim _ _ Hs)|]. constructor; [exact Pd|constructor].
  - unfold itemT. cbn [sent]. unfold sentNum. cbn [V1 vmajor]. replace (1 =? 1) with true by reflexivity. rewrite Hs. reflexivity.
Qed.
Lemma tsg2_reads : forall t b, tsg_ok kcheck V2 t -> tsg2 V2 t = Ok b -> readsP V2 (SGrp [KPrefixer; KNumber; KDiger]) b (itemT V2 t).
Proof.
  intros [[[p n] d] xs] b (Pp & Pn & Pd & Fx & Few) H. unfold tsg2 in H.
  change [infil p; infil n; infil d; sigs2 V2 "ControllerIdxSigs" xs] with (map infil [p; n; d] ++ [sigs2 V2 "ControllerIdxSigs" xs]) in H.
  destruct (cat_app _ _ _ H) as (b1 & b2 & B1 & B2 & ->). destruct (cat_cons _ _ _ B2) as (q & z & Q & Z & ->).
  apply ok_inj in Z. subst z. rewrite app_nil_r. unfold itemT. rewrite sent2.
  apply grp_reads2; [|discriminate|exact B1|exact Fx|exact Few|exact Q].
  constructor; [exact Pp|]. constructor; [exact Pn|]. constructor; [exact Pd|constructor].
Qed.
Lemma lsg1_reads : forall t b, lsg_ok kcheck V1 t -> lsg1 t = Ok b -> readsC V1 (SGrp [KPrefixer]) b (itemL t).
Proof.
  intros [p xs] b (Pp & Fx & _) H. unfold lsg1 in H.
  change [infil p; cnt V1 "ControllerIdxSigs" (len xs); sigsB xs] with (map infil [p] ++ [cnt V1 "ControllerIdxSigs" (len xs); sigsB xs]) in H.
  destruct (cat_app _ _ _ H) as (b1 & b2 & B1 & B2 & ->). destruct (cat_cons _ _ _ B2) as (q & y & Q & Y & ->). destruct (cat_cons _ _ _ Y) as (s' & z & Sx & Z & ->).
  apply ok_inj in Z. subst z. rewrite app_nil_r. unfold itemL. cbn [fst snd].
  apply (grp_reads1 [KPrefixer]); [|discriminate|exact B1|exact Fx|exact Q|exact Sx]. constructor; [exact Pp|constructor].
Qed.
Lemma lsg2_reads : forall t b, lsg_ok kcheck V2 t -> lsg2 V2 t = Ok b -> readsP V2 (SGrp [KPrefixer]) b (itemL t).
Proof.
  intros [p xs] b (Pp & Fx & Few) H. unfold lsg2 in H.
  change [infil p; sigs2 V2 "ControllerIdxSigs" xs] with (map infil [p] ++ [sigs2 V2 "ControllerIdxSigs" xs]) in H.
  destruct (cat_app _ _ _ H) as (b1 & b2 & B1 & B2 & ->). destruct (cat_cons _ _ _ B2) as (q & z & Q & Z & ->).
  apply ok_inj in Z. subst z. rewrite app_nil_r. unfold itemL. cbn [fst snd].
  apply grp_reads2; [|discriminate|exact B1|exact Fx|exact Few|exact Q]. constructor; [exact Pp|constructor].
Qed.

(** lists of texts *)
Lemma texts_reads : forall {X} (ok : X -> Prop) (text : X -> res bytes) (it : X -> item) (R : bytes -> item -> Prop),
  (forall x b, ok x -> text x = Ok b -> R b (it x)) -> forall l bs, Forall ok l -> Forall2 (fun x y => text x = Ok y) l bs -> Forall2 R bs (map it l).
Proof.
  intros X ok text it R H l bs F. revert bs. induction F as [|x l P F IH]; intros bs G; inversion G; subst; [constructor|].
  cbn [map]. constructor; [apply H; assumption|]. apply IH. assumption.
Qed.
Lemma len_map : forall {A B} (f : A -> B) l, len (map f l) = len l.
Proof. intros A B f l. unfold len. rewrite map_length. reflexivity. Qed.

Lemma counted1 : forall {X} (ok : X -> Prop) (text : X -> res bytes) (it : X -> item) name f sh l b,
  In name smalls1 -> methodNamed V1 name = Some (M1 f sh) -> (forall x b, ok x -> text x = Ok b -> readsC V1 sh b (it x)) -> Forall ok l ->
  cat (cnt V1 name (len l) :: map text l) = Ok b -> attseg V1 b f (map it l).
Proof.
  intros X ok text it name f sh l b I M R F H. destruct (cat_cons _ _ _ H) as (q & y & Q & Y & ->). destruct (cat_map _ _ _ Y) as (bs & G & ->).
  apply (seg1 name _ sh); [exact I|exact M|rewrite len_map; exact Q|]. apply (texts_reads ok text it _ R l bs F G).
Qed.
Lemma sized2 : forall {X} (ok : X -> Prop) (text : X -> res bytes) (it : X -> item) v name f sh l b c,
  v = V1 \/ v = V2 -> In name (smalls v) -> methodNamed v name = Some (M2 f sh) -> (forall x b, ok x -> text x = Ok b -> readsP v sh b (it x)) -> Forall ok l ->
  cat (map text l) = Ok c -> enclose v (s2b name) c = Ok b -> attseg v b f (map it l).
Proof.
  intros X ok text it v name f sh l b c Hv I M R F H G. destruct (cat_map _ _ _ H) as (bs & T & ->).
  apply (seg2 v name _ sh _ bs); [exact Hv|exact I|exact M|exact G|]. apply (texts_reads ok text it _ R l bs F T).
Qed.

(* ------------------------------------------------------------------ *)
(** Bonds. *)
Lemma clan_eqb_eq : forall a b, clan_eqb a b = true <-> a = b.
Proof. intros a b. split; [|intros ->; destruct b; reflexivity]. destruct a, b; intros H; try reflexivity; discriminate H. Qed.
Lemma fields_method : forall v c f ks, v = V1 \/ v = V2 -> fieldsOf v c = Some (f, ks) -> In (codenOf c) (smalls v) /\ ks <> [] /\
  methodNamed v (codenOf c) = Some (if vmajor v =? 1 then M1 f (SMat ks) else M2 f (SMat ks)).
Proof.
  intros v c f ks [-> | ->] H; destruct c; try discriminate H; vm_compute in H; injection H as <- <-; (split; [vm_compute; tauto|split; [discriminate|vm_compute; reflexivity]]).
Qed.
Lemma fields_inj : forall v c c' f ks ks', fieldsOf v c = Some (f, ks) -> fieldsOf v c' = Some (f, ks') -> c = c'.
Proof.
  intros v c c' f ks ks' H H'. unfold fieldsOf in *. destruct (vmajor v =? 2); destruct c; try discriminate H; destruct c'; try discriminate H'; try reflexivity; congruence.
Qed.
Lemma bond1_sent : forall c ms fs f ks, fieldsOf V1 c = Some (f, ks) -> Forall2 prim ks ms -> bond1 c ms = Ok fs -> fs = sent V1 ks ms /\ Forall2 prim ks fs.
Proof.
  intros c ms fs f ks Hf F H.
  assert (Sn : forall n s, v1seqner n = Ok s -> sentNum V1 n = s) by (intros n s E; unfold sentNum; cbn [V1 vmajor]; replace (1 =? 1) with true by reflexivity; rewrite E; reflexivity).
  destruct c; try discriminate Hf; vm_compute in Hf; injection Hf as <- <-; cbn [bond1] in H;
   repeat (match goal with F : Forall2 _ (_ :: _) ?l |- _ => inversion F; subst; clear F | F : Forall2 _ [] ?l |- _ => inversion F; subst; clear F end);
   cbn [bond1] in H; apply bind_ok in H; destruct H as (s & E & H); apply ok_inj in H; subst fs; cbn [sent]; rewrite (Sn _ _ E);
   (split; [reflexivity|]); repeat (constructor; [first [assumption | apply (v1seqner_prim _ _ E)]|]); constructor.
Qed.
Lemma addClan_In : forall {A} c (x : A) l c' g y, In (c', g) (addClan c x l) -> In y g -> (c' = c /\ y = x) \/ exists g', In (c', g') l /\ In y g'.
Proof.
  induction l as [|[k xs] l IH]; intros c' g y H J; cbn [addClan] in H.
  - destruct H as [H|[]]. injection H as <- <-. destruct J as [<-|[]]. auto.
  - destruct (clan_eqb c k) eqn:E.
    + apply clan_eqb_eq in E. subst k. destruct H as [H|H].
      * injection H as <- <-. apply in_app_or in J. destruct J as [J|[<-|[]]]; [right; exists xs; cbn; auto|auto].
      * right. exists g. cbn; auto.
    + destruct H as [H|H]; [right; exists g; cbn; auto|]. destruct (IH _ _ _ H J) as [D|(g' & D & D')]; [auto|]. right. exists g'. cbn; auto.
Qed.
Lemma collate_In : forall {A} (l : list (clan * A)) c g y, In (c, g) (collate l) -> In y g -> In (c, y) l.
Proof.
  intros A l. unfold collate. assert (X : forall acc c g y, In (c, g) (fold_left (fun l b => addClan (fst b) (snd b) l) l acc) -> In y g -> In (c, y) l \/ exists g', In (c, g') acc /\ In y g').
  { induction l as [|[k x] l IH]; intros acc c g y H J; cbn [fold_left] in H; [right; exists g; auto|].
    destruct (IH _ _ _ _ H J) as [D|(g' & D & D')]; [left; right; exact D|]. cbn [fst snd] in D. destruct (addClan_In _ _ _ _ _ _ D D') as [[-> ->]|D2]; [left; left; reflexivity|auto]. }
  intros c g y H J. destruct (X _ _ _ _ H J) as [D|(g' & [] & _)]. exact D.
Qed.
Lemma collate_fields : forall v bonds c g, Forall (bond_ok kcheck v) bonds -> In (c, g) (collate bonds) -> g <> [] ->
  exists f ks, fieldsOf v c = Some (f, ks) /\ Forall (Forall2 prim ks) g.
Proof.
  intros v bonds c g F H Ng. rewrite Forall_forall in F. destruct g as [|y g]; [congruence|].
  destruct (F _ (collate_In _ _ _ y H (or_introl eq_refl))) as (f & ks & E & _). cbn [fst] in E. exists f, ks. split; [exact E|]. rewrite Forall_forall. intros z J.
  destruct (F _ (collate_In _ _ _ z H J)) as (f' & ks' & E' & P). cbn [fst snd] in *. rewrite E in E'. injection E' as <- <-. exact P.
Qed.
Lemma addClan_ne : forall {A} c (x : A) l, Forall (fun p => snd p <> []) l -> Forall (fun p => snd p <> []) (addClan c x l).
Proof.
  induction 1 as [|[k xs] l P F IH]; cbn [addClan].
  - constructor; [discriminate|constructor].
  - destruct (clan_eqb c k); constructor; cbn [snd] in *; try assumption. destruct xs; discriminate.
Qed.
Lemma collate_ne : forall {A} (l : list (clan * A)), Forall (fun p => snd p <> []) (collate l).
Proof.
  intros A l. unfold collate. assert (X : forall acc, Forall (fun p => snd p <> []) acc -> Forall (fun p => snd p <> []) (fold_left (fun l b => addClan (fst b) (snd b) l) l acc)).
  { induction l as [|b l IH]; intros acc F; [exact F|]. cbn [fold_left]. apply IH. apply addClan_ne. exact F. }
  apply X. constructor.
Qed.
Lemma bonds_pieces : forall v (tx : clan * list (list matter) -> res bytes) l b,
  (forall c g b f ks, fieldsOf v c = Some (f, ks) -> Forall (Forall2 prim ks) g -> tx (c, g) = Ok b -> attseg v b f (map (itemB v c) g)) ->
  (forall c g, In (c, g) l -> exists f ks, fieldsOf v c = Some (f, ks) /\ Forall (Forall2 prim ks) g) ->
  cat (map tx l) = Ok b -> pieces v b (List.concat (map (attsB v) l)) (List.length l).
Proof.
  intros v tx l b T. revert b. induction l as [|[c g] l IH]; intros b F H.
  - apply ok_inj in H. subst b. apply pieces_nil.
  - cbn [map] in H. destruct (cat_cons _ _ _ H) as (x & y & X & Y & ->). destruct (F c g (or_introl eq_refl)) as (f & ks & E & P).
    cbn [map List.concat List.length]. apply (pieces_app v x (attsB v (c, g)) 1).
    + unfold attsB. cbn [fst snd]. rewrite E. apply pieces_one. apply (T c g x f ks E P X).
    + apply IH; [|exact Y]. intros c' g' J. apply F. right. exact J.
Qed.
Lemma bonds1_seg : forall c g b f ks, fieldsOf V1 c = Some (f, ks) -> Forall (Forall2 prim ks) g -> bonds1 (c, g) = Ok b -> attseg V1 b f (map (itemB V1 c) g).
Proof.
  intros c g b f ks E F H. destruct (fields_method V1 c f ks (or_introl eq_refl) E) as (I & Nk & M). unfold bonds1 in H.
  apply (counted1 (Forall2 prim ks) (fun ms => fs <- bond1 c ms ;; matsB fs) (itemB V1 c) (codenOf c) f (SMat ks)); [exact I|exact M| |exact F|exact H].
  intros ms t P X. apply bind_ok in X. destruct X as (fs & X & Y). destruct (bond1_sent _ _ _ _ _ E P X) as (-> & P').
  unfold itemB. rewrite E. apply (mats_reads V1 ks (sent V1 ks ms) t P' Nk Y).
Qed.
Lemma bonds2_seg : forall c g b f ks, fieldsOf V2 c = Some (f, ks) -> Forall (Forall2 prim ks) g -> bonds2 (c, g) = Ok b -> attseg V2 b f (map (itemB V2 c) g).
Proof.
  intros c g b f ks E F H. destruct (fields_method V2 c f ks (or_intror eq_refl) E) as (I & Nk & M). unfold bonds2 in H. apply bind_ok in H. destruct H as (t & Ht & H).
  apply (sized2 (Forall2 prim ks) matsB (itemB V2 c) V2 (codenOf c) f (SMat ks) g b t); [right; reflexivity|exact I|exact M| |exact F|exact Ht|exact H].
  intros ms x P X. unfold itemB. rewrite E, sent2. apply (mats_reads V2 ks ms x P Nk X).
Qed.

(* ------------------------------------------------------------------ *)
(** All attachments. *)
Ltac inn := vm_compute; tauto.
Lemma cats : forall r l b, cat (r :: l) = Ok b -> exists x y, r = Ok x /\ cat l = Ok y /\ b = x ++ y.
Proof. exact cat_cons. Qed.
Lemma cigar_prims : forall c : matter * matter, prim KVerfer (fst c) /\ prim KCigar (snd c) -> Forall2 prim [KVerfer; KCigar] [fst c; snd c].
Proof. intros c [A B]. constructor; [exact A|constructor; [exact B|constructor]]. Qed.

Lemma aims1_pieces : forall a b, auth_ok kcheck V1 a -> aims1 a = Ok b -> pieces V1 b (attsOf V1 a) (groupsOf a).
Proof.
  intros a b [K1 K2 K3 K4 K5 K6 K7] H. unfold aims1 in H.
  destruct (cats _ _ _ H) as (b1 & r1 & H1 & R1 & ->). destruct (cats _ _ _ R1) as (b2 & r2 & H2 & R2 & ->). destruct (cats _ _ _ R2) as (b3 & r3 & H3 & R3 & ->).
  destruct (cats _ _ _ R3) as (b4 & r4 & H4 & R4 & ->). destruct (cats _ _ _ R4) as (b5 & r5 & H5 & R5 & ->). destruct (cats _ _ _ R5) as (b6 & r6 & H6 & R6 & ->).
  destruct (cats _ _ _ R6) as (b7 & r7 & H7 & R7 & ->). apply ok_inj in R7. subst r7. rewrite app_nil_r. clear H R1 R2 R3 R4 R5 R6.
  unfold attsOf, groupsOf.
  apply pieces_app; [apply (when_pieces _ _ _ _ _ _ H1); [apply map_length|]|].
  { intros c Hc. destruct (cats _ _ _ Hc) as (x & y & X & Y & ->). destruct (cats _ _ _ Y) as (z & w & Z & W & ->). apply ok_inj in W. subst w. rewrite app_nil_r.
    apply (counted1 sig_ok iinfil ISig "ControllerIdxSigs" Fsigers SSig); [inn|reflexivity| |exact K1|cbn [cat]; rewrite X; cbn [bind]; unfold sigsB in Z; rewrite Z; reflexivity].
    intros s t P Q. apply (sig_reads V1 _ _ P Q). }
  apply pieces_app; [apply (when_pieces _ _ _ _ _ _ H2); [apply map_length|]|].
  { intros c Hc. apply (counted1 (tsg_ok kcheck V1) tsg1 (itemT V1) "TransIdxSigGroups" Ftsgs (SGrp [KPrefixer; KNumber; KDiger])); [inn|reflexivity| |exact K2|exact Hc].
    intros s t P Q. apply (tsg1_reads _ _ P Q). }
  apply pieces_app; [apply (when_pieces _ _ _ _ _ _ H3); [apply map_length|]|].
  { intros c Hc. apply (counted1 (lsg_ok kcheck V1) lsg1 itemL "TransLastIdxSigGroups" Flsgs (SGrp [KPrefixer])); [inn|reflexivity| |exact K3|exact Hc].
    intros s t P Q. apply (lsg1_reads _ _ P Q). }
  apply pieces_app; [apply (when_pieces _ _ _ _ _ _ H4); [rewrite !map_length; reflexivity|]|].
  { intros c Hc. apply raise_if_ok in Hc. destruct Hc as [_ Hc]. destruct (cats _ _ _ Hc) as (x & y & X & Y & ->). destruct (cats _ _ _ Y) as (z & w & Z & W & ->). apply ok_inj in W. subst w. rewrite app_nil_r.
    apply (counted1 sig_ok iinfil ISig "WitnessIdxSigs" Fwigers SSig); [inn|reflexivity| | |cbn [cat]; rewrite len_map, X; cbn [bind]; unfold sigsB in Z; rewrite Z; reflexivity].
    - intros s t P Q. apply (sig_reads V1 _ _ P Q).
    - apply Forall_map. exact K4. }
  apply pieces_app; [apply (when_pieces _ _ _ _ _ _ H5); [apply map_length|]|].
  { intros c Hc. apply raise_if_ok in Hc. destruct Hc as [_ Hc].
    apply (counted1 (fun c => prim KVerfer (fst c) /\ prim KCigar (snd c)) (fun c => matsB [fst c; snd c]) itemC "NonTransReceiptCouples" Fcigars (SMat [KVerfer; KCigar])); [inn|reflexivity| |exact K5|exact Hc].
    intros s t P Q. apply (mats_reads V1 [KVerfer; KCigar] [fst s; snd s] t (cigar_prims s P)); [discriminate|exact Q]. }
  apply pieces_app; [apply (when_pieces _ _ _ _ _ _ H6); [apply map_length|]|].
  { intros c Hc. apply bind_ok in Hc. destruct Hc as (r & Hr & Hc).
    apply (sized2 (tsg_ok kcheck V1) tsg1 (itemT V1) V1 "TransReceiptIdxSigGroups" Frsgs (SGrp [KPrefixer; KNumber; KDiger]) _ _ r); [left; reflexivity|inn|reflexivity| |exact K6|exact Hr|exact Hc].
    intros s t P Q. apply (tsg1_reads _ _ P Q). }
  apply raise_if_ok in H7. destruct H7 as [_ H7]. apply (bonds_pieces V1 bonds1); [exact bonds1_seg| |exact H7].
  intros c g J. apply (collate_fields V1 (a_bonds a)); [exact K7|exact J|]. pose proof (collate_ne (a_bonds a)) as Ne. rewrite Forall_forall in Ne. apply (Ne _ J).
Qed.

Lemma aims2_pieces : forall a b, auth_ok kcheck V2 a -> aims2 V2 a = Ok b -> pieces V2 b (attsOf V2 a) (groupsOf a).
Proof.
  intros a b [K1 K2 K3 K4 K5 K6 K7] H. unfold aims2 in H. cbv zeta in H.
  destruct (cats _ _ _ H) as (b1 & r1 & H1 & R1 & ->). destruct (cats _ _ _ R1) as (b2 & r2 & H2 & R2 & ->). destruct (cats _ _ _ R2) as (b3 & r3 & H3 & R3 & ->).
  destruct (cats _ _ _ R3) as (b4 & r4 & H4 & R4 & ->). destruct (cats _ _ _ R4) as (b5 & r5 & H5 & R5 & ->). destruct (cats _ _ _ R5) as (b6 & r6 & H6 & R6 & ->).
  destruct (cats _ _ _ R6) as (b7 & r7 & H7 & R7 & ->). apply ok_inj in R7. subst r7. rewrite app_nil_r. clear H R1 R2 R3 R4 R5 R6.
  unfold attsOf, groupsOf.
  apply pieces_app; [apply (when_pieces _ _ _ _ _ _ H1); [apply map_length|]|].
  { intros c Hc. apply bind_ok in Hc. destruct Hc as (r & Hr & Hc).
    apply (sized2 sig_ok iinfil ISig V2 "ControllerIdxSigs" Fsigers SSig _ _ r); [right; reflexivity|inn|reflexivity| |exact K1|exact Hr|exact Hc].
    intros s t P Q. apply (sig_reads V2 _ _ P Q). }
  apply pieces_app; [apply (when_pieces _ _ _ _ _ _ H2); [apply map_length|]|].
  { intros c Hc. apply bind_ok in Hc. destruct Hc as (r & Hr & Hc).
    apply (sized2 (tsg_ok kcheck V2) (tsg2 V2) (itemT V2) V2 "TransIdxSigGroups" Ftsgs (SGrp [KPrefixer; KNumber; KDiger]) _ _ r); [right; reflexivity|inn|reflexivity| |exact K2|exact Hr|exact Hc].
    intros s t P Q. apply (tsg2_reads _ _ P Q). }
  apply pieces_app; [apply (when_pieces _ _ _ _ _ _ H3); [apply map_length|]|].
  { intros c Hc. apply bind_ok in Hc. destruct Hc as (r & Hr & Hc).
    apply (sized2 (lsg_ok kcheck V2) (lsg2 V2) itemL V2 "TransLastIdxSigGroups" Flsgs (SGrp [KPrefixer]) _ _ r); [right; reflexivity|inn|reflexivity| |exact K3|exact Hr|exact Hc].
    intros s t P Q. apply (lsg2_reads _ _ P Q). }
  apply pieces_app; [apply (when_pieces _ _ _ _ _ _ H4); [rewrite !map_length; reflexivity|]|].
  { intros c Hc. apply raise_if_ok in Hc. destruct Hc as [_ Hc]. apply bind_ok in Hc. destruct Hc as (r & Hr & Hc).
    apply (sized2 sig_ok iinfil ISig V2 "WitnessIdxSigs" Fwigers SSig _ _ r); [right; reflexivity|inn|reflexivity| | |exact Hr|exact Hc].
    - intros s t P Q. apply (sig_reads V2 _ _ P Q).
    - apply Forall_map. exact K4. }
  apply pieces_app; [apply (when_pieces _ _ _ _ _ _ H5); [apply map_length|]|].
  { intros c Hc. apply raise_if_ok in Hc. destruct Hc as [_ Hc]. apply bind_ok in Hc. destruct Hc as (r & Hr & Hc).
    apply (sized2 (fun c => prim KVerfer (fst c) /\ prim KCigar (snd c)) (fun c => matsB [fst c; snd c]) itemC V2 "NonTransReceiptCouples" Fcigars (SMat [KVerfer; KCigar]) _ _ r); [right; reflexivity|inn|reflexivity| |exact K5|exact Hr|exact Hc].
    intros s t P Q. apply (mats_reads V2 [KVerfer; KCigar] [fst s; snd s] t (cigar_prims s P)); [discriminate|exact Q]. }
  apply pieces_app; [apply (when_pieces _ _ _ _ _ _ H6); [apply map_length|]|].
  { intros c Hc. apply bind_ok in Hc. destruct Hc as (r & Hr & Hc).
    apply (sized2 (tsg_ok kcheck V2) (tsg2 V2) (itemT V2) V2 "TransReceiptIdxSigGroups" Frsgs (SGrp [KPrefixer; KNumber; KDiger]) _ _ r); [right; reflexivity|inn|reflexivity| |exact K6|exact Hr|exact Hc].
    intros s t P Q. apply (tsg2_reads _ _ P Q). }
  apply (bonds_pieces V2 bonds2); [exact bonds2_seg| |exact H7].
  intros c g J. apply (collate_fields V2 (a_bonds a)); [exact K7|exact J|]. pose proof (collate_ne (a_bonds a)) as Ne. rewrite Forall_forall in Ne. apply (Ne _ J).
Qed.

(* ------------------------------------------------------------------ *)
(** The lists that arrive. *)
Definition sel (f : fld) (l : list (fld * item)) : list item := map snd (filter (fun p => fld_eqb (fst p) f) l).
Lemma sel_app : forall f a b, sel f (a ++ b) = sel f a ++ sel f b.
Proof. intros f a b. unfold sel. rewrite filter_app, map_app. reflexivity. Qed.
Lemma fld_eqb_eq : forall a b, fld_eqb a b = true <-> a = b.
Proof. intros a b. split; [|intros ->; destruct b; reflexivity]. destruct a, b; intros H; try reflexivity; discriminate H. Qed.
Lemma sel_pair : forall f g l, sel f (map (pair g) l) = if fld_eqb g f then l else [].
Proof.
  intros f g l. unfold sel. induction l as [|i l IH]; cbn [map filter fst]; [destruct (fld_eqb g f); reflexivity|]. destruct (fld_eqb g f) eqn:E; [|exact IH].
  cbn [map snd]. rewrite IH. reflexivity.
Qed.
Definition selc {A} (c : clan) (l : list (clan * list A)) : list A := List.concat (map (fun g => if clan_eqb (fst g) c then snd g else []) l).
Lemma addClan_keys : forall {A} k (x : A) l, incl (map fst (addClan k x l)) (k :: map fst l).
Proof.
  intros A k x. induction l as [|[c xs] l IH]; cbn [addClan map fst]; [intros y J; exact J|]. destruct (clan_eqb k c) eqn:E; intros y J; cbn [map fst] in J.
  - right. exact J.
  - destruct J as [<-|J]; [cbn; auto|]. destruct (IH _ J) as [<-|J']; cbn; auto.
Qed.
Lemma addClan_nodup : forall {A} k (x : A) l, NoDup (map fst l) -> NoDup (map fst (addClan k x l)).
Proof.
  intros A k x. induction l as [|[c xs] l IH]; intros D; cbn [addClan map fst].
  - constructor; [intros []|constructor].
  - inversion D; subst. destruct (clan_eqb k c) eqn:E; cbn [map fst]; [exact D|]. constructor; [|auto]. intros J. destruct (addClan_keys _ _ _ _ J) as [->|J']; [|contradiction].
    assert (X : clan_eqb c c = true) by (apply clan_eqb_eq; reflexivity). congruence.
Qed.
Lemma selc_none : forall {A} c (l : list (clan * list A)), ~ In c (map fst l) -> selc c l = [].
Proof.
  intros A c. induction l as [|[k xs] l IH]; intros J; [reflexivity|]. unfold selc. cbn [map List.concat fst snd]. destruct (clan_eqb k c) eqn:E.
  - apply clan_eqb_eq in E. subst k. exfalso. apply J. left. reflexivity.
  - cbn [app]. apply IH. intros J'. apply J. right. exact J'.
Qed.
Lemma addClan_selc : forall {A} c k (x : A) l, NoDup (map fst l) -> selc c (addClan k x l) = selc c l ++ (if clan_eqb k c then [x] else []).
Proof.
  intros A c k x. induction l as [|[k' xs] l IH]; intros D; cbn [addClan].
  - unfold selc. cbn [map List.concat fst snd app]. rewrite app_nil_r. reflexivity.
  - inversion D as [|? ? Nin D']; subst. destruct (clan_eqb k k') eqn:E.
    + apply clan_eqb_eq in E. subst k'. unfold selc. cbn [map List.concat fst snd]. fold (selc c l). destruct (clan_eqb k c) eqn:E2; [|rewrite app_nil_r; reflexivity].
      apply clan_eqb_eq in E2. subst c. cbn [fst] in Nin. rewrite (selc_none k l Nin), !app_nil_r. reflexivity.
    + unfold selc. cbn [map List.concat fst snd]. fold (selc c l). fold (selc c (addClan k x l)). rewrite IH by exact D'. apply app_assoc.
Qed.
Lemma collate_selc : forall {A} c (l : list (clan * A)), selc c (collate l) = map snd (filter (fun b => clan_eqb (fst b) c) l).
Proof.
  intros A c l. unfold collate.
  assert (X : forall acc, NoDup (map fst acc) -> selc c (fold_left (fun l b => addClan (fst b) (snd b) l) l acc) = selc c acc ++ map snd (filter (fun b => clan_eqb (fst b) c) l)).
  { induction l as [|[k x] l IH]; intros acc D; cbn [fold_left filter map fst snd]; [symmetry; apply app_nil_r|]. rewrite IH by (apply addClan_nodup; exact D). rewrite addClan_selc by exact D.
    rewrite <- app_assoc. f_equal. destruct (clan_eqb k c); reflexivity. }
  rewrite X by constructor. reflexivity.
Qed.
Lemma sel_bonds : forall v c f ks l, fieldsOf v c = Some (f, ks) -> sel f (List.concat (map (attsB v) l)) = map (itemB v c) (selc c l).
Proof.
  intros v c f ks l E. induction l as [|[k g] l IH]; [reflexivity|]. unfold selc. cbn [map List.concat fst snd]. fold (selc c l). rewrite sel_app, map_app, IH. f_equal.
  unfold attsB. cbn [fst snd]. destruct (clan_eqb k c) eqn:K.
  - apply clan_eqb_eq in K. subst k. rewrite E, sel_pair. replace (fld_eqb f f) with true by (symmetry; apply fld_eqb_eq; reflexivity). reflexivity.
  - destruct (fieldsOf v k) as [[f' ks']|] eqn:E'; [|reflexivity]. rewrite sel_pair. destruct (fld_eqb f' f) eqn:F; [|reflexivity].
    apply fld_eqb_eq in F. subst f'. pose proof (fields_inj _ _ _ _ _ _ E' E). subst k. assert (X : clan_eqb c c = true) by (apply clan_eqb_eq; reflexivity). congruence.
Qed.
Lemma sel_nobond : forall v f l, (forall c ks, fieldsOf v c <> Some (f, ks)) -> sel f (List.concat (map (attsB v) l)) = [].
Proof.
  intros v f l E. induction l as [|[k g] l IH]; [reflexivity|]. cbn [map List.concat]. rewrite sel_app, IH, app_nil_r. unfold attsB. cbn [fst snd].
  destruct (fieldsOf v k) as [[f' ks']|] eqn:E'; [|reflexivity]. rewrite sel_pair. destruct (fld_eqb f' f) eqn:F; [|reflexivity]. apply fld_eqb_eq in F. subst f'. exfalso. apply (E _ _ E').
Qed.

Lemma sel_attsOf : forall f v a, sel f (attsOf v a) =
  (if fld_eqb Fsigers f then map ISig (a_sigers a) else []) ++ (if fld_eqb Ftsgs f then map (itemT v) (a_tsgs a) else []) ++ (if fld_eqb Flsgs f then map itemL (a_lsgs a) else []) ++
  (if fld_eqb Fwigers f then map ISig (map fst (a_wigers a)) else []) ++ (if fld_eqb Fcigars f then map itemC (a_cigars a) else []) ++ (if fld_eqb Frsgs f then map (itemT v) (a_rsgs a) else []) ++
  sel f (List.concat (map (attsB v) (collate (a_bonds a)))).
Proof. intros f v a. unfold attsOf. rewrite !sel_app, !sel_pair. reflexivity. Qed.

Lemma Forall2_map_r : forall {A B} (R : A -> B -> Prop) (f : A -> B) l, Forall (fun x => R x (f x)) l -> Forall2 R l (map f l).
Proof. induction 1; constructor; assumption. Qed.
Lemma nobond : forall f v, In f [Fsigers; Ftsgs; Flsgs; Fwigers; Fcigars; Frsgs; Fessrs; Fptds] -> forall c ks, fieldsOf v c <> Some (f, ks).
Proof.
  intros f v I c ks H. unfold fieldsOf in H. destruct (vmajor v =? 2); destruct c; try discriminate H; injection H as <- _; cbn [In] in I;
   repeat (destruct I as [I|I]; [discriminate I|]); destruct I.
Qed.
Lemma tsgs_arrived : forall v l, v = V1 \/ v = V2 -> Forall (tsg_ok kcheck v) l -> Forall2 (tsg_arrived v) l (map (itemT v) l).
Proof.
  intros v l Hv F. apply Forall2_map_r. apply (Forall_impl _ (P := tsg_ok kcheck v)); [|exact F]. intros [[[p n] d] xs] (Pp & Pn & Pd & _). eexists. split; [reflexivity|].
  apply sent_sames; [exact Hv|]. constructor; [exact Pp|]. constructor; [exact Pn|]. constructor; [exact Pd|constructor].
Qed.
Lemma got_attsOf : forall v x a ns, v = V1 \/ v = V2 -> auth_ok kcheck v a -> got Ser v x a ns (mkE Ser x (attsOf v a) ns).
Proof.
  intros v x a ns Hv [K1 K2 K3 K4 K5 K6 K7].
  assert (L : forall f, listOf Ser f (mkE Ser x (attsOf v a) ns) = sel f (attsOf v a)) by reflexivity.
  assert (B : forall f, In f [Fsigers; Ftsgs; Flsgs; Fwigers; Fcigars; Frsgs; Fessrs; Fptds] -> sel f (List.concat (map (attsB v) (collate (a_bonds a)))) = [])
    by (intros f I; apply sel_nobond; apply nobond; exact I).
  constructor; rewrite ?L; try reflexivity.
  - rewrite sel_attsOf, B by inn. cbn [fld_eqb app]. rewrite !app_nil_r. reflexivity.
  - rewrite sel_attsOf, B by inn. cbn [fld_eqb app]. rewrite !app_nil_r. apply tsgs_arrived; assumption.
  - rewrite sel_attsOf, B by inn. cbn [fld_eqb app]. rewrite !app_nil_r. apply Forall2_map_r. apply Forall_forall. intros [p xs] J. exists [p]. split; [reflexivity|]. split; [reflexivity|exact Logic.I].
  - rewrite sel_attsOf, B by inn. cbn [fld_eqb app]. rewrite !app_nil_r. reflexivity.
  - rewrite sel_attsOf, B by inn. cbn [fld_eqb app]. rewrite !app_nil_r. reflexivity.
  - rewrite sel_attsOf, B by inn. cbn [fld_eqb app]. rewrite !app_nil_r. apply tsgs_arrived; assumption.
  - intros c f ks E. rewrite L, sel_attsOf, (sel_bonds _ _ _ _ _ E), collate_selc. 
    replace (fld_eqb Fsigers f) with false by (unfold fieldsOf in E; destruct (vmajor v =? 2); destruct c; try discriminate E; injection E as <- _; reflexivity).
    replace (fld_eqb Ftsgs f) with false by (unfold fieldsOf in E; destruct (vmajor v =? 2); destruct c; try discriminate E; injection E as <- _; reflexivity).
    replace (fld_eqb Flsgs f) with false by (unfold fieldsOf in E; destruct (vmajor v =? 2); destruct c; try discriminate E; injection E as <- _; reflexivity).
    replace (fld_eqb Fwigers f) with false by (unfold fieldsOf in E; destruct (vmajor v =? 2); destruct c; try discriminate E; injection E as <- _; reflexivity).
    replace (fld_eqb Fcigars f) with false by (unfold fieldsOf in E; destruct (vmajor v =? 2); destruct c; try discriminate E; injection E as <- _; reflexivity).
    replace (fld_eqb Frsgs f) with false by (unfold fieldsOf in E; destruct (vmajor v =? 2); destruct c; try discriminate E; injection E as <- _; reflexivity).
    cbn [app]. rewrite map_map. apply Forall2_map_r. apply Forall_forall. intros [k ms] J. apply filter_In in J. destruct J as [J K]. cbn [fst] in K. apply clan_eqb_eq in K. subst k.
    rewrite Forall_forall in K7. destruct (K7 _ J) as (f' & ks' & E' & P). cbn [fst snd] in *. rewrite E in E'. injection E' as <- <-.
    unfold itemB. rewrite E. eexists. split; [reflexivity|]. apply sent_sames; assumption.
  - split; [rewrite sel_attsOf, B by inn; reflexivity|]. split; [rewrite ?L, sel_attsOf, B by inn; reflexivity|].
    intros c f ks E N. rewrite L, sel_attsOf, (sel_nobond v f).
    + destruct c; vm_compute in E; try discriminate E; injection E as <- _; reflexivity.
    + intros c' ks' E'. destruct Hv as [-> | ->]; [|congruence]. destruct c; try discriminate N; try discriminate E; vm_compute in E; injection E as <- _; destruct c'; discriminate E'.
Qed.

(* ------------------------------------------------------------------ *)
(** The loop. *)
Definition againC (nest : bool -> com exts) (n : nat) (cl : cold) (fr enc : bool) (e : exts) : com exts :=
  emp <~ isEmpty ;;
  if emp then Ret e else if enc then attLoop nest n cl fr enc e
  else cl' <~ sniffOp ;; match cl' with Cmsg => Ret e | _ => attLoop nest n cl' fr enc e end.
Definition step (nest : bool -> com exts) (v : CtrModel.versionage) (fr enc : bool) (g : bytes) (tr : exts -> exts) : Prop :=
  sniff g = Ok Ctxt /\ (exists ct w, forall t, counter_strip v (g ++ t) = Ok (ct, w ++ t) /\ isGenus ct = false /\ isAttGroup ct = false) /\
  forall n e t, resume (attLoop nest (S n) Ctxt fr enc e) (mkP v (g ++ t)) = resume (againC nest n Ctxt fr enc (tr e)) (mkP v t).

Lemma seg_step : forall nest v fr enc g f is, attseg v g f is -> fr || enc = true -> step nest v fr enc g (fun e => addAtts e f is).
Proof.
  intros nest v fr enc g f is (Sn & ct & content & n & R & Bs & (P1 & P2 & P3) & M) Ab. split; [exact Sn|]. split.
  { exists ct, content. intros t. split; [apply R|]. split; [|exact P2]. apply orb_false_iff in P1. destruct P1 as [P1 _]. apply orb_false_iff in P1. tauto. }
  intros k e t. cbn [PsModel.attLoop]. rewrite Ab. rewrite resume_bindc, (resume_peek_ok Ctxt _ _ _ _ _ (R t)). rewrite P1, P2, P3.
  rewrite resume_bindc, (resume_consumeCtr _ _ _ _ Bs). cbn [pv pb].
  destruct (counterAt_inv Ctxt v (g ++ t) ct (content ++ t) (R t)) as (n' & B' & _ & E & _). rewrite Bs in B'. apply ok_inj in B'. subst n'. rewrite <- E.
  rewrite resume_bindc, M. reflexivity.
Qed.

Lemma loop : forall nest v fr enc (steps : list (bytes * (exts -> exts))), Forall (fun s => step nest v fr enc (fst s) (snd s)) steps ->
  forall n e, steps <> [] -> (List.length steps <= n)%nat ->
  resume (attLoop nest n Ctxt fr enc e) (mkP v (List.concat (map fst steps))) = Done (Ok (fold_left (fun e s => snd s e) steps e)) (mkP v []).
Proof.
  intros nest v fr enc steps F. induction F as [|[g tr] steps (Sn & _ & R) F IH]; intros n e Ne L; [congruence|].
  cbn [fst snd] in *. destruct n as [|n]; [cbn in L; clear - L; lia|]. cbn [map List.concat fst snd fold_left]. rewrite R. unfold againC. rewrite resume_bindc. unfold isEmpty. rewrite resume_op. cbn [pb].
  destruct steps as [|[g2 tr2] steps]; [reflexivity|]. inversion F as [|? ? (Sn2 & _ & _) _]; subst. cbn [fst snd] in Sn2.
  assert (Sq : sniff (List.concat (map fst ((g2, tr2) :: steps))) = Ok Ctxt).
  { cbn [map fst List.concat]. rewrite sniff_app; [exact Sn2|]. intros ->. discriminate Sn2. }
  assert (Ni : isnil (List.concat (map fst ((g2, tr2) :: steps))) = false) by (destruct (List.concat (map fst ((g2, tr2) :: steps))); [discriminate Sq|reflexivity]).
  rewrite Ni. assert (L2 : (List.length ((g2, tr2) :: steps) <= n)%nat) by (clear - L; cbn [List.length] in *; lia). destruct enc.
  - apply IH; [discriminate|exact L2].
  - rewrite resume_bindc, resume_sniff. cbn [pb]. rewrite Sq. apply IH; [discriminate|exact L2].
Qed.
Lemma loop_head : forall nest v fr enc (steps : list (bytes * (exts -> exts))), Forall (fun s => step nest v fr enc (fst s) (snd s)) steps -> steps <> [] ->
  sniff (List.concat (map fst steps)) = Ok Ctxt /\ exists ct w, counter_strip v (List.concat (map fst steps)) = Ok (ct, w) /\ isGenus ct = false /\ isAttGroup ct = false.
Proof.
  intros nest v fr enc steps F Ne. destruct F as [|[g tr] steps (Sn & (ct & w & C) & _) F]; [congruence|]. cbn [map fst List.concat] in *. split.
  - rewrite sniff_app; [exact Sn|]. intros ->. discriminate Sn.
  - destruct (C (List.concat (map fst steps))) as (C1 & C2 & C3). exists ct. eexists. split; [exact C1|]. auto.
Qed.

(** nested messages *)
Definition readable (n : nat) (v : CtrModel.versionage) (b : bytes) (e : exts) : Prop :=
  sniff b = Ok Ctxt /\ (exists ct w, forall t, counter_strip v (b ++ t) = Ok (ct, w ++ t) /\ isBodyAtt ct = true) /\
  forall fr t, resume (msgP n fr) (mkP v (b ++ t)) = Done (Ok e) (mkP v t).
Lemma bodyAtt_plain : forall ct, isBodyAtt ct = true -> isGenus ct || isGeneric ct || isOther ct = false /\ isAttGroup ct = false.
Proof. intros ct H. split; names H. Qed.
Lemma nest_step : forall n v fr b e, readable n v b e -> step (msgP n) v fr true b (fun x => addNest Ser x e).
Proof.
  intros n v fr b e (Sn & (ct & w & C) & R). split; [exact Sn|].
  assert (Bp : isGenus ct || isGeneric ct || isOther ct = false /\ isAttGroup ct = false) by (apply bodyAtt_plain; apply (C [])).
  split.
  { exists ct, w. intros t. destruct (C t) as (C1 & C2). split; [exact C1|]. destruct Bp as [P1 P2]. split; [|exact P2].
    apply orb_false_iff in P1. destruct P1 as [P1 _]. apply orb_false_iff in P1. tauto. }
  intros k x t. destruct (C t) as (C1 & C2). destruct Bp as [P1 P2]. cbn [PsModel.attLoop]. rewrite resume_bindc, (resume_peek_ok Ctxt _ _ _ _ _ C1). rewrite P1, P2, C2. cbn [orb negb].
  rewrite resume_bindc, R. reflexivity.
Qed.

(* ------------------------------------------------------------------ *)
(** Attachments of a message. *)
Definition segStep (s : bytes * (fld * list item)) : bytes * (exts -> exts) := (fst s, fun e => addAtts e (fst (snd s)) (snd (snd s))).
Definition nestStep (s : bytes * exts) : bytes * (exts -> exts) := (fst s, fun e => addNest Ser e (snd s)).
Lemma fold_segs : forall segs x at0 ns, fold_left (fun e s => snd s e) (map segStep segs) (mkE Ser x at0 ns)
  = mkE Ser x (at0 ++ List.concat (map (fun s => map (pair (fst (snd s))) (snd (snd s))) segs)) ns.
Proof.
  induction segs as [|[g [f is]] segs IH]; intros x at0 ns; cbn [map fold_left List.concat fst snd]; [rewrite app_nil_r; reflexivity|].
  unfold segStep at 2. cbn [fst snd]. unfold PsModel.addAtts. cbn [x_serder x_atts x_nests]. rewrite IH, app_assoc. reflexivity.
Qed.
Lemma fold_nests : forall l x at0 ns, fold_left (fun e s => snd s e) (map nestStep l) (mkE Ser x at0 ns) = mkE Ser x at0 (ns ++ map snd l).
Proof.
  induction l as [|[g e] l IH]; intros x at0 ns; cbn [map fold_left List.concat fst snd]; [rewrite app_nil_r; reflexivity|].
  unfold nestStep at 2. cbn [fst snd]. unfold addNest. cbn [x_serder x_atts x_nests]. rewrite IH, <- app_assoc. reflexivity.
Qed.
Lemma groups_some : forall a, noAuth a = false -> groupsOf a <> O.
Proof.
  intros [s t l w c r b] H. unfold noAuth, groupsOf in *. cbn [a_sigers a_tsgs a_lsgs a_wigers a_cigars a_rsgs a_bonds] in *.
  destruct s; [|discriminate]. destruct t; [|discriminate]. destruct l; [|discriminate]. destruct w; [|discriminate]. destruct c; [|discriminate]. destruct r; [|discriminate].
  destruct b as [|[k ms] b]; [discriminate|]. cbn [some Nat.add]. intros E. apply length_zero_iff_nil in E. pose proof (collate_selc k ((k, ms) :: b)) as X. rewrite E in X. cbn [filter fst] in X.
  replace (clan_eqb k k) with true in X by (symmetry; apply clan_eqb_eq; reflexivity). discriminate X.
Qed.

(** the steps of attachments followed by nested messages *)
Lemma steps_of : forall n v fr enc b a nb, pieces v b (attsOf v a) (groupsOf a) -> noAuth a = false -> fr || enc = true ->
  Forall (fun s => readable n v (fst s) (snd s)) nb -> nb = [] \/ enc = true ->
  exists steps, Forall (fun s => step (msgP n) v fr enc (fst s) (snd s)) steps /\ steps <> [] /\ (List.length steps = groupsOf a + List.length nb)%nat
   /\ List.concat (map fst steps) = b ++ List.concat (map fst nb)
   /\ forall x, fold_left (fun e s => snd s e) steps (mkE Ser x [] []) = mkE Ser x (attsOf v a) (map snd nb).
Proof.
  intros n v fr enc b a nb (segs & Fs & Eb & Ea & Lk) Na Ab Fn En. exists (map segStep segs ++ map nestStep nb).
  split; [apply Forall_app; split|].
  - apply Forall_map. apply (Forall_impl _ (P := fun s => attseg v (fst s) (fst (snd s)) (snd (snd s)))); [|exact Fs]. intros [g [f is]] A. apply seg_step; assumption.
  - apply Forall_map. destruct En as [-> | ->]; [constructor|]. apply (Forall_impl _ (P := fun s => readable n v (fst s) (snd s))); [|exact Fn]. intros [g e] A. apply nest_step. exact A.
  - split.
    { intros E. apply app_eq_nil in E. destruct E as [E _]. apply map_eq_nil in E. subst segs. apply (groups_some _ Na). symmetry. exact Lk. }
    split; [rewrite app_length, !map_length, Lk; reflexivity|]. split.
    + rewrite map_app, concat_app, Eb, !map_map. reflexivity.
    + intros x. rewrite fold_left_app, fold_segs, fold_nests. cbn [app]. rewrite <- Ea. reflexivity.
Qed.

Lemma setVnone : forall s, resume (setV None) s = Done (Ok tt) s.
Proof. intros s. unfold setV. rewrite resume_op. reflexivity. Qed.
Lemma resume_inSub_done : forall {A} sub (c : com A) v b r, resume c (mkP v sub) = Done r (mkP v []) -> resume (inSub sub c) (mkP v b) = Done r (mkP v b).
Proof. intros A sub c v b r H. unfold inSub. rewrite resume_op. cbn [pv]. rewrite H. reflexivity. Qed.
Lemma resume_sized_ok : forall {A} enc (c : com A) s a s', resume c s = Done (Ok a) s' -> resume (sized enc c) s = Done (Ok a) s'.
Proof. intros A enc c s a s' H. unfold sized. rewrite resume_onres, H. reflexivity. Qed.

Lemma attach_enclosed : forall n k fr v (steps : list (bytes * (exts -> exts))) g t e, v = V1 \/ v = V2 ->
  Forall (fun s => step (msgP k) v fr true (fst s) (snd s)) steps -> steps <> [] -> (List.length steps <= n)%nat ->
  enclose v (s2b "AttachmentGroup") (List.concat (map fst steps)) = Ok g ->
  resume (attach (msgP k) n fr false None e) (mkP v (g ++ t)) = Done (Ok (fold_left (fun e s => snd s e) steps e)) (mkP v t).
Proof.
  intros n k fr v steps g t e Hv F Ne L G. destruct (loop_head _ _ _ _ _ F Ne) as (_ & ct2 & w2 & C2 & Gn & _).
  pose proof (loop _ _ _ _ _ F n e Ne L) as Lp. set (content := List.concat (map fst steps)) in *.
  destruct (enclose_read _ _ _ _ Hv G) as (c & h & C1 & Cv & Eg & Sn & R & Bs & Bc).
  pose proof (counter_name _ _ _ _ C1 ltac:(cbn; auto)) as T. change (isAttGroup c = true) in T.
  assert (Ng : g ++ t <> []) by (intros E; apply app_eq_nil in E; destruct E as [-> _]; discriminate Sn).
  unfold PsModel.attach, restoring. rewrite resume_onres.
  match goal with |- context [sized false ?c] => assert (X : resume (sized false c) (mkP v (g ++ t)) = Done (Ok (fold_left (fun e s => snd s e) steps e)) (mkP v t)) end.
  2:{ rewrite X. rewrite resume_bindc, setVnone. reflexivity. }
  apply resume_sized_ok. rewrite resume_bindc, resume_needSome_ne by exact Ng. rewrite resume_bindc, resume_sniff. cbn [pb].
  rewrite sniff_app by (intros ->; discriminate Sn). rewrite Sn. rewrite resume_bindc, (resume_peek_ok Ctxt _ _ _ _ _ (R t)), T.
  rewrite resume_bindc, (resume_consumeCtr _ _ _ _ Bs). cbn [pv pb]. rewrite resume_bindc, resume_lift, Bc.
  destruct (counterAt_inv Ctxt v (g ++ t) c (content ++ t) (R t)) as (m & B' & _ & E & _). rewrite Bs in B'. apply ok_inj in B'. subst m. rewrite <- E.
  rewrite resume_bindc, takeF_ok by (rewrite len_app; clear; lia). rewrite ntake_len_app, ndrop_len_app. apply resume_inSub_done. apply resume_sized_ok.
  rewrite resume_bindc, (resume_peek_ok Ctxt _ _ _ _ _ C2), Gn. exact Lp.
Qed.
Lemma attach_bare : forall n k enc v (steps : list (bytes * (exts -> exts))) e,
  Forall (fun s => step (msgP k) v true enc (fst s) (snd s)) steps -> steps <> [] -> (List.length steps <= n)%nat ->
  resume (attach (msgP k) n true enc None e) (mkP v (List.concat (map fst steps))) = Done (Ok (fold_left (fun e s => snd s e) steps e)) (mkP v []).
Proof.
  intros n k enc v steps e F Ne L. destruct (loop_head _ _ _ _ _ F Ne) as (Sn & ct2 & w2 & C2 & _ & Ga).
  pose proof (loop _ _ _ _ _ F n e Ne L) as Lp. set (content := List.concat (map fst steps)) in *.
  assert (Ng : content <> []) by (intros E; rewrite E in Sn; discriminate Sn).
  unfold PsModel.attach, restoring. rewrite resume_onres.
  match goal with |- context [sized enc ?c] => assert (X : resume (sized enc c) (mkP v content) = Done (Ok (fold_left (fun e s => snd s e) steps e)) (mkP v [])) end.
  2:{ rewrite X. rewrite resume_bindc, setVnone. reflexivity. }
  apply resume_sized_ok. rewrite resume_bindc, resume_needSome_ne by exact Ng. rewrite resume_bindc, resume_sniff. cbn [pb].
  rewrite Sn. rewrite resume_bindc, (resume_peek_ok Ctxt _ _ _ _ _ C2), Ga. exact Lp.
Qed.

(* ------------------------------------------------------------------ *)
(** Whole messages. *)
Lemma msg_sized : forall n fr v raw x rest r s, bodyOf Ser sload v raw x ->
  resume (attach (msgP n) (S n) fr false None (mkE Ser x [] [])) (mkP v rest) = Done r s ->
  resume (msgP (S n) fr) (mkP v (raw ++ rest)) = Done r s.
Proof.
  intros n fr v raw x rest r s ((Sn & sm & Sm & Sz) & Rp) H. assert (Nb : raw <> []) by (intros ->; discriminate Sn).
  assert (Np : raw ++ rest <> []) by (destruct raw; [congruence|discriminate]).
  assert (Sp : sniff (raw ++ rest) = Ok Cmsg) by (rewrite sniff_app by exact Nb; exact Sn).
  cbn [PsModel.msgP]. rewrite resume_bindc, resume_needSome_ne by exact Np. rewrite resume_bindc, resume_sniff. cbn [pb]. rewrite Sp.
  rewrite resume_bindc. cbn [resume]. rewrite resume_bindc, resume_sniff. cbn [pb]. rewrite Sp. rewrite resume_bindc. unfold reapOp, extractor. rewrite resume_op. cbn [pv pb].
  rewrite reap_ext by (rewrite Rp; discriminate). rewrite Rp. cbn [ext app]. cbn [pv]. exact H.
Qed.

Lemma front_msg : forall n fr v b e s, b <> [] -> (sniff b = Ok Cmsg \/ sniff b = Ok Ctxt /\ exists ct w, counter_strip v b = Ok (ct, w) /\ isGeneric ct = false) ->
  resume (msgP n fr) (mkP v b) = Done (Ok e) s ->
  resume (groupStep Ser sload nload kcheck n (g0 fr)) (mkP v b) = Done (Ok (GNext Ser (g0 fr) (Some e))) s.
Proof.
  intros n fr v b e s Nb Hs H. unfold PsModel.groupStep, g0. cbn [unnest g_cur g_stack g_svrsn g_eggs g_framed]. rewrite resume_bindc, setVnone. rewrite resume_bindc. unfold isEmpty. rewrite resume_op. cbn [pb].
  destruct (isnil b) eqn:Ni; [destruct b; [congruence|discriminate]|]. rewrite resume_bindc. unfold onCur. rewrite resume_onres.
  assert (F : resume (frontC Ser sload nload kcheck n fr) (mkP v b) = Done (Ok (FMsg Ser e)) s).
  { unfold PsModel.frontC. cbv zeta. rewrite resume_bindc, resume_sniff. cbn [pb]. destruct Hs as [-> |(-> & ct & w & C & Gn)].
    - rewrite resume_onres, H. reflexivity.
    - rewrite resume_bindc, (resume_peek_ok Ctxt _ _ _ _ _ C), Gn. rewrite resume_onres, H. reflexivity. }
  rewrite F. reflexivity.
Qed.
Local Notation delivers := (delivers Ser sload nload kcheck).
Lemma delivers_intro : forall fr n v0 v f e, resume (groupStep Ser sload nload kcheck n (g0 fr)) (mkP v0 f) = Done (Ok (GNext Ser (g0 fr) (Some e))) (mkP v []) -> delivers n fr v0 v f e.
Proof.
  intros fr n v0 v f e H. exists 2%nat. unfold PsModel.feed, PsModel.fresh. cbn [PsModel.turn fst snd pv pb app]. rewrite H.
  cbn [PsModel.turn fst snd]. rewrite resume_fresh_nil. reflexivity.
Qed.

(** a genus version counter in front *)
Lemma genus_read : forall v0 v g, v0 = V1 \/ v0 = V2 -> v = V1 \/ v = V2 -> makeGVC v = Ok g ->
  sniff g = Ok Ctxt /\ exists ct, (forall t, counter_strip v0 (g ++ t) = Ok (ct, t)) /\ isGenus ct = true /\ isGeneric ct = false /\ byteSize ct Ctxt = Ok 8 /\ genusOf ct = Ok v.
Proof.
  intros v0 v g [-> | ->] [-> | ->] H; vm_compute in H; apply ok_inj in H; subst g; (split; [reflexivity|]);
  match goal with |- exists ct, (forall t, counter_strip ?v (?g ++ t) = _) /\ _ =>
    let r := eval vm_compute in (counter_strip v g) in match r with Ok (?c, _) => exists c; split;
      [intros t; change (counterAt Ctxt v (g ++ t) = Ok (c, t)); rewrite counterAt_ext; [|vm_compute; discriminate];
       assert (X : counterAt Ctxt v g = Ok (c, [])) by (vm_compute; reflexivity); rewrite X; reflexivity |vm_compute; auto] end end.
Qed.
Lemma msg_genus : forall n fr v0 v g b, v0 = V1 \/ v0 = V2 -> v = V1 \/ v = V2 -> makeGVC v = Ok g -> b <> [] ->
  (sniff b = Ok Cmsg \/ sniff b = Ok Ctxt /\ exists ct w, counter_strip v b = Ok (ct, w) /\ isGenus ct = false) ->
  resume (msgP (S n) fr) (mkP v0 (g ++ b)) = resume (msgP (S n) fr) (mkP v b).
Proof.
  intros n fr v0 v g b H0 Hv G Nb Hs. destruct (genus_read _ _ _ H0 Hv G) as (Sn & ct & R & T1 & _ & Bs & Go).
  assert (Ng : g ++ b <> []) by (intros E; apply app_eq_nil in E; tauto).
  cbn [PsModel.msgP]. rewrite resume_bindc, resume_needSome_ne by exact Ng. rewrite resume_bindc, resume_sniff. cbn [pb].
  rewrite sniff_app by (intros ->; discriminate Sn). rewrite Sn. rewrite resume_bindc, resume_bindc, (resume_peek_ok Ctxt _ _ _ _ _ (R b)), T1.
  rewrite resume_bindc, (resume_consumeCtr _ _ _ _ Bs). cbn [pv pb]. rewrite resume_bindc, resume_lift, Go.
  destruct (counterAt_inv Ctxt v0 (g ++ b) ct b (R b)) as (m & B' & _ & E & _). rewrite Bs in B'. apply ok_inj in B'. subst m. rewrite <- E.
  assert (Sv : resume (setV (Some v)) (mkP v0 b) = Done (Ok tt) (mkP v b)) by (unfold setV; rewrite resume_op; destruct Hv as [-> | ->]; reflexivity). rewrite Sv.
  symmetry. rewrite resume_bindc, resume_needSome_ne by exact Nb. rewrite resume_bindc, resume_sniff. cbn [pb]. destruct Hs as [Hs|(Hs & c2 & w & C2 & Gn)]; rewrite Hs.
  - rewrite resume_bindc. cbn [resume]. reflexivity.
  - rewrite resume_bindc, resume_bindc, (resume_peek_ok Ctxt _ _ _ _ _ C2), Gn. cbn [resume]. reflexivity.
Qed.

(** the nested form *)
Lemma texter_ok : forall raw t, octets raw -> texter_of_raw raw = Ok t -> prim KTexter t /\ m_raw t = raw.
Proof.
  intros raw t Oc H. unfold texter_of_raw in H. pose proof (built_raw _ _ _ _ _ Oc H) as B. unfold matter_of_raw in H. change (s2b "4B") with [52; 66] in H. cbv iota in H.
  change (dget Sizes [52; 66]) with (Some (mkSizage 2 2 0 None 0)) in H. cbn [fs] in H. apply bind_ok in H. destruct H as ([c' s'] & V & H). apply raise_if_ok in H. destruct H as [_ H].
  apply ok_inj in H. subst t. split.
  - split; [exact B|]. apply (proj2 Acc). cbn [m_code]. unfold varCode in V. cbn [nth memN existsb SmallVrzDex] in V. 
    assert (L3 : (3 - len raw mod 3) mod 3 = 0 \/ (3 - len raw mod 3) mod 3 = 1 \/ (3 - len raw mod 3) mod 3 = 2) by (clear; lia).
    match type of V with (if ?b then _ else _) = _ => replace b with true in V by (vm_compute; reflexivity) end.
    destruct L3 as [E|[E|E]]; rewrite E in V;
     (match type of V with (if ?b then _ else _) = _ => destruct b end; [apply ok_inj in V; injection V as <- _; vm_compute; tauto|];
      match type of V with (if ?b then _ else _) = _ => destruct b; [|discriminate] end; apply ok_inj in V; injection V as <- _; vm_compute; tauto).
  - cbn [m_raw]. apply ntake_all. reflexivity.
Qed.
Lemma nonNative_not : forall ct, isNonNative ct = true -> isGenus ct = false.
Proof. intros ct H. names H. Qed.

Lemma msg_nested : forall n raw x bd q t (steps : list (bytes * (exts -> exts))) g, reap Ser sload V2 raw = Ok (x, []) -> octets raw ->
  texter_of_raw raw = Ok t -> infil t = Ok q -> enclose V2 (s2b "NonNativeBodyGroup") q = Ok bd ->
  Forall (fun s => step (msgP n) V2 true true (fst s) (snd s)) steps -> steps <> [] -> (List.length steps <= S n)%nat ->
  enclose V2 (s2b "BodyWithAttachmentGroup") (bd ++ List.concat (map fst steps)) = Ok g ->
  readable (S n) V2 g (fold_left (fun e s => snd s e) steps (mkE Ser x [] [])).
Proof.
  intros n raw x bd q t steps g Rp Oc Ht Hq Hb F Ne L G.
  pose proof (attach_bare (S n) n true V2 steps (mkE Ser x [] []) F Ne L) as At. set (content := List.concat (map fst steps)) in *.
  destruct (enclose_read _ _ _ _ (or_intror eq_refl) G) as (c & h & C1 & Cv & Eg & Sn & R & Bs & Bc).
  pose proof (counter_name _ _ _ _ C1 ltac:(cbn; auto)) as T. change (isBodyAtt c = true) in T.
  destruct (enclose_read _ _ _ _ (or_intror eq_refl) Hb) as (c2 & h2 & D1 & Dv & Eb & Sb & R2 & Bs2 & _).
  pose proof (counter_name _ _ _ _ D1 ltac:(cbn; auto)) as T2. change (isNonNative c2 = true) in T2.
  destruct (texter_ok _ _ Oc Ht) as (Pt & Er). destruct (prim_read _ _ _ _ Pt Hq) as (Nq & Rq). destruct (bodyAtt_not _ T) as [Tg _].
  split; [exact Sn|]. split.
  { exists c, (bd ++ content). intros w. split; [apply R|exact T]. }
  intros fr w. assert (Ng : g ++ w <> []) by (intros E; apply app_eq_nil in E; destruct E as [-> _]; discriminate Sn).
  cbn [PsModel.msgP]. rewrite resume_bindc, resume_needSome_ne by exact Ng. rewrite resume_bindc, resume_sniff. cbn [pb].
  rewrite sniff_app by (intros ->; discriminate Sn). rewrite Sn. rewrite resume_bindc, resume_bindc, (resume_peek_ok Ctxt _ _ _ _ _ (R w)), Tg. cbn [resume].
  rewrite resume_bindc, resume_sniff. cbn [pb]. rewrite sniff_app by (intros ->; discriminate Sn). rewrite Sn. rewrite resume_bindc, (resume_peek_ok Ctxt _ _ _ _ _ (R w)), T.
  rewrite resume_bindc, (resume_consumeCtr _ _ _ _ Bs). cbn [pv pb]. rewrite resume_bindc, resume_lift, Bc.
  destruct (counterAt_inv Ctxt V2 (g ++ w) c ((bd ++ content) ++ w) (R w)) as (m & B' & _ & E & _). rewrite Bs in B'. apply ok_inj in B'. subst m. rewrite <- E.
  rewrite resume_bindc, takeF_ok by (rewrite (len_app _ (bd ++ content)); clear; lia). rewrite ntake_len_app, ndrop_len_app. apply resume_inSub_done.
  rewrite resume_bindc.
  match goal with |- context [sized true ?c] => assert (X : resume (sized true c) (mkP V2 (bd ++ content)) = Done (Ok (x, None)) (mkP V2 content)) end.
  2:{ rewrite X. exact At. }
  apply resume_sized_ok. rewrite resume_bindc, (resume_peek_ok Ctxt _ _ _ _ _ (R2 content)), (nonNative_not _ T2).
  rewrite resume_bindc. unfold PsModel.body. rewrite T2. rewrite resume_bindc, (resume_consumeCtr _ _ _ _ Bs2). cbn [pv pb].
  destruct (counterAt_inv Ctxt V2 (bd ++ content) c2 (q ++ content) (R2 content)) as (m & B' & _ & E2 & _). rewrite Bs2 in B'. apply ok_inj in B'. subst m. rewrite <- E2.
  rewrite resume_bindc. unfold extractor. rewrite resume_op. cbn [pv pb]. rewrite Rq. cbn [pv]. rewrite resume_bindc. unfold getV. rewrite resume_op. cbn [pv]. rewrite resume_bindc, resume_lift, Er, Rp. reflexivity.
Qed.

(* ------------------------------------------------------------------ *)
(** messagize. *)
Lemma vV : forall v, v = V1 \/ v = V2 -> (vmajor v <? 2) = true /\ v = V1 \/ (vmajor v <? 2) = false /\ (vmajor v =? 2) = true /\ v = V2.
Proof. intros v [-> | ->]; vm_compute; auto. Qed.
Lemma isnil_nil : forall {A} (l : list A), isnil l = true -> l = [].
Proof. intros A [|]; [reflexivity|discriminate]. Qed.

(** the three forms *)
Lemma messagize_inv : forall raw sv a bs framed nested gv genusify m v, v = V1 \/ v = V2 ->
  sentAt gv sv (nested || negb (isnil bs)) = v -> messagize raw sv false a bs framed nested gv genusify = Ok m ->
  noAuth a = false /\ exists gvc m0, m = gvc ++ m0 /\ (if genusify then makeGVC v = Ok gvc else gvc = []) /\
  exists aims, (if vmajor v =? 1 then aims1 a = Ok aims else aims2 v a = Ok aims) /\
  if nested || negb (isnil bs) && framed then
    v = V2 /\ exists t q bd, texter_of_raw raw = Ok t /\ infil t = Ok q /\ enclose V2 (s2b "NonNativeBodyGroup") q = Ok bd /\
      enclose V2 (s2b "BodyWithAttachmentGroup") (bd ++ aims ++ List.concat bs) = Ok m0
  else if framed then bs = [] /\ m0 = raw ++ aims
  else (bs = [] \/ v = V2) /\ exists g, enclose v (s2b "AttachmentGroup") (aims ++ List.concat bs) = Ok g /\ m0 = raw ++ g.
Proof.
  intros raw sv a bs framed nested gv genusify m v Hv Sv H. unfold messagize in H. apply raise_if_ok in H. destruct H as [Na H]. split; [exact Na|].
  unfold sentAt in Sv. set (nesting := nested || negb (isnil bs)) in *. cbv zeta in H. cbv zeta in Sv.
  rewrite Sv in H. apply bind_ok in H. destruct H as (gvc & Hg & H). apply bind_ok in H. destruct H as (m0 & H0 & H). apply ok_inj in H. subst m.
  exists gvc, m0. split; [reflexivity|]. split; [destruct genusify; [exact Hg|apply ok_inj in Hg; auto]|].
  assert (N2 : nesting = true -> v = V2).
  { intros E. rewrite E in Sv. cbn [andb] in Sv. destruct Hv as [-> | ->]; [|reflexivity]. exfalso. clear - Sv. destruct gv as [ma mi], sv as [sa si]. unfold vlt in Sv. cbn [vmajor vminor] in Sv.
    destruct (ma <? 2) eqn:M; cbn [V2 vmajor vminor] in Sv.
    - match type of Sv with (if ?b then _ else _) = _ => destruct b eqn:B end; [|discriminate Sv]. injection Sv as -> ->. vm_compute in B. discriminate B.
    - match type of Sv with (if ?b then _ else _) = _ => destruct b eqn:B end; injection Sv as -> ->; [|vm_compute in M; discriminate M].
      apply orb_true_iff in B. destruct B as [B|B]; [lia|]. apply andb_true_iff in B. destruct B as [B _]. lia. }
  destruct (nested || negb (isnil bs) && framed) eqn:Ns.
  - assert (v = V2) as -> by (apply N2; unfold nesting; destruct nested; [reflexivity|]; cbn [orb] in *; apply andb_true_iff in Ns; tauto).
    cbn [V2 vmajor] in H0. replace (2 <? 2) with false in H0 by reflexivity. replace (2 =? 2) with true in H0 by reflexivity. cbn [andb] in H0.
    apply bind_ok in H0. destruct H0 as (aims & Ha & H0). exists aims. split; [exact Ha|]. apply raise_if_ok in H0. destruct H0 as [_ H0]. apply raise_if_ok in H0. destruct H0 as [_ H0].
    cbn [negb andb] in H0. cbn [bind] in H0. apply bind_ok in H0. destruct H0 as (bd & Hb & H0). apply bind_ok in Hb. destruct Hb as (t & Ht & Hb). apply bind_ok in Hb. destruct Hb as (q & Hq & Hb).
    split; [reflexivity|]. exists t, q, bd. auto.
  - destruct (vV _ Hv) as [[L ->]|[L [E2 ->]]].
    + cbn [V1 vmajor] in H0. replace (1 <? 2) with true in H0 by reflexivity. cbn [negb andb] in H0. apply bind_ok in H0. destruct H0 as (aims & Ha & H0). exists aims. split; [exact Ha|].
      assert (bs = []) as ->.
      { destruct bs as [|b bs]; [reflexivity|]. assert (X : V1 = V2) by (apply N2; unfold nesting; cbn [isnil negb]; apply orb_true_r). discriminate X. }
      apply raise_if_ok in H0. destruct H0 as [M4 H0]. destruct framed.
      * cbn [bind] in H0. apply ok_inj in H0. auto.
      * split; [auto|]. apply bind_ok in H0. destruct H0 as (h & Hh & H0). apply ok_inj in H0. exists (h ++ aims). cbn [List.concat]. rewrite app_nil_r. split; [|auto].
        unfold enclose. rewrite M4. unfold cnt in Hh. apply bind_ok in Hh. destruct Hh as (c & Hc & Hq). rewrite Hc. cbn [bind].
        assert (Q : memC (c_code c) QTDex_1_0 = true).
        { destruct (counter_of_ok _ _ _ _ Hc) as (_ & _ & codes & sizes & sz & K & hard & hsz & L1 & _ & L3). pose proof (co_tab _ _ _ _ K) as Tb.
          destruct (counter_of_ok _ _ _ _ Hc) as (Ev & _). rewrite Ev in Tb. clear - Tb L1 L3. vm_compute in Tb. apply ok_inj in Tb. injection Tb as <- <-. vm_compute in L1. apply ok_inj in L1. injection L1 as <- _.
          destruct L3 as [-> |(_ & _ & -> & _)]; vm_compute; reflexivity. }
        rewrite Q. cbn [negb]. rewrite andb_false_r. rewrite Hq. reflexivity.
    + cbn [V2 vmajor] in H0. replace (2 <? 2) with false in H0 by reflexivity. replace (2 =? 2) with true in H0 by reflexivity. cbn [andb] in H0.
      apply bind_ok in H0. destruct H0 as (aims & Ha & H0). exists aims. split; [exact Ha|]. apply raise_if_ok in H0. destruct H0 as [_ H0]. apply raise_if_ok in H0. destruct H0 as [_ H0].
      cbn [negb andb] in H0. destruct framed; cbn [negb] in H0.
      * cbn [bind] in H0. apply ok_inj in H0. assert (bs = []) as ->.
        { destruct bs as [|b bs]; [reflexivity|]. cbn [isnil negb] in Ns. rewrite orb_true_r in Ns. discriminate Ns. }
        cbn [List.concat] in H0. rewrite app_nil_r in H0. auto.
      * apply bind_ok in H0. destruct H0 as (g & Hg' & H0). apply ok_inj in H0. split; [auto|]. exists g. auto.
Qed.
Lemma aims_pieces : forall v a aims, v = V1 \/ v = V2 -> auth_ok kcheck v a -> (if vmajor v =? 1 then aims1 a = Ok aims else aims2 v a = Ok aims) -> pieces v aims (attsOf v a) (groupsOf a).
Proof. intros v a aims [-> | ->] K H; vm_compute (_ =? _) in H; cbv iota in H; [apply aims1_pieces|apply aims2_pieces]; assumption. Qed.

(** a group of body and attachments *)
Lemma nested_readable : forall raw sv a x nb framed gv m, octets raw -> reap Ser sload V2 raw = Ok (x, []) -> auth_ok kcheck V2 a ->
  forall (bs : list bytes) framed' nested, nested || negb (isnil bs) && framed' = true -> sentAt gv sv (nested || negb (isnil bs)) = V2 -> framed = framed' ->
  messagize raw sv false a bs framed nested gv false = Ok m -> bs = map fst nb ->
  forall n0, (forall n, (n0 <= n)%nat -> Forall (fun s => readable n V2 (fst s) (snd s)) nb) ->
  forall n, (n0 < n)%nat -> (groupsOf a + List.length nb <= n)%nat -> readable n V2 m (mkE Ser x (attsOf V2 a) (map snd nb)).
Proof.
  intros raw sv a x nb framed gv m Oc Rp Ka bs framed' nested Ns Sv -> H Eb n0 Rd n L1 L2.
  destruct (messagize_inv _ _ _ _ _ _ _ _ _ V2 (or_intror eq_refl) Sv H) as (Na & gvc & m0 & -> & -> & aims & Ha & H0). rewrite Ns in H0. destruct H0 as (_ & t & q & bd & Ht & Hq & Hb & Hm).
  destruct n as [|n]; [clear - L1; lia|]. assert (Rn : Forall (fun s => readable n V2 (fst s) (snd s)) nb) by (apply Rd; clear - L1; lia).
  destruct (steps_of n V2 true true aims a nb) as (steps & F & Ne & Le & Ec & Ef); [apply (aims_pieces V2); [right; reflexivity|exact Ka|exact Ha]|exact Na|reflexivity|exact Rn|right; reflexivity|].
  rewrite <- Ef. cbn [app]. apply (msg_nested n raw x bd q t steps); try assumption; [rewrite Le; exact L2|]. rewrite Ec, <- Eb. exact Hm.
Qed.

Scheme written_ind2 := Induction for written Sort Prop with writtens_ind2 := Induction for writtens Sort Prop.
Lemma written_readable :
  (forall ts bs, writtens Ser sload kcheck ts bs -> exists n0 es, gotTrees Ser ts es /\ List.length es = List.length bs /\ forall n, (n0 <= n)%nat -> Forall (fun s => readable n V2 (fst s) (snd s)) (combine bs es)).
Proof.
  apply (writtens_ind2 Ser sload kcheck
   (fun t b _ => exists n0 e, gotTree Ser t e /\ forall n, (n0 <= n)%nat -> readable n V2 b e)
   (fun ts bs _ => exists n0 es, gotTrees Ser ts es /\ List.length es = List.length bs /\ forall n, (n0 <= n)%nat -> Forall (fun s => readable n V2 (fst s) (snd s)) (combine bs es))).
  - intros raw sv x a ts bs framed gv m Oc Rp Ka W (n0 & es & G & Ll & R) Sv H.
    exists (S n0 + (groupsOf a + List.length (combine bs es)))%nat, (mkE Ser x (attsOf V2 a) es). 
    assert (E1 : map fst (combine bs es) = bs) by (clear - Ll; revert es Ll; induction bs as [|b bs IH]; intros [|e es] L; try discriminate L; [reflexivity|]; cbn; f_equal; apply IH; injection L; auto).
    assert (E2 : map snd (combine bs es) = es) by (clear - Ll; revert es Ll; induction bs as [|b bs IH]; intros [|e es] L; try discriminate L; [reflexivity|]; cbn; f_equal; apply IH; injection L; auto).
    split; [apply (got_node Ser raw x a ts es); [exact G|]; apply got_attsOf; [right; reflexivity|exact Ka]|].
    intros n L. replace (mkE Ser x (attsOf V2 a) es) with (mkE Ser x (attsOf V2 a) (map snd (combine bs es))) by (rewrite E2; reflexivity).
    apply (nested_readable raw sv a x (combine bs es) framed gv m Oc Rp Ka bs framed true eq_refl Sv eq_refl H (eq_sym E1) n0 R); clear - L; lia.
  - exists O, []. split; [constructor|]. split; [reflexivity|]. intros; constructor.
  - intros t ts b bs W (n1 & e & G1 & R1) Ws (n2 & es & G2 & Ll & R2). exists (n1 + n2)%nat, (e :: es). split; [constructor; assumption|]. split; [cbn; rewrite Ll; reflexivity|].
    intros n L. cbn [combine]. constructor; [apply R1; clear - L; lia|apply R2; clear - L; lia].
Qed.

Theorem round_trip : forall raw sv x a ts bs framed nested gv genusify m v,
  v = V1 \/ v = V2 -> sentAt gv sv (nested || negb (isnil bs)) = v -> octets raw -> bodyOf Ser sload v raw x -> auth_ok kcheck v a -> writtens Ser sload kcheck ts bs ->
  messagize raw sv false a bs framed nested gv genusify = Ok m ->
  (framed = false \/ nested = true \/ bs <> [] -> genusify = false -> delimited v m) /\
  exists n0 es e, gotTrees Ser ts es /\ got Ser v x a es e /\
   forall n fr v0, (n0 <= n)%nat -> (framed = true -> nested = false -> bs = [] -> fr = true) -> v0 = v \/ genusify = true /\ (v0 = V1 \/ v0 = V2) ->
    delivers n fr v0 v m e.
Proof.
  intros raw sv x a ts bs framed nested gv genusify m v Hv Sv Oc Bo Ka W H.
  destruct (written_readable ts bs W) as (n1 & es & G & Ll & R).
  assert (E1 : map fst (combine bs es) = bs) by (clear - Ll; revert es Ll; induction bs as [|b bs IH]; intros [|e es] L; try discriminate L; [reflexivity|]; cbn; f_equal; apply IH; injection L; auto).
  assert (E2 : map snd (combine bs es) = es) by (clear - Ll; revert es Ll; induction bs as [|b bs IH]; intros [|e es] L; try discriminate L; [reflexivity|]; cbn; f_equal; apply IH; injection L; auto).
  destruct (messagize_inv _ _ _ _ _ _ _ _ _ v Hv Sv H) as (Na & gvc & m0 & -> & Hg & aims & Ha & H0).
  pose proof (aims_pieces v a aims Hv Ka Ha) as Pc. set (nb := combine bs es) in *. set (N0 := (S n1 + (groupsOf a + List.length nb))%nat).
  destruct Bo as [Sb Rp]. pose proof Sb as (Sn & _). assert (Nr : raw <> []) by (intros ->; discriminate Sn).
  (* what is left: the message itself, at its version *)
  assert (K : (framed = false \/ nested = true \/ bs <> [] -> delimited v m0) /\ m0 <> [] /\
     (sniff m0 = Ok Cmsg \/ sniff m0 = Ok Ctxt /\ exists ct w, counter_strip v m0 = Ok (ct, w) /\ isGenus ct = false /\ isGeneric ct = false) /\
     forall n fr, (N0 <= n)%nat -> (framed = true -> nested = false -> bs = [] -> fr = true) -> resume (msgP n fr) (mkP v m0) = Done (Ok (mkE Ser x (attsOf v a) es)) (mkP v [])).
  { destruct (nested || negb (isnil bs) && framed) eqn:Ns.
    - destruct H0 as (-> & t & q & bd & Ht & Hq & Hb & Hm). split; [intros _; apply (delimited_grouped V2 (bd ++ aims ++ List.concat bs)); left; exact Hm|].
      assert (Rn : forall n, (N0 <= n)%nat -> readable n V2 m0 (mkE Ser x (attsOf V2 a) es)).
      { intros n L. destruct n as [|n]; [clear - L; unfold N0 in L; lia|]. assert (Rn : Forall (fun s => readable n V2 (fst s) (snd s)) nb) by (apply R; clear - L; unfold N0 in L; lia).
        destruct (steps_of n V2 true true aims a nb Pc Na eq_refl Rn (or_intror eq_refl)) as (steps & F & Ne & Le & Ec & Ef).
        pose proof (Ef x) as Ex. rewrite E2 in Ex. rewrite <- Ex. apply (msg_nested n raw x bd q t steps); try assumption; [rewrite Le; clear - L; unfold N0 in L; lia|]. rewrite Ec, E1. exact Hm. }
      pose proof (Rn N0 (le_n _)) as (Sm & (ct & w & C) & _). split; [intros E; rewrite E in Sm; discriminate Sm|]. split.
      + right. split; [exact Sm|]. destruct (C []) as (C1 & C2). rewrite app_nil_r in C1. destruct (bodyAtt_not _ C2) as [T1 T2]. exists ct, (w ++ []). auto.
      + intros n fr L _. destruct (Rn n L) as (_ & _ & X). specialize (X fr []). rewrite app_nil_r in X. exact X.
    - destruct framed.
      + destruct H0 as (Eb & ->). split; [intros [X|[X|X]]; [discriminate X|rewrite X in Ns; discriminate Ns|congruence]|].
        split; [destruct raw; [congruence|discriminate]|]. split; [left; rewrite sniff_app by exact Nr; exact Sn|]. intros n fr L Fr.
        assert (fr = true) as -> by (apply Fr; [reflexivity|destruct nested; [discriminate Ns|reflexivity]|exact Eb]).
        destruct n as [|n]; [clear - L; unfold N0 in L; lia|]. assert (En : nb = []) by (unfold nb; rewrite Eb; reflexivity). 
        destruct (steps_of n v true false aims a [] Pc Na eq_refl (Forall_nil _) (or_introl eq_refl)) as (steps & F & Ne & Le & Ec & Ef). cbn [map List.concat] in Ec. rewrite app_nil_r in Ec.
        assert (Ees : es = []) by (rewrite <- E2, En; reflexivity). rewrite Ees. rewrite <- Ef.
        apply (msg_sized n true v raw x); [split; assumption|]. rewrite <- Ec. apply attach_bare; try assumption. rewrite Le. clear - L. unfold N0 in L. cbn [List.length]. lia.
      + destruct H0 as (Bv & g & Hm & ->). split; [intros _; apply (delimited_attached v raw (aims ++ List.concat bs)); [exact Sb|left; exact Hm]|].
        split; [destruct raw; [congruence|discriminate]|]. split; [left; rewrite sniff_app by exact Nr; exact Sn|]. intros n fr L _.
        destruct n as [|n]; [clear - L; unfold N0 in L; lia|].
        assert (Rn : Forall (fun s => readable n v (fst s) (snd s)) nb).
        { destruct Bv as [Eb|Ev]; [unfold nb; rewrite Eb; constructor|]. rewrite Ev. apply R. clear - L. unfold N0 in L. lia. }
        destruct (steps_of n v fr true aims a nb Pc Na (orb_true_r fr) Rn (or_intror eq_refl)) as (steps & F & Ne & Le & Ec & Ef).
        pose proof (Ef x) as Ex. rewrite E2 in Ex. rewrite <- Ex. apply (msg_sized n fr v raw x); [split; assumption|]. rewrite <- (app_nil_r g).
        apply attach_enclosed; try assumption; [rewrite Le; clear - L; unfold N0 in L; lia|]. rewrite Ec, E1. exact Hm. }
  destruct K as (Kd & Km & Ks & Kr). split.
  - intros Fn ->. subst gvc. apply Kd. exact Fn.
  - exists N0, es, (mkE Ser x (attsOf v a) es). split; [exact G|]. split; [apply got_attsOf; assumption|].
    intros n fr v0 L Fr V0. apply delivers_intro. destruct n as [|n]; [clear - L; unfold N0 in L; lia|]. destruct genusify.
    + assert (H0' : v0 = V1 \/ v0 = V2) by (destruct V0 as [-> |[_ V0]]; assumption).
      destruct (genus_read v0 v gvc H0' Hv Hg) as (Sg & ct & C & Tg & Tn & _).
      apply front_msg.
      * intros E. apply app_eq_nil in E. tauto.
      * right. split; [rewrite sniff_app; [exact Sg|intros ->; discriminate Sg]|]. exists ct, m0. split; [apply C|exact Tn].
      * rewrite (msg_genus n fr v0 v gvc m0 H0' Hv Hg Km); [apply Kr; assumption|]. destruct Ks as [Ks|(Ks & ct' & w & C' & T1 & _)]; [left; exact Ks|right; split; [exact Ks|exists ct', w; auto]].
    + subst gvc. cbn [app]. assert (v0 = v) as -> by (destruct V0 as [V0|[V0 _]]; [exact V0|discriminate V0]).
      apply front_msg; [exact Km| |apply Kr; assumption]. destruct Ks as [Ks|(Ks & ct' & w & C' & _ & T2)]; [left; exact Ks|right; split; [exact Ks|exists ct', w; auto]].
Qed.

Theorem stream : forall v ts bs, v = V1 \/ v = V2 -> Forall2 (posted Ser sload kcheck v) ts bs ->
  exists n0, forall n, (n0 <= n)%nat -> exists es, Forall2 (gotAt Ser v) ts es /\
   let start := fresh Ser sload nload kcheck n false (mkP v []) in
   forall cs, List.concat cs = List.concat bs ->
    (exists x, session Ser sload nload kcheck n false start cs es x) /\ (forall es' x, session Ser sload nload kcheck n false start cs es' x -> es' = es).
Proof.
  intros v ts bs Hv F.
  assert (X : exists n0, forall n, (n0 <= n)%nat -> exists es, Forall2 (gotAt Ser v) ts es /\ Forall2 (fun f e => delimited v f /\ alone Ser sload nload kcheck n false v f e) bs es).
  { induction F as [|[raw x a ns] b ts bs P F (n1 & IH)]; [exists O; intros n _; exists []; split; constructor|].
    destruct P as (sv & nbs & framed & nested & gv & Oc & Bo & Ka & W & Fn & Sv & H).
    destruct (round_trip _ _ _ _ _ _ _ _ _ _ _ _ Hv Sv Oc Bo Ka W H) as (D & n2 & es2 & e & G & Gt & R). exists (n1 + n2)%nat. intros n L.
    destruct (IH n ltac:(clear - L; lia)) as (es & E1 & E2). exists (e :: es). split; constructor; try assumption.
    - exists es2. auto.
    - split; [apply D; auto|]. apply (R n false v ltac:(clear - L; lia)); [|left; reflexivity]. intros Tf Nf Eb. destruct Fn as [Fn|[Fn|Fn]]; congruence. }
  destruct X as (n0 & X). exists n0. intros n L. destruct (X n L) as (es & E1 & E2). exists es. split; [exact E1|]. intros start cs Ec.
  apply (chunks Ser sload nload kcheck n v cs bs es []); [exact E2|left; reflexivity|]. rewrite app_nil_r. exact Ec.
Qed.
End Mz.
