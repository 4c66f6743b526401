(** Fields of native messages, and messages, are read back. *)
From Verif Require Import Prelude B64Model B64Proofs MatterModel MatterProofs MatterInv MatterSpec MatterThms SubsModel SubsProofs SubsThms CtrModel CtrProofs CtrThms ThModel VerModel JsonModel SerModel SerSpec SerProofs NmModel NmSpec NmProofs NmProofs2 NkModel NkSpec NkProofs.
Open Scope N_scope.
Ltac Zify.zify_post_hook ::= Z.div_mod_to_equations.
Notation val := JsonModel.val.
Notation versionage := VerModel.versionage.

(** ** Lists *)
Definition readsAll {A} (f : bytes -> res (A * bytes)) (q : bytes) (vs : list A) : Prop := exists qs, Forall2 (reads f) qs vs /\ q = List.concat qs.
Lemma readsAll_nil : forall A (f : bytes -> res (A * bytes)), readsAll f [] [].
Proof. intros. exists []. split; [constructor|reflexivity]. Qed.
Lemma readsAll_cons : forall A (f : bytes -> res (A * bytes)) q v b vs, reads f q v -> readsAll f b vs -> readsAll f (q ++ b) (v :: vs).
Proof. intros A f q v b vs R (qs & F & ->). exists (q :: qs). split; [constructor; assumption|reflexivity]. Qed.
Lemma readsAll_app : forall A (f : bytes -> res (A * bytes)) a va b vb, readsAll f a va -> readsAll f b vb -> readsAll f (a ++ b) (va ++ vb).
Proof. intros A f a va b vb (qs & F & ->) (qs' & F' & ->). exists (qs ++ qs'). split; [apply Forall2_app; assumption|rewrite concat_app; reflexivity]. Qed.
Lemma readsAll_facts : forall A (f : bytes -> res (A * bytes)) q vs, readsAll f q vs -> b64text q /\ len q mod 4 = 0 /\ readFrame f q = Ok vs /\ (vs <> [] -> q <> []).
Proof.
  intros A f q vs (qs & F & ->).
  assert (G : b64text (List.concat qs) /\ len (List.concat qs) mod 4 = 0 /\ (forall n, (List.length (List.concat qs) <= n)%nat -> readAll f n (List.concat qs) = Ok vs) /\ (vs <> [] -> List.concat qs <> [])).
  { induction F as [|q v qs vs R F (I1 & I2 & I3 & I4)]; [split; [constructor|split; [reflexivity|split; [intros n _; destruct n; reflexivity|congruence]]]|]. cbn [List.concat]. destruct R as [R1 R2 R3 R4].
    split; [apply b64text_app; auto|]. split; [rewrite len_app; lia|]. split.
    - intros n L. rewrite app_length in L. destruct q as [|x q]; [congruence|]. cbn [List.length] in L. destruct n as [|n]; [lia|]. cbn [readAll app]. change (x :: q ++ List.concat qs) with ((x :: q) ++ List.concat qs). rewrite R4. cbn [bind]. rewrite I3 by lia. reflexivity.
    - intros _ E. apply app_eq_nil in E. destruct E. contradiction. }
  destruct G as (G1 & G2 & G3 & G4). split; [exact G1|]. split; [exact G2|]. split; [apply G3; lia|exact G4].
Qed.
Lemma concat_reads : forall A (f : bytes -> res (A * bytes)) (g : val -> res bytes) es vs b, Forall2 (fun e v => forall q, g e = Ok q -> reads f q v) es vs -> concatr g es = Ok b -> readsAll f b vs.
Proof.
  intros A f g es vs b F. revert b. induction F as [|e v es vs H F IH]; intros b C; cbn [concatr] in C.
  - apply ok_inj in C. subst. apply readsAll_nil.
  - apply bind_ok in C. destruct C as (a & Ha & C). apply bind_ok in C. destruct C as (c & Hc & C). apply ok_inj in C. subst. apply readsAll_cons; auto.
Qed.

(** ** Counters *)
Definition V := ctrV (Some (2, 0)).
Lemma VV : V = V20. Proof. reflexivity. Qed.
Lemma counted_enclose : forall code f q, len f mod 4 = 0 -> counted V20 code f = Ok q -> enclose V20 code f = Ok q.
Proof.
  intros code f q L H. unfold counted in H. unfold enclose. rewrite L. change (negb (0 =? 0)) with false. cbv iota. destruct (counter_of V20 code (len f / 4)) as [c|e]; [|discriminate]. cbn [bind] in *. exact H.
Qed.
Lemma list_reads : forall f q, len f mod 4 = 0 -> counted V20 (s2b "GenericListGroup") f = Ok q -> b64text f ->
  reads (listFrame V20) q f /\ exists c, (forall t, cexfil V20 (q ++ t) = Ok c) /\ isList (c_name c) = true /\ isMapName (c_name c) = false.
Proof.
  intros f q L H B. apply counted_enclose in H; [|exact L]. destruct (enclose_head _ _ _ (or_introl eq_refl) H) as (_ & h & c & r & -> & H1 & H2 & H3 & H4 & H5 & _ & H7 & H8 & H9 & _).
  change (isList (c_name c) = true) in H8. split; [|exists c; auto]. constructor.
  - apply b64text_app. auto.
  - rewrite len_app. lia.
  - rewrite H3. discriminate.
  - intros t. unfold listFrame. rewrite H7. cbn [bind]. rewrite H8. cbn [negb]. unfold byteCount_txt in H4. rewrite H4, ntake_len_app, ndrop_len_app. reflexivity.
Qed.
Lemma map_reads : forall m q, plainMap m -> NmModel.exhale true [] m = Ok q ->
  reads mapperStrip q m /\ exists c, (forall t, cexfil V20 (q ++ t) = Ok c) /\ isMapName (c_name c) = true.
Proof.
  intros m q P H. destruct (map_round_trip true m q [] P H) as (T & F & _).
  assert (R : forall t, mapperRead true (q ++ t) = Ok m) by (intros t; apply (map_round_trip true m q t P H)).
  unfold NmModel.exhale in H. apply bind_ok in H. destruct H as (bdy & _ & H). destruct (enclose_head _ _ _ (or_intror eq_refl) H) as (_ & h & c & r & E & _ & _ & H3 & H4 & H5 & (sz & H6 & H6') & _ & H8 & _).
  change (isMapName (c_name c) = true) in H8. split; [|exists c; auto]. constructor; [exact T|exact F|rewrite E, H3; discriminate|].
  intros t. unfold mapperStrip. assert (NE : exists x y, q ++ t = x :: y) by (rewrite E, H3; eexists; eexists; reflexivity). destruct NE as (x & y & NE). rewrite NE. rewrite <- NE. rewrite H5. cbn [bind]. rewrite H6. cbn [bind]. rewrite R. cbn [bind].
  rewrite H4, H6'. replace (len bdy + len h) with (len q) by (rewrite E, len_app; lia). rewrite ndrop_len_app. reflexivity.
Qed.

(** ** Seals *)
Definition typeOk (t : ptype) : bytes -> Prop :=
  match t with PNum => isNumber | PPre => isPrimOf PreDex | PVer => isPrimOf [s2b "Y"; s2b "0O"] | PDig => isPrimOf DigDex end.
Lemma cast_reads : forall t s, typeOk t s -> exists q, castText t (VStr s) = Ok q /\ reads (castStrip t) q s /\ len q <= match t with PNum => 24 | _ => len s end.
Proof.
  intros t s H. destruct t; cbn [typeOk] in H.
  - exists s. split; [|split; [apply stripDex_reads; exact H|lia]]. destruct H as (B & m & X & I & C). cbn [castText textVal bind]. rewrite X. cbn [bind]. apply memB_true in C. rewrite C. exact I.
  - destruct (number_reads _ H) as (m & q & N1 & N2 & N3 & N4). exists q. split; [cbn [castText textVal bind]; rewrite N1; exact N2|]. split; [exact N3|exact N4].
  - exists s. split; [|split; [apply stripDex_reads; exact H|lia]]. destruct H as (B & m & X & I & C). cbn [castText textVal bind]. rewrite X. cbn [bind]. apply memB_true in C. rewrite C. exact I.
  - exists s. destruct (isPrimOf_prim _ _ H) as (m & P & C). pose proof (pr_exfil _ _ P) as X. pose proof (pr_infil _ _ P) as I.
    assert (G : negb (special (m_code m)) || negb (memB (m_code m) TagDex) = false /\ isVerser m = Ok m).
    { unfold isVerser. cbn [In] in C. destruct C as [C|[C|[]]]; rewrite <- C; split; vm_compute; reflexivity. }
    destruct G as [G1 G2]. split; [cbn [castText textVal bind]; unfold tagger_of_qb64; rewrite X; cbn [bind]; rewrite G1; cbn [bind]; rewrite G2; exact I|].
    split; [|lia]. constructor; try apply (prim_reads _ _ P). intros t. cbn [castStrip]. unfold verserStrip, stripTag. rewrite (pr_strip _ _ P). cbn [bind]. rewrite G1. cbn [bind]. rewrite G2. cbn [bind]. rewrite I. reflexivity.
Qed.
Lemma casts_read : forall cast m, Forall2 (fun lt kv => fst lt = fst kv /\ (snd lt = PNum <-> fst lt = s2b "s") /\ exists s, snd kv = VStr s /\ typeOk (snd lt) s) cast m ->
  exists q, castTexts cast m = Ok q /\ b64text q /\ len q mod 4 = 0 /\ (cast <> [] -> q <> []) /\ (forall t, sealStrip cast (q ++ t) = Ok (m, t)) /\ len q <= sealSize (VMap m).
Proof.
  intros cast m F. induction F as [|[l t] [l' v] cast m (E & N & s & Ev & T) F (q & Q1 & Q2 & Q3 & _ & Q5 & Q6)].
  - exists []. split; [reflexivity|]. split; [constructor|]. split; [reflexivity|]. split; [congruence|]. split; [intros t; reflexivity|cbn; lia].
  - cbn [fst snd] in *. subst l' v. destruct (cast_reads t s T) as (a & A1 & A2 & A3). destruct A2 as [A4 A5 A6 A7]. exists (a ++ q). cbn [castTexts]. rewrite A1. cbn [bind]. rewrite Q1. cbn [bind].
    split; [reflexivity|]. split; [apply b64text_app; auto|]. split; [rewrite len_app; lia|]. split; [intros _ X; apply app_eq_nil in X; tauto|]. split.
    + intros r. cbn [sealStrip]. rewrite <- app_assoc, A7. cbn [bind]. rewrite Q5. reflexivity.
    + rewrite len_app. cbn [sealSize fold_right fst snd]. fold (sealSize (VMap m)). destruct (beq_spec l (s2b "s")) as [->|Nl].
      * assert (t = PNum) by tauto. subst t. lia.
      * destruct t; try lia. exfalso. apply Nl. tauto.
Qed.
Lemma seal_reads : forall e, isSeal e -> exists code cast q m, e = VMap m /\ sealText e = Ok (code, q) /\ dget Seals code = Some cast /\ In (code, cast) Seals /\ keysOf cast = labelsOf e /\
  reads (sealStrip cast) q m /\ len q <= sealSize e.
Proof.
  intros e (m & -> & I & F).
  assert (G : exists code cast, sealByMark (keysOf m) = Some (code, cast) /\ dget Seals code = Some cast /\ In (code, cast) Seals /\ keysOf cast = keysOf m /\ cast <> [] /\
     Forall2 (fun lt kv => fst lt = fst kv /\ (snd lt = PNum <-> fst lt = s2b "s") /\ exists s, snd kv = VStr s /\ typeOk (snd lt) s) cast m).
  { cbn [sealLabels map In] in I.
    assert (N : forall (a b : bytes), beq a b = false -> (PDig = PNum <-> a = b) /\ (PPre = PNum <-> a = b) /\ (PVer = PNum <-> a = b)).
    { intros a b B. apply beq_neq in B. repeat split; intros; try discriminate; contradiction. }
    repeat match type of I with _ \/ _ => destruct I as [I|I] end; try contradiction.
    all: destruct m as [|[l1 v1] [|[l2 v2] [|[l3 v3] [|? ?]]]]; cbn [keysOf map fst] in I; try discriminate; injection I as <-; subst.
    all: repeat match goal with H : Forall sealField (_ :: _) |- _ => let A := fresh "A" in inversion H as [|? ? A H']; subst; clear H; rename H' into H end.
    all: eexists; eexists; split; [vm_compute; reflexivity|]; split; [vm_compute; reflexivity|]; split; [vm_compute; tauto|]; split; [reflexivity|]; split; [discriminate|].
    all: repeat constructor; try reflexivity; try (intros; discriminate); try tauto.
    all: match goal with H : sealField (_, ?v) |- exists s, snd (_, ?v) = VStr s /\ _ => exact H | _ => idtac end. }
  destruct G as (code & cast & G1 & G2 & G3 & G4 & G5 & G6). destruct (casts_read _ _ G6) as (q & Q1 & Q2 & Q3 & Q4 & Q5 & Q6).
  exists code, cast, q, m. split; [reflexivity|]. split; [cbn [sealText]; rewrite G1, Q1; reflexivity|]. split; [exact G2|]. split; [exact G3|]. split; [exact G4|]. split; [constructor; auto|exact Q6].
Qed.

(** one group of seals of the same type *)
Lemma group_reads : forall code cast frame ms, In (code, cast) Seals -> dget Seals code = Some cast -> readsAll (sealStrip cast) frame ms -> ms <> [] -> len frame <= 4 * 4095 ->
  forall q, closeGroup V20 (Some code) frame = Ok q -> reads (groupStrip V20) q (map VMap ms).
Proof.
  intros code cast frame ms I G R NE L q H. destruct (readsAll_facts _ _ _ _ R) as (T & F & RF & NE'). specialize (NE' NE). destruct frame as [|x frame']; [congruence|].
  cbn [closeGroup] in H. set (frame := x :: frame') in *. unfold counted in H. apply bind_ok in H. destruct H as (c & C & H). apply bind_ok in H. destruct H as (h & Hh & H). apply ok_inj in H. subst q.
  destruct (c39_text_round_trip _ _ _ _ C) as (C1 & C2 & h' & H1 & H2 & H3 & H4). rewrite Hh in H1. apply ok_inj in H1. subst h'.
  assert (CC : c_code c = code).
  { destruct (counter_of_ok _ _ _ _ C) as (_ & _ & codes & sizes & sz & K & hard & hsz & L1 & L2 & [L3|(_ & L3 & _)]); [|lia].
    pose proof (co_tab _ _ _ _ K) as TT. rewrite C2 in TT. apply ok_inj in TT. injection TT as <- <-. rewrite L3. cbn [Seals In] in I.
    repeat match type of I with _ \/ _ => destruct I as [I|I] end; try contradiction; injection I as <- <-; vm_compute in L1; apply ok_inj in L1; injection L1 as <- _; reflexivity. }
  constructor.
  - apply b64text_app. auto.
  - rewrite len_app. lia.
  - intros E. apply app_eq_nil in E. destruct E as [_ E]. discriminate.
  - intros t. unfold groupStrip. rewrite <- app_assoc, H4. cbn [bind]. rewrite CC, G, C1. replace (len frame / 4 * 4) with (len frame) by lia. rewrite ntake_len_app, ndrop_len_app, RF. reflexivity.
Qed.
Lemma smallRuns_suffix : forall a b, smallRuns (a ++ b) -> smallRuns b.
Proof. intros a b H x run y k E F. apply (H (a ++ x) run y k); [rewrite E, <- app_assoc; reflexivity|exact F]. Qed.
Lemma smallRuns_prefix : forall a b, smallRuns (a ++ b) -> forall k, Forall (fun e => labelsOf e = k) a -> sealsSize a <= 4 * 4095.
Proof. intros a b H k F. apply (H [] a b k); [reflexivity|exact F]. Qed.
Lemma sealsSize_app : forall a b, sealsSize (a ++ b) = sealsSize a + sealsSize b.
Proof. intros a b. unfold sealsSize. induction a as [|x a IH]; cbn [app fold_right]; [lia|]. rewrite IH. lia. Qed.
Lemma sealsSize_one : forall e, sealsSize [e] = sealSize e. Proof. intros e. unfold sealsSize. cbn [fold_right]. lia. Qed.
Lemma seal_type : forall c1 t1 c2 t2, In (c1, t1) Seals -> In (c2, t2) Seals -> keysOf t1 = keysOf t2 <-> c1 = c2.
Proof.
  intros c1 t1 c2 t2 I1 I2. cbn [Seals In] in I1, I2.
  repeat match type of I1 with _ \/ _ => destruct I1 as [I1|I1] end; try contradiction; injection I1 as <- <-.
  all: repeat match type of I2 with _ \/ _ => destruct I2 as [I2|I2] end; try contradiction; injection I2 as <- <-; (split; intros E; [first [reflexivity|vm_compute in E; discriminate]|first [reflexivity|vm_compute in E; discriminate]]).
Qed.
(** the seals that follow a run *)
Lemma seals_read : forall es, Forall isSeal es -> forall code cast ms frame out, In (code, cast) Seals -> dget Seals code = Some cast -> ms <> [] ->
  readsAll (sealStrip cast) frame ms -> len frame <= sealsSize (map VMap ms) -> Forall (fun m => keysOf m = keysOf cast) ms -> smallRuns (map VMap ms ++ es) ->
  sealFrames V20 es (Some code) frame = Ok out -> exists gs, readsAll (groupStrip V20) out gs /\ List.concat gs = map VMap ms ++ es.
Proof.
  intros es F. induction F as [|e es S F IH]; intros code cast ms frame out I G NE R L K SR H; cbn [sealFrames] in H.
  - rewrite app_nil_r in SR. assert (LL : len frame <= 4 * 4095).
    { transitivity (sealsSize (map VMap ms)); [exact L|]. apply (smallRuns_prefix _ []) with (k := keysOf cast); [rewrite app_nil_r; exact SR|]. clear - K. induction K; constructor; auto. }
    exists [map VMap ms]. split; [|cbn; rewrite !app_nil_r; reflexivity]. rewrite <- (app_nil_r out). apply readsAll_cons; [|apply readsAll_nil]. apply group_reads with code cast frame; auto.
  - destruct (seal_reads e S) as (c' & cast' & q & m & -> & ST & G' & I' & K' & R' & L'). rewrite ST in H. cbn [labelsOf] in K'. destruct (beq_spec code c') as [<-|ND].
    + rewrite G in G'. injection G' as <-. destruct (IH code cast (ms ++ [m]) (frame ++ q) out) as (gs & G1 & G2); auto.
      * intros X. apply app_eq_nil in X. destruct X. contradiction.
      * apply readsAll_app; [exact R|]. rewrite <- (app_nil_r q). apply readsAll_cons; [exact R'|apply readsAll_nil].
      * rewrite map_app, sealsSize_app, len_app. cbn [map]. rewrite sealsSize_one. apply N.add_le_mono; assumption.
      * apply Forall_app. split; [exact K|]. repeat constructor. congruence.
      * rewrite map_app, <- app_assoc. exact SR.
      * exists gs. split; [exact G1|]. rewrite G2, map_app, <- app_assoc. reflexivity.
    + apply bind_ok in H. destruct H as (a & A & H). apply bind_ok in H. destruct H as (b & B & H). apply ok_inj in H. subst out.
      assert (LL : len frame <= 4 * 4095).
      { transitivity (sealsSize (map VMap ms)); [exact L|]. apply (smallRuns_prefix _ _ SR) with (k := keysOf cast). clear - K. induction K; constructor; auto. }
      destruct (IH c' cast' [m] q b) as (gs & G1 & G2); auto.
      * discriminate.
      * rewrite <- (app_nil_r q). apply readsAll_cons; [exact R'|apply readsAll_nil].
      * cbn [map]. rewrite sealsSize_one. exact L'.
      * cbn [map app]. exact (smallRuns_suffix _ _ SR).
      * exists (map VMap ms :: gs). split; [apply readsAll_cons; [|exact G1]; apply group_reads with code cast frame; auto|]. cbn [List.concat]. rewrite G2. reflexivity.
Qed.
Lemma all_seals_read : forall es out, Forall isSeal es -> smallRuns es -> sealFrames V20 es None [] = Ok out -> exists gs, readsAll (groupStrip V20) out gs /\ List.concat gs = es.
Proof.
  intros es out F SR H. destruct F as [|e es S F]; cbn [sealFrames] in H.
  - cbn [closeGroup] in H. apply ok_inj in H. subst. exists []. split; [apply readsAll_nil|reflexivity].
  - destruct (seal_reads e S) as (code & cast & q & m & -> & ST & G & I & K & R & L). rewrite ST in H. cbn [closeGroup bind app] in H. apply bind_ok in H. destruct H as (b & B & H). apply ok_inj in H. subst out. cbn [app].
    apply (seals_read es F code cast [m] q b); auto.
    + discriminate.
    + rewrite <- (app_nil_r q). apply readsAll_cons; [exact R|apply readsAll_nil].
    + cbn [map]. rewrite sealsSize_one. exact L.
Qed.

(** ** Fields *)
Lemma text_inv : forall P v, text P v -> exists s, v = VStr s /\ P s. Proof. intros P v H. exact H. Qed.
Lemma all_forall2 : forall (P : bytes -> Prop) l (R : val -> val -> Prop), Forall P l -> (forall s, P s -> R (VStr s) (VStr s)) -> Forall2 R (map VStr l) (map VStr l).
Proof. intros P l R F H. induction F; cbn [map]; constructor; auto. Qed.
Definition G2 : option versionage := Some (2, 0).
Definition reserved (l : bytes) : Prop := l = s2b "v" \/ l = s2b "t".
Lemma traits_ok : forall s, In s TraitDex -> exists q, traitorText s = Ok q.
Proof.
  intros s H. cbn [TraitDex map In] in H. repeat (destruct H as [<-|H]; [eexists; vm_compute; reflexivity|]). contradiction.
Qed.
Lemma field_reads : forall p size ilk l v q, fieldOk l v -> ~ reserved l -> dumpField p G2 ilk l v = Ok q -> b64text q /\ len q mod 4 = 0 /\ forall t, loadField p G2 size ilk l (q ++ t) = Ok (v, t).
Proof.
  intros p size ilk l v q (D & PR & U & NU & TH & PS & DT & RT & TR & MP & AT) NR H. unfold dumpField in H. unfold loadField.
  destruct (dget fkinds l) as [k|] eqn:K; [|discriminate].
  assert (KI : In (l, k) fkinds) by (apply dget_In; exact K).
  assert (TX : forall f, text (fun s => reads f q s) v -> b64text q /\ len q mod 4 = 0 /\ forall t, ('(q0, r) <- f (q ++ t) ;; Ok (VStr q0, r)) = Ok (v, t)).
  { intros f (s & -> & [R1 R2 _ R4]). split; [exact R1|]. split; [exact R2|]. intros t. rewrite R4. reflexivity. }
  assert (SAME : forall dex, text (isPrimOf dex) v -> textVal v = Ok q -> text (fun s => reads (stripDex dex) q s) v).
  { intros dex (s & -> & P) E. cbn [textVal] in E. apply ok_inj in E. subst q. exists s. split; [reflexivity|]. apply stripDex_reads. exact P. }
  assert (LIST : forall (f : bytes -> res (val * bytes)) fr vs, v = VList vs -> readsAll f fr vs -> counted (ctrV G2) (s2b "GenericListGroup") fr = Ok q -> b64text q /\ len q mod 4 = 0 /\
     forall t, ('(f0, r) <- listFrame (ctrV G2) (q ++ t) ;; es <- readFrame f f0 ;; Ok (VList es, r)) = Ok (v, t)).
  { intros f fr vs -> R C. destruct (readsAll_facts _ _ _ _ R) as (T & F & RF & _). change (ctrV G2) with V20 in *. destruct (list_reads _ _ F C T) as ([L1 L2 _ L4] & _).
    split; [exact L1|]. split; [exact L2|]. intros t. rewrite L4. cbn [bind]. rewrite RF. reflexivity. }
  assert (MAP : forall m, v = VMap m -> plainMap m -> NmModel.exhale true [] m = Ok q -> b64text q /\ len q mod 4 = 0 /\ (forall t, ('(m, r) <- mapperStrip (q ++ t) ;; Ok (VMap m, r)) = Ok (v, t)) /\
     exists c, (forall t, cexfil V20 (q ++ t) = Ok c) /\ isMapName (c_name c) = true).
  { intros m -> P X. destruct (map_reads _ _ P X) as ([R1 R2 _ R4] & C). split; [exact R1|]. split; [exact R2|]. split; [|exact C]. intros t. rewrite R4. reflexivity. }
  cbv zeta.
  destruct k.
  - exfalso. apply NR. left. cbn [fkinds In] in KI. repeat (destruct KI as [E|KI]; [first [discriminate E|injection E as <-; reflexivity]|]). contradiction.
  - exfalso. apply NR. right. cbn [fkinds In] in KI. repeat (destruct KI as [E|KI]; [first [discriminate E|injection E as <-; reflexivity]|]). contradiction.
  - apply TX, SAME; [|exact H]. apply D. cbn [fkinds In] in KI. repeat (destruct KI as [E|KI]; [first [discriminate E|injection E as <-; cbn; tauto]|]). contradiction.
  - apply TX, SAME; [|exact H]. apply U. cbn [fkinds In] in KI. repeat (destruct KI as [E|KI]; [first [discriminate E|injection E as <-; reflexivity]|]). contradiction.
  - apply TX, SAME; [|exact H]. apply PR. cbn [fkinds In] in KI. repeat (destruct KI as [E|KI]; [first [discriminate E|injection E as <-; cbn; tauto]|]). contradiction.
  - apply TX. assert (X : text isNumber v) by (apply NU; cbn [fkinds In] in KI; repeat (destruct KI as [E|KI]; [first [discriminate E|injection E as <-; cbn; tauto]|]); contradiction).
    destruct X as (s & -> & N). exists s. split; [reflexivity|]. destruct (number_reads _ N) as (m & q' & N1 & N2 & N3 & _). cbn [textVal bind] in H. rewrite N1 in H. cbn [bind] in H. rewrite N2 in H. apply ok_inj in H. subst q'. exact N3.
  - assert (X : isThreshold v) by (apply TH; cbn [fkinds In] in KI; repeat (destruct KI as [E|KI]; [first [discriminate E|injection E as <-; cbn; tauto]|]); contradiction).
    destruct (tholder_reads _ _ X H) as [R1 R2 _ R4]. auto.
  - assert (X : all (isPrimOf (map fst Sizes)) v) by (apply PS; cbn [fkinds In] in KI; repeat (destruct KI as [E|KI]; [first [discriminate E|injection E as <-; cbn; tauto]|]); contradiction).
    destruct X as (l' & -> & F). apply bind_ok in H. destruct H as (fr & C & H). refine (LIST _ fr _ eq_refl _ H). eapply concat_reads; [|exact C]. eapply all_forall2; [exact F|]. intros s P q' E. cbn [textVal] in E. apply ok_inj in E. subst q'. apply matter_reads. exact P.
  - apply TX. assert (X : text isDate v) by (apply DT; cbn [fkinds In] in KI; repeat (destruct KI as [E|KI]; [first [discriminate E|injection E as <-; reflexivity]|]); contradiction).
    destruct X as (s & -> & N). exists s. split; [reflexivity|]. destruct (date_reads _ N) as (q' & N1 & N2). cbn [textVal bind] in H. rewrite N1 in H. apply ok_inj in H. subst q'. exact N2.
  - apply TX. assert (X : text isRoute v) by (apply RT; cbn [fkinds In] in KI; repeat (destruct KI as [E|KI]; [first [discriminate E|injection E as <-; cbn; tauto]|]); contradiction).
    destruct X as (s & -> & N). exists s. split; [reflexivity|]. cbn [textVal bind] in H. exact (path_reads _ _ N H).
  - assert (X : all (fun s => In s TraitDex) v) by (apply TR; cbn [fkinds In] in KI; repeat (destruct KI as [E|KI]; [first [discriminate E|injection E as <-; reflexivity]|]); contradiction).
    destruct X as (l' & -> & F). apply bind_ok in H. destruct H as (fr & C & H). refine (LIST _ fr _ eq_refl _ H). eapply concat_reads; [|exact C]. eapply all_forall2; [exact F|]. intros s P q' E. cbn [textVal bind] in E.
    destruct (traitor_reads _ _ E) as [T1 T2 T3 T4]. constructor; auto. intros t. rewrite T4. reflexivity.
  - assert (X : (exists m, v = VMap m /\ plainMap m) \/ exists es, v = VList es /\ Forall isSeal es /\ smallRuns es) by (apply AT; cbn [fkinds In] in KI; repeat (destruct KI as [E|KI]; [first [discriminate E|injection E as <-; reflexivity]|]); contradiction).
    destruct X as [(m & E & P)|(es & -> & F & SR)].
    + subst v. destruct (MAP m eq_refl P H) as (M1 & M2 & M3 & c & C1 & C2). split; [exact M1|]. split; [exact M2|]. intros t. change (ctrV G2) with V20. rewrite C1. cbn [bind]. rewrite C2. apply M3.
    + apply raise_if_ok in H. destruct H as [EI H]. apply bind_ok in H. destruct H as (fr & S & H). change (ctrV G2) with V20 in *. destruct (all_seals_read _ _ F SR S) as (gs & R & CG).
      destruct (readsAll_facts _ _ _ _ R) as (T & F4 & RF & _). destruct (list_reads _ _ F4 H T) as ([L1 L2 _ L4] & c & C1 & C2 & C3). split; [exact L1|]. split; [exact L2|].
      intros t. rewrite C1. cbn [bind]. rewrite C3, C2, EI, L4. cbn [bind]. rewrite RF. cbn [bind]. rewrite CG. reflexivity.
  - assert (X : exists m, v = VMap m /\ plainMap m) by (apply MP; cbn [fkinds In] in KI; repeat (destruct KI as [E|KI]; [first [discriminate E|injection E as <-; reflexivity]|]); contradiction).
    destruct X as (m & E & P). subst v. destruct (MAP m eq_refl P H) as (M1 & M2 & M3 & _). auto.
Qed.
