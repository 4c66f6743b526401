(** ACDC messages: a message with less disclosed verifies with the same said. *)
From Verif Require Import Prelude B64Model B64Proofs MatterModel MatterProofs SubsModel VerModel VerThms ThModel JsonModel JsonProofs SerModel SerSpec SerProofs SerInv CpModel CpSpec CpProofs CpRoll CpAgg CpCompact SerMake CpThms AcModel AcSpec AcProofs AcBind.
Notation val := JsonModel.val.
Open Scope N_scope.
Ltac Zify.zify_post_hook ::= Z.div_mod_to_equations.

Lemma map_ext : forall (m c : sad), NoDup (keysOf m) -> keysOf c = keysOf m -> (forall k, dget m k = dget c k) -> m = c.
Proof.
  induction m as [|[k v] m IH]; intros c N K H; destruct c as [|[k' w] c]; try discriminate; [reflexivity|]. cbn [keysOf map fst] in *. injection K as -> K. inversion N as [|? ? Nk N']; subst.
  pose proof (H k) as Hk. cbn [dget] in Hk. rewrite beq_refl in Hk. injection Hk as ->. f_equal. apply IH; [exact N'|exact K|]. intros k0. specialize (H k0). cbn [dget] in H. destruct (beq k0 k) eqn:E; [|exact H]. apply beq_eq in E. subst k0.
  destruct (dget m k) as [x|] eqn:A; [exfalso; apply Nk; apply (dget_keys m); eauto|]. destruct (dget c k) as [y|] eqn:B; [exfalso; apply Nk; unfold keysOf in K; rewrite <- K; apply (dget_keys c); eauto|reflexivity].
Qed.

Lemma disclosable_ok : forall s ilk, ilkOf (d_sad s) = Ok ilk -> disclosable s <-> compactable (d_pvrsn s) ilk = true.
Proof.
  intros s ilk I. unfold disclosable, compactable, ilkOf in *. rewrite andb_true_iff, N.leb_le. destruct (dget (d_sad s) (s2b "t")) as [[| | |t| |]|]; try discriminate; apply ok_inj in I; subst ilk; try (split; intros [A B]; split; auto; fail). rewrite memB_In. tauto.
Qed.
Lemma sectional_ok : forall s ilk, ilkOf (d_sad s) = Ok ilk -> sectionMessage s -> sectional (d_pvrsn s) ilk = true /\ compactable (d_pvrsn s) ilk = false.
Proof.
  intros s ilk I (L & t & G & M). unfold ilkOf in I. rewrite G in I. apply ok_inj in I. subst ilk. unfold sectional, compactable. apply N.leb_le in L. rewrite L. cbn [andb]. split; [apply memB_In; exact M|]. cbn [map In] in M. repeat (destruct M as [<-|M]; [reflexivity|]). destruct M.
Qed.
Section Sec.
Variable digest : bytes -> bytes -> bytes.
Variable dm : bool -> list bytes -> sad -> res bytes.
Variable dl : list val -> res bytes.
Hypothesis Hd : digest_ok digest.
Lemma elemText_fun : forall e s s', elemText digest dm e s -> elemText digest dm e s' -> s = s'.
Proof.
  intros e s s' A B. destruct e as [| | |t| |m]; cbn [elemText] in *; try contradiction.
  - destruct A as (q & D & ->). destruct B as (q' & D' & ->). congruence.
  - destruct (dget m d_); [|congruence]. destruct A as (q & D & ->). destruct B as (q' & D' & ->). congruence.
Qed.
Lemma elems_fun : forall es ss ss', Forall2 (elemText digest dm) es ss -> Forall2 (elemText digest dm) es ss' -> ss = ss'.
Proof. intros es ss ss' F. revert ss'. induction F as [|e s es ss H F IH]; intros ss' G; inversion G; subst; [reflexivity|]. f_equal; [eapply elemText_fun; eassumption|apply IH; assumption]. Qed.
Lemma sectionSaid_fun : forall l v q q', sectionSaid digest dm dl l v q -> sectionSaid digest dm dl l v q' -> q = q'.
Proof.
  intros l v q q' A B. destruct v as [| | | |es|m]; cbn [sectionSaid] in *; try contradiction.
  - destruct es as [|[| | |h| |] es]; try contradiction. destruct A as (_ & ss & raw & F & R & Q). destruct B as (_ & ss' & raw' & F' & R' & Q'). rewrite <- (elems_fun _ _ _ F F') in R'. rewrite R in R'. injection R' as <-. eapply isDigestOf_fun; eassumption.
  - destruct A as [(-> & A)|(A1 & _ & m1 & A2 & A3)]; destruct B as [(E & B)|(B1 & _ & m2 & B2 & B3)]; try congruence.
    + exfalso. exact (notS _ B1 eq_refl).
    + exfalso. exact (notS _ A1 E).
Qed.
Lemma sectionSaid_saided : forall l v q, sectionSaid digest dm dl l v q -> saided l v.
Proof.
  intros l v q A. destruct v as [| | | |es|m]; cbn [sectionSaid saided] in *; try contradiction.
  - destruct es as [|[| | |h| |] es]; try contradiction. split; [apply A|discriminate].
  - destruct A as [(-> & A)|(A1 & A2 & _)]; [left; split; [reflexivity|]|right; auto]. unfold saidText in A. destruct (dget m (s2b "$id")); [discriminate|discriminate A].
Qed.
End Sec.

Section Ac.
Variable digest : bytes -> bytes -> bytes.
Variable odumps : bytes -> sad -> res bytes.
Variable cdumps : bytes -> versionage -> option versionage -> sad -> res bytes.
Variable loads : bytes -> bytes -> res sad.
Variable nmap : bool -> list bytes -> sad -> res bytes.
Variable olist : bytes -> list val -> res bytes.
Hypothesis Hd : digest_ok digest.
Notation mapDump := (mapDump odumps nmap).
Notation listDump := (listDump olist).
Notation compactSection := (compactSection digest odumps nmap olist).
Notation compactSections := (compactSections digest odumps nmap olist).
Notation verifyACDC := (verifyACDC digest odumps cdumps nmap olist).
Notation mostCompact := (mostCompact digest odumps cdumps nmap olist).
Notation dumps := (dumps odumps cdumps).
Notation acdcOk := (acdcOk digest odumps cdumps nmap olist).
Notation J := (s2b "JSON").

Lemma mapJ : mapDump J = jsonDump. Proof. reflexivity. Qed.
Lemma listJ : listDump J = jsonDumpl. Proof. reflexivity. Qed.
Lemma dumpsJ : forall s m, d_kind s = J -> dumps s m = Ok (json (VMap m)).
Proof. intros s m E. unfold SerModel.dumps. rewrite E. reflexivity. Qed.

Lemma section_mono : forall n n' kind l v r, (n <= n')%nat -> compactSection n kind l v = Some r -> compactSection n' kind l v = Some r.
Proof.
  intros n n' kind l v r L H. unfold AcModel.compactSection in *. destruct (negb (truthy (Some v))); [exact H|]. destruct v as [| | | | |m]; try exact H. unfold mapSaid in *. destruct (beq l (s2b "s")); [exact H|]. destruct (memB l (map s2b ["a"; "e"; "r"]%string)); [|exact H].
  destruct (compactor digest (mapDump kind) n true SaidsD m) as [x|] eqn:C; [|discriminate]. rewrite (compactor_mono _ _ _ _ _ _ _ C n' L). exact H.
Qed.
Lemma aggMake_redacts : forall es es', Forall2 (elemRedacts digest jsonDump) es es' -> forall r' ss, aggMake digest jsonDump SaidsD es' = Ok (r', ss) -> exists r, aggMake digest jsonDump SaidsD es = Ok (r, ss).
Proof.
  intros es es' F. induction F as [|w e es es' H F IH]; intros r' ss A; [exists r'; exact A|]. cbn [aggMake] in *.
  match type of A with (bind ?x _) = _ => destruct x as [[e' s]|] eqn:E; cbn [bind] in A; [|discriminate] end. destruct (aggMake digest jsonDump SaidsD es') as [[r0 rs]|] eqn:B; cbn [bind] in A; [|discriminate]. injection A as <- <-. destruct (IH _ _ eq_refl) as (r & R). rewrite R.
  destruct H as [->|(q & T & ->)]; [rewrite E; cbn [bind]; eexists; reflexivity|].
  assert (T' : elemText digest jsonDump e s).
  { assert (A1 : aggMake digest jsonDump SaidsD [e] = Ok ([e'], [s])) by (cbn [aggMake]; rewrite E; reflexivity). pose proof (aggMake_text digest jsonDump Hd (fun _ _ _ _ => eq_refl) _ _ _ A1) as A2. inversion A2; subst. assumption. }
  rewrite <- (elemText_fun _ _ _ _ _ T T'). destruct (elemText_dig digest jsonDump Hd _ _ T) as [X|(t & X & D)]; [discriminate|]. injection X as <-. rewrite D. cbn [bind]. eexists; reflexivity.
Qed.
Lemma section_redacts : forall n l v w c, wfv v -> dotless d_ v -> compactSection n J l v = Some (Ok c) -> sectionRedacts digest jsonDump jsonDumpl l w v -> exists n', compactSection n' J l w = Some (Ok c).
Proof.
  intros n l v w c W D H R. destruct R as [->|[(q & -> & S)|R]]; [eauto| |].
  - exists n. pose proof (section_compact digest odumps cdumps loads nmap olist Hd n J l v c ltac:(discriminate) W D H) as [(q' & -> & S')|(-> & N)].
    + rewrite mapJ, listJ in S'. rewrite <- (sectionSaid_fun _ _ _ _ _ _ _ S S'). unfold AcModel.compactSection. destruct (negb (truthy (Some (VStr q)))); reflexivity.
    + exfalso. apply N. eapply sectionSaid_saided. exact S.
  - destruct w as [| | | |es|m]; destruct v as [| | | |es'|m']; try contradiction; try (destruct es as [|[| | |h| |] es]; contradiction).
    + destruct es as [|[| | |h| |] es]; try contradiction. destruct es' as [|[| | |h'| |] es']; try contradiction. destruct R as (-> & <- & F). exists n. unfold AcModel.compactSection in *. change (negb (truthy (Some (VList (VStr h :: es))))) with false. change (negb (truthy (Some (VList (VStr h :: es'))))) with false in H. cbv iota in *. change (beq (s2b "A") (s2b "A")) with true in *. cbv iota in *.
      rewrite mapJ, listJ in *. unfold aggorMake in *. destruct (aggMake digest jsonDump SaidsD es') as [[r' ss]|] eqn:A; cbn [bind] in H; [|discriminate]. destruct (aggMake_redacts _ _ F _ _ A) as (r & ->). cbn [bind]. unfold jsonDumpl in *. cbn [bind] in *. destruct (digerOf digest E_ _) as [t|] eqn:Q; cbn [bind] in *; [|discriminate].
      destruct (digerOf_inv _ _ _ _ Hd Q) as (_ & Lq & _). change (len E_ =? 1) with true in Lq. cbv iota in Lq. assert (X : truthy (Some (VStr t)) = true) by (cbn [truthy]; apply N.ltb_lt; lia). rewrite X in *. exact H.
    + destruct R as (I & G & R). unfold AcModel.compactSection in H. assert (TR : negb (truthy (Some (VMap m'))) = false) by (destruct m'; [contradiction|reflexivity]). rewrite TR in H. apply obind_ok in H. destruct H as (q & M & H). injection H as H.
      destruct (mapSaid_form digest odumps nmap olist Hd n J l m' q ltac:(discriminate) W D M) as [->|(t & -> & Lt & _)].
      { exfalso. apply (mapSaid_null digest odumps nmap Hd n J l m' ltac:(discriminate) W D M). right. auto. }
      cbn [truthy] in H. apply N.ltb_lt in Lt. rewrite Lt in H. subst c. unfold mapSaid in M. assert (Ns : beq l (s2b "s") = false) by (apply beq_neq, notS; exact I). rewrite Ns in M. assert (Ml : memB l (map s2b ["a"; "e"; "r"]%string) = true) by (apply memB_In; exact I). rewrite Ml in M. apply obind_ok in M. destruct M as ([m3 s3] & C & M).
      destruct (c67_same_compact_form_json digest Hd n m' m3 s3 m W D C R) as (n' & C'). exists n'. unfold AcModel.compactSection. pose proof (redactsMap_get _ _ _ _ _ _ R) as G'. assert (TR' : negb (truthy (Some (VMap m))) = false) by (destruct m; [rewrite <- G' in G; contradiction|reflexivity]). rewrite TR'.
      unfold mapSaid. rewrite Ns, Ml, mapJ, C'. cbn [obind fst] in *. apply some_inj, ok_inj in M. rewrite M. cbn [obind truthy]. rewrite Lt. reflexivity.
Qed.
Lemma sections_build : forall n kind labels sd, NoDup labels -> (forall k v, In k labels -> dget sd k = Some v -> exists w, compactSection n kind k v = Some (Ok w)) -> exists c, compactSections n kind labels sd = Some (Ok c).
Proof.
  intros n kind labels. induction labels as [|l labels IH]; intros sd N H; cbn [AcModel.compactSections]; [eauto|]. inversion N as [|? ? Nl N']; subst. destruct (dget sd l) as [v|] eqn:G.
  - destruct (H l v (or_introl eq_refl) G) as (w & S). rewrite S. cbn [obind]. apply IH; [exact N'|]. intros k x I Gk. rewrite dget_dset in Gk. destruct (beq_spec k l) as [Ek|]; [subst k; contradiction|]. apply (H k); [right; exact I|exact Gk].
  - apply IH; [exact N'|]. intros k x I Gk. apply (H k); [right; exact I|exact Gk].
Qed.
Lemma sections_bound : forall kind labels sd, (forall k v, In k labels -> dget sd k = Some v -> exists n w, compactSection n kind k v = Some (Ok w)) -> exists n, forall k v, In k labels -> dget sd k = Some v -> exists w, compactSection n kind k v = Some (Ok w).
Proof.
  intros kind labels sd. induction labels as [|l labels IH]; intros H; [exists 0%nat; intros k v []|]. destruct IH as (n & Hn); [intros k v I; apply H; right; exact I|]. destruct (dget sd l) as [x|] eqn:G.
  - destruct (H l x (or_introl eq_refl) G) as (n1 & w & S). exists (n + n1)%nat. intros k v [<-|I] Gk; [rewrite G in Gk; injection Gk as <-; exists w; eapply section_mono; [|exact S]; lia|]. destruct (Hn k v I Gk) as (w' & S'). exists w'. eapply section_mono; [|exact S']. lia.
  - exists n. intros k v [<-|I] Gk; [congruence|eauto].
Qed.
Lemma section_fun : forall n n' kind l v w w', compactSection n kind l v = Some (Ok w) -> compactSection n' kind l v = Some (Ok w') -> w = w'.
Proof. intros n n' kind l v w w' A B. apply (section_mono n (n + n')) in A; [|lia]. apply (section_mono n' (n + n')) in B; [|lia]. congruence. Qed.
(** the most compact forms are the same but for the version strings *)
Lemma sections_redacts : forall n m w c x, wfv (VMap m) -> dotless d_ (VMap m) -> compactSections n J SectLabels (dset m d_ x) = Some (Ok c) -> messageRedacts digest jsonDump jsonDumpl w m -> In d_ (keysOf m) ->
  exists n' c', compactSections n' J SectLabels (dset w d_ x) = Some (Ok c') /\ keysOf c' = keysOf c /\ forall k, k <> s2b "v" -> dget c' k = dget c k.
Proof.
  intros n m w c x W D C R ID. unfold messageRedacts in R. set (P := fun k v u => if memB k sections then sectionRedacts digest jsonDump jsonDumpl k v u else k = s2b "v" \/ v = u). change (Forall2 (fun a b => fst a = fst b /\ P (fst a) (snd a) (snd b)) w m) in R.
  pose proof (forall2_keys' P _ _ R) as KE. pose proof (get_forall2 P _ _ R) as G. destruct (sections_spec _ _ _ _ _ _ _ _ _ sections_nodup C) as (K & B & S).
  assert (NS : forall k, In k SectLabels -> k <> d_) by (intros k I ->; cbn in I; repeat (destruct I as [I|I]; [discriminate|]); exact I).
  assert (SR : forall k v, In k SectLabels -> dget (dset w d_ x) k = Some v -> exists n' u, compactSection n' J k v = Some (Ok u) /\ dget c k = Some u).
  { intros k v I Gk. specialize (NS _ I). specialize (S _ I). rewrite dget_dset in Gk, S. apply beq_neq in NS. rewrite NS in *. destruct (G k) as [(X & _)|(v' & u & X & Y & Z)]; [congruence|]. rewrite X in Gk. injection Gk as ->. rewrite Y in S. destruct S as (u' & S & Gc). unfold P in Z. apply memB_In in I. change SectLabels with sections in I. rewrite I in Z.
    destruct (section_redacts n k u v u' (wfv_get _ _ _ W Y) (dotless_get _ _ _ _ D Y) S Z) as (n' & S'). exists n', u'. auto. }
  destruct (sections_bound J SectLabels (dset w d_ x)) as (n' & Hn); [intros k v I Gk; destruct (SR k v I Gk) as (n' & u & A & _); eauto|]. destruct (sections_build n' J SectLabels (dset w d_ x) sections_nodup Hn) as (c' & C'). exists n', c'. split; [exact C'|].
  destruct (sections_spec _ _ _ _ _ _ _ _ _ sections_nodup C') as (K' & B' & S'). split; [rewrite K', K, !keys_dset; [exact KE|exact ID|rewrite KE; exact ID]|]. intros k Nv. destruct (in_dec list_N_dec k SectLabels) as [I|NI].
  - specialize (S' _ I). specialize (S _ I). destruct (dget (dset w d_ x) k) as [v|] eqn:Gk.
    + destruct S' as (u & S' & ->). destruct (SR _ _ I Gk) as (n1 & u' & S1 & ->). f_equal. eapply section_fun; eassumption.
    + rewrite S'. rewrite dget_dset in Gk, S. pose proof (NS _ I) as Nd. apply beq_neq in Nd. rewrite Nd in *. destruct (G k) as [(_ & Y)|(v' & u & X & _)]; [|congruence]. rewrite Y in S. symmetry. exact S.
  - rewrite (B' _ NI), (B _ NI), !dget_dset. destruct (beq k d_); [reflexivity|]. destruct (G k) as [(-> & ->)|(v' & u & X & Y & Z)]; [reflexivity|]. unfold P in Z. apply memB_nIn in NI. change SectLabels with sections in NI. rewrite NI in Z. destruct Z as [Z|Z]; congruence.
Qed.

Hypothesis LIB : library odumps loads.
Lemma redaction : forall n s ilk t cd csad D vs w vs', acdcOk n s ilk t cd csad D vs -> wfv (VMap (d_sad s)) -> dotless d_ (VMap (d_sad s)) -> d_kind s = J -> In cd DigDex -> compactable (d_pvrsn s) ilk = true ->
  messageRedacts digest jsonDump jsonDumpl w (d_sad s) -> dget w (s2b "v") = Some (VStr vs') -> versify (d_proto s) (d_pvrsn s) J (len (json (VMap w))) (d_gvrsn s) = Ok vs' -> len (json (VMap w)) < 64 ^ 4 ->
  exists n', verifyACDC n' (mkSerder (json (VMap w)) w (d_proto s) (d_pvrsn s) (d_gvrsn s) J (len (json (VMap w)))) = Some (Ok tt).
Proof.
  intros n s ilk t cd csad D vs w vs' A W DL KJ DD CB R GV VS SZ. assert (NK : d_kind s <> KindCesr) by (rewrite KJ; discriminate). assert (KO : kindOk (d_kind s)) by (rewrite KJ; left; reflexivity).
  destruct (compact_facts digest odumps cdumps loads nmap olist Hd _ _ _ _ _ _ _ _ A W DL NK DD CB) as (c0 & raw & vc & C0 & RC & VC & EC & KC & GVC & CM). destruct (acdc_digest _ _ _ _ _ _ _ _ _ _ _ _ _ A DD) as (RD & QD).
  destruct (ak_said _ _ _ _ _ _ _ _ _ _ _ _ _ A) as (GD & CD). destruct (ak_sm _ _ _ _ _ _ _ _ _ _ _ _ _ A) as (sm & DV & P1 & P2 & P3 & P4). destruct (ak_tbl _ _ _ _ _ _ _ _ _ _ _ _ _ A) as (tbl & fd & FT & FD & CF & FO). pose proof (ak_proto _ _ _ _ _ _ _ _ _ _ _ _ _ A) as PA. pose proof (ak_vs _ _ _ _ _ _ _ _ _ _ _ _ _ A) as GVS. pose proof (ak_ilk _ _ _ _ _ _ _ _ _ _ _ _ _ A) as IL.
  assert (ID : In d_ (keysOf (d_sad s))) by (apply dget_keys; eauto).
  set (P := fun k v u => if memB k sections then sectionRedacts digest jsonDump jsonDumpl k v u else k = s2b "v" \/ v = u).
  assert (R' : Forall2 (fun a b => fst a = fst b /\ P (fst a) (snd a) (snd b)) w (d_sad s)) by exact R. pose proof (forall2_keys' P _ _ R') as KE.
  assert (SAME : forall k, memB k sections = false -> k <> s2b "v" -> dget w k = dget (d_sad s) k). { intros k Ms Nv. destruct (get_forall2 P _ _ R' k) as [(-> & ->)|(v & u & -> & -> & Z)]; [reflexivity|]. unfold P in Z. rewrite Ms in Z. destruct Z; congruence. }
  assert (GDW : dget w d_ = Some (VStr t)) by (rewrite SAME; [exact GD|reflexivity|discriminate]).
  (* version strings *)
  destruct (c09_canonical _ _ DV) as (FT0 & vs0 & rest0 & EV & VO). set (s' := mkSerder (json (VMap w)) w (d_proto s) (d_pvrsn s) (d_gvrsn s) J (len (json (VMap w)))).
  assert (MJ : 2 <= fst (d_pvrsn s)) by (unfold compactable in CB; apply andb_true_iff in CB; destruct CB as [CB _]; apply N.leb_le; exact CB).
  assert (FIT : forall z, z < 64 ^ 4 -> fits (Build_smellage (d_proto s) (d_pvrsn s) J z (d_gvrsn s))).
  { intros z Lz. unfold fits in *. cbn [s_proto s_pvrsn s_kind s_size s_gvrsn]. rewrite <- P2 in FT0. destruct (d_pvrsn s) as [ma mi]. cbn [fst] in MJ. destruct FT0 as (PI & [(X & _)|(X & Y & _ & _ & Z)]); [lia|]. split; [rewrite P1; exact PI|]. right. split; [exact X|]. split; [exact Y|]. split; [exact Lz|]. split; [left; reflexivity|]. rewrite P4. exact Z. }
  pose proof (FIT _ SZ) as FW. destruct (c09_round_trip _ FW) as (vx & VX & _ & RT). unfold vs_of in VX. cbn [s_proto s_pvrsn s_kind s_size s_gvrsn] in VX. rewrite VS in VX. injection VX as <-. specialize (RT []). rewrite app_nil_r in RT.
  destruct (vs_plain _ _ FW VS) as (PLW & _).
  assert (PT : plain t). { destruct (dig_text digest cd D Hd DD) as (t' & T1 & T2). rewrite (isDigestOf_fun _ _ _ _ _ QD T1). tauto. }
  set (w0 := dset w d_ (VStr (repeat 35 (List.length t)))).
  assert (L0 : len (json (VMap w0)) = len (json (VMap w))).
  { destruct (dumps_len odumps cdumps loads LIB s w d_ t (repeat 35 (List.length t)) _ KO GDW PT (plain_rep _) ltac:(unfold len; rewrite repeat_length; reflexivity) (dumpsJ s w KJ)) as (rb & X & L). rewrite (dumpsJ _ _ KJ) in X. apply ok_inj in X. subst rb. exact L. }
  assert (GV0 : dget w0 (s2b "v") = Some (VStr vs')) by (unfold w0; rewrite dget_dset; change (beq (s2b "v") d_) with false; exact GV).
  rewrite KJ in C0. destruct (sections_redacts n (d_sad s) w c0 (VStr (repeat 35 (List.length t))) W DL C0 R ID) as (n' & c' & C' & KC' & GC'). fold w0 in C'.
  assert (IVC : In (s2b "v") (keysOf c0)) by (apply dget_keys; eauto).
  assert (GVC' : dget c' (s2b "v") = Some (VStr vs')). { destruct (sections_spec _ _ _ _ _ _ _ _ _ sections_nodup C') as (_ & B' & _). rewrite B'; [exact GV0|]. intros X. cbn in X. repeat (destruct X as [X|X]; [discriminate|]). exact X. }
  assert (E' : c' = dset c0 (s2b "v") (VStr vs')).
  { apply map_ext; [rewrite KC', KC; apply wfv_values in W; apply W|rewrite keys_dset by exact IVC; symmetry; exact KC'|]. intros k. rewrite dget_dset. destruct (beq_spec k (s2b "v")) as [Ek|Nk]; [subst k; exact GVC'|apply GC'; exact Nk]. }
  destruct (ak_vsof _ _ _ _ _ _ _ _ _ _ _ _ _ A) as (z & VZ). rewrite KJ in VZ. destruct (c09_never_misread _ _ _ _ _ _ _ VZ DV) as (_ & _ & _ & EZ & _).
  assert (M2 : fst (d_pvrsn s) = 2 /\ z < 64 ^ 4). { unfold fits in FT0. rewrite <- P2, EZ in FT0. destruct (d_pvrsn s) as [ma mi]. cbn [fst] in *. destruct FT0 as (_ & [(X & _)|(X & _ & Y & _)]); lia. }
  destruct M2 as (M2 & LZ). destruct (vs_plain _ _ (FIT _ LZ) VZ) as (PLV & _).
  assert (VLEN : len vs = len vs') by (rewrite (vs_span cdumps _ _ (FIT _ LZ) VZ), (vs_span cdumps _ _ FW VS); [reflexivity|right; exact M2|right; exact M2]).
  rewrite (dumpsJ _ _ KJ) in RC. apply ok_inj in RC. subst raw.
  assert (LC : len (json (VMap c')) = len (json (VMap c0))).
  { destruct (dumps_len odumps cdumps loads LIB s c0 (s2b "v") vs vs' _ KO GVC PLV PLW VLEN (dumpsJ s c0 KJ)) as (rb & X & L). rewrite (dumpsJ _ _ KJ) in X. apply ok_inj in X. subst rb. rewrite E'. exact L. }
  exists n'. unfold AcModel.verifyACDC.
  assert (VA : validate (Some (s2b "ACDC")) s' = Ok (w0, [(d_, cd)])).
  { unfold validate, s'. cbn [d_proto d_gvrsn d_kind d_pvrsn d_sad]. rewrite PA, beq_refl. cbn [negb]. change (memB (s2b "ACDC") Protocols) with true. cbn [negb]. change (beq J KindCesr) with false. cbn [andb].
    assert (GG : match d_gvrsn s with Some g => fst g <? 2 | None => false end = false). { unfold fits in FW. cbn [s_proto s_pvrsn s_kind s_size s_gvrsn] in FW. destruct (d_pvrsn s) as [ma mi]. cbn [fst] in M2. destruct FW as (_ & [(X & _)|(_ & _ & _ & _ & gm & _ & ->)]); [lia|reflexivity]. } rewrite GG.
    rewrite PA in FT. rewrite FT. assert (IW : ilkOf w = Ok ilk) by (unfold ilkOf in *; rewrite SAME by (reflexivity || discriminate); exact IL). rewrite IW. cbn [bind]. rewrite FD, KE, CF. cbn [bind]. rewrite (acdc_saids _ _ _ _ FT FD). cbn [dummySaids]. rewrite GDW, CD. cbn [bind].
    assert (M : memB cd DigDex = true) by (apply memB_In; exact DD). rewrite M, dummy_len. reflexivity. }
  rewrite VA. cbn [obind]. assert (IW : ilkOf (d_sad s') = Ok ilk) by (unfold s'; cbn [d_sad]; unfold ilkOf in *; rewrite SAME by (reflexivity || discriminate); exact IL). rewrite IW. cbn [obind].
  assert (CA : computeA digest odumps cdumps nmap olist n' s' ilk false w0 [(d_, cd)] = Some (Ok (w, json (VMap w), len (json (VMap w0))))).
  { assert (KS : d_kind s' = J) by reflexivity. unfold computeA. rewrite !(fun m => dumpsJ s' m KS). change (beq (d_kind s') KindCesr) with false. cbn [negb bind]. rewrite L0. unfold s' at 1 2 3 4. cbn [d_proto d_pvrsn d_kind d_gvrsn]. rewrite VS. cbn [bind obind]. rewrite (SerInv.dset_same w0 (s2b "v") (VStr vs') GV0).
    unfold AcModel.mostCompact. change (d_pvrsn s') with (d_pvrsn s). rewrite CB. change (d_kind s') with J. rewrite C'. cbn [obind]. change (beq J KindCesr) with false. cbn [negb]. rewrite (dumpsJ s' c' KS). cbn [bind]. rewrite LC. change (d_proto s') with (d_proto s). change (d_gvrsn s') with (d_gvrsn s). rewrite KJ in VC. rewrite VC. cbn [bind obind].
    assert (EC' : dset c' (s2b "v") (VStr vc) = csad) by (rewrite E', dset_dset; symmetry; exact EC). rewrite EC'. rewrite (dumpsJ s' csad KS). cbn [bind fillSaids]. assert (M : memB cd DigDex = true) by (apply memB_In; exact DD). rewrite M.
    rewrite (dumpsJ _ _ KJ) in RD. apply ok_inj in RD. rewrite RD. destruct (digerOf_ok digest cd D Hd DD ltac:(rewrite <- RD; apply json_nonempty)) as (t' & Q1 & Q2 & _). rewrite Q1. cbn [bind]. rewrite (isDigestOf_fun _ _ _ _ _ Q2 QD).
    assert (EW : dset w0 d_ (VStr t) = w) by (unfold w0; rewrite dset_dset; apply SerInv.dset_same; exact GDW). rewrite EW, (dumpsJ s' w KS). reflexivity. }
  rewrite CA. cbn [obind]. f_equal. change (d_raw s') with (json (VMap w)). rewrite beq_refl. cbn [negb]. rewrite GV, RT. cbn [bind s_proto s_pvrsn s_kind s_size s_gvrsn]. change (d_proto s') with (d_proto s). change (d_pvrsn s') with (d_pvrsn s). change (d_gvrsn s') with (d_gvrsn s). change (d_kind s') with J. change (d_size s') with (len (json (VMap w))). change (d_sad s') with w. rewrite !beq_refl. cbn [negb]. unfold veq. rewrite !N.eqb_refl. cbn [andb negb]. change (beq J KindCesr) with false. cbn [negb].
  assert (OV : oveq (d_gvrsn s) (d_gvrsn s) = true) by (unfold oveq; destruct (d_gvrsn s) as [g|]; [unfold veq; rewrite !N.eqb_refl|]; reflexivity). rewrite OV. cbn [negb].
  pose proof (ak_issuer _ _ _ _ _ _ _ _ _ _ _ _ _ A) as ISS. match goal with |- (if ?b then _ else _) = _ => destruct b eqn:IB; [|reflexivity] end. destruct (ISS eq_refl) as (code & CI & PI). rewrite SAME by (reflexivity || discriminate). rewrite CI. apply memB_In in PI. rewrite PI. reflexivity.
Qed.
(** reading the serialization of a message that verifies *)
Lemma inhale_json : forall vs m proto pvrsn gvrsn rest, let w := (s2b "v", VStr vs) :: m in wfv (VMap w) -> m <> [] ->
  fits (Build_smellage proto pvrsn J (len (json (VMap w))) gvrsn) -> versify proto pvrsn J (len (json (VMap w))) gvrsn = Ok vs ->
  inhale loads (json (VMap w) ++ rest) = Ok (mkSerder (json (VMap w)) w proto pvrsn gvrsn J (len (json (VMap w)))).
Proof.
  intros vs m proto pvrsn gvrsn rest w W M F V. pose proof (lib_json _ _ LIB _ W) as LO. destruct (vs_plain _ _ F V) as [PV LV]. destruct (json_head vs m PV) as (post & JH & LP). fold w in JH.
  set (sm := Build_smellage proto pvrsn J (len (json (VMap w))) gvrsn) in *.
  unfold inhale. rewrite JH at 1. change (sniff ((s2b "{""v"":""" ++ vs ++ post) ++ rest)) with (Ok Cmsg). cbn [bind].
  assert (SMELL : smell (json (VMap w) ++ rest) = Ok sm).
  { rewrite JH. rewrite <- !app_assoc. apply c09_smell; [exact F|exact V| |vm_compute; discriminate|].
    - repeat constructor.
    - specialize (LP M). unfold len in *. rewrite !app_length. change (List.length (s2b "{""v"":""")) with 6%nat. lia. }
  rewrite SMELL. unfold sm. cbn [bind s_size s_kind s_proto s_pvrsn s_gvrsn]. assert (LT : (len (json (VMap w) ++ rest) <? len (json (VMap w))) = false) by (apply N.ltb_ge; unfold len; rewrite app_length; lia). rewrite LT.
  assert (TK : ntake (len (json (VMap w))) (json (VMap w) ++ rest) = json (VMap w)) by (unfold ntake, len; rewrite Nnat.Nat2N.id, firstn_app, Nat.sub_diag, firstn_all; cbn [firstn]; apply app_nil_r).
  rewrite TK, LO. reflexivity.
Qed.

(** ** Making a message compact or not yields the same said *)
Lemma sections_mono : forall n n' kind labels sd r, (n <= n')%nat -> compactSections n kind labels sd = Some r -> compactSections n' kind labels sd = Some r.
Proof.
  intros n n' kind labels. induction labels as [|l labels IH]; intros sd r L H; [exact H|]. cbn [AcModel.compactSections] in *. destruct (dget sd l) as [v|]; [|apply IH; assumption]. destruct (compactSection n kind l v) as [x|] eqn:C; [|discriminate]. rewrite (section_mono _ _ _ _ _ _ L C). destruct x as [w|e]; [|exact H]. cbn [obind] in *. apply IH; assumption.
Qed.
Notation checkSection := (checkSection digest odumps nmap olist).
Notation checkSections := (checkSections digest odumps nmap olist).
Lemma checks_spec : forall n kind labels sd, checkSections n kind labels sd = Some (Ok tt) -> forall l v, In l labels -> dget sd l = Some v -> checkSection n kind l v = Some (Ok tt).
Proof.
  intros n kind labels sd. induction labels as [|a labels IH]; intros H l v I G; [destruct I|]. cbn [AcModel.checkSections] in H. destruct I as [<-|I].
  - rewrite G in H. apply obind_ok in H. destruct H as ([] & H & _). exact H.
  - destruct (dget sd a) as [x|]; [apply obind_ok in H; destruct H as (? & _ & H)|]; eapply IH; eassumption.
Qed.
Lemma check_shown : forall n kind l m, kind <> KindCesr -> wfv (VMap m) -> dotless d_ (VMap m) -> saided l (VMap m) -> checkSection n kind l (VMap m) = Some (Ok tt) ->
  exists q, sectionSaid digest (mapDump kind) (listDump kind) l (VMap m) q /\ dget m (if beq l (s2b "s") then s2b "$id" else d_) = Some (VStr q).
Proof.
  intros n kind l m NK W D SD H. unfold AcModel.checkSection in H. assert (TR : negb (truthy (Some (VMap m))) = false) by (destruct m; [destruct SD as [(_ & X)|(_ & X)]; contradiction|reflexivity]). rewrite TR in H. apply obind_ok in H. destruct H as (q & M & H).
  destruct (mapSaid_form digest odumps nmap olist Hd n kind l m q NK W D M) as [->|(t & -> & Lt & S)]; [exfalso; exact (mapSaid_null digest odumps nmap Hd n kind l m NK W D M SD)|]. cbn [truthy] in H. apply N.ltb_lt in Lt. rewrite Lt in H. exists t. split; [exact S|].
  match goal with |- ?x = _ => destruct x as [[| | |a| |]|] eqn:G end; try discriminate. destruct (beq a t) eqn:Q; [|discriminate]. apply beq_eq in Q. congruence.
Qed.
Lemma most_same : forall n n' s ilk sd c c', mostCompact n s ilk sd = Some (Ok c) -> mostCompact n' s ilk sd = Some (Ok c') -> c = c' /\ dget c d_ = dget sd d_.
Proof.
  intros n n' s ilk sd c c' A B. unfold AcModel.mostCompact in *. destruct (compactable (d_pvrsn s) ilk).
  - apply obind_ok in A. destruct A as (x & A1 & A2). apply obind_ok in B. destruct B as (y & B1 & B2). pose proof (sections_mono n (n + n') _ _ _ _ ltac:(lia) A1) as A3. pose proof (sections_mono n' (n + n') _ _ _ _ ltac:(lia) B1) as B3. rewrite A3 in B3. apply some_inj, ok_inj in B3. subst y. rewrite A2 in B2. apply some_inj, ok_inj in B2. split; [exact B2|]. subst c'.
    destruct (sections_spec _ _ _ _ _ _ _ _ _ sections_nodup A1) as (_ & K & _). assert (X : dget x d_ = dget sd d_) by (apply K; intros X; cbn in X; repeat (destruct X as [X|X]; [discriminate|]); exact X). apply some_inj in A2. destruct (negb (beq (d_kind s) KindCesr)); [|apply ok_inj in A2; subst c; exact X].
    apply bind_ok in A2. destruct A2 as (r & _ & A2). apply bind_ok in A2. destruct A2 as (vs & _ & A2). apply ok_inj in A2. subst c. rewrite dget_dset. change (beq d_ (s2b "v")) with false. exact X.
  - destruct (sectional (d_pvrsn s) ilk); [apply obind_ok in A; destruct A as (? & _ & A); apply obind_ok in B; destruct B as (? & _ & B)|]; apply some_inj, ok_inj in A; apply some_inj, ok_inj in B; subst; split; reflexivity.
Qed.
Lemma fill_same : forall k cds raw a b a' b', dget a k = dget b k -> fillSaids digest cds raw a = Ok a' -> fillSaids digest cds raw b = Ok b' -> dget a' k = dget b' k.
Proof.
  intros k cds. induction cds as [|[l cd] cds IH]; intros raw a b a' b' E A B; cbn [fillSaids] in *; [congruence|]. destruct (memB cd DigDex); cbn [bind] in *; [|eapply IH; [exact E|exact A|exact B]]. destruct (digerOf digest cd raw); cbn [bind] in *; [|discriminate]. eapply IH; [|exact A|exact B]. rewrite !dget_dset. rewrite E. reflexivity.
Qed.
Lemma made_same : forall n n' args sd s s', acdcMake digest odumps cdumps nmap olist n args true sd = Some (Ok s) -> acdcMake digest odumps cdumps nmap olist n' args false sd = Some (Ok s') -> dget (d_sad s) d_ = dget (d_sad s') d_.
Proof.
  intros n n' args sd s s' A B. unfold acdcMake in *. apply obind_ok in A. destruct A as ([s0 cds] & M & A). apply obind_ok in B. destruct B as ([s0' cds'] & M' & B). rewrite M in M'. apply some_inj, ok_inj, pair_equal_spec in M'. destruct M' as [<- <-]. apply obind_ok in A. destruct A as (ilk & I & A). apply obind_ok in B. destruct B as (ilk' & I' & B). rewrite I in I'. apply some_inj, ok_inj in I'. subst ilk'.
  apply obind_ok in A. destruct A as ([[a ra] za] & CA & A). apply obind_ok in B. destruct B as ([[b rb] zb] & CB & B).
  assert (EA : d_sad s = a) by (destruct (verifyACDC n _) as [[[]|]|]; try discriminate; apply some_inj, ok_inj in A; subst s; reflexivity). assert (EB : d_sad s' = b) by (destruct (verifyACDC n' _) as [[[]|]|]; try discriminate; apply some_inj, ok_inj in B; subst s'; reflexivity). rewrite EA, EB. clear A B EA EB.
  unfold computeA in CA, CB. apply obind_ok in CA. destruct CA as ([sd1 z1] & X & CA). apply obind_ok in CB. destruct CB as ([sd1' z1'] & X' & CB). rewrite X in X'. apply some_inj, ok_inj, pair_equal_spec in X'. destruct X' as [<- <-]. apply obind_ok in CA. destruct CA as (c & Y & CA). apply obind_ok in CB. destruct CB as (c' & Y' & CB). destruct (most_same _ _ _ _ _ _ _ Y Y') as (<- & ED).
  apply some_inj, bind_ok in CA. destruct CA as (raw & R & CA). apply some_inj, bind_ok in CB. destruct CB as (raw' & R' & CB). rewrite R in R'. apply ok_inj in R'. subst raw'. apply bind_ok in CA. destruct CA as (f & F & CA). apply bind_ok in CB. destruct CB as (f' & F' & CB). pose proof (fill_same d_ _ _ _ _ _ _ ED F F') as E. apply bind_ok in CA. destruct CA as (x & _ & CA). apply bind_ok in CB. destruct CB as (y & _ & CB).
  destruct (beq (d_kind s0) KindCesr).
  - apply bind_ok in CA. destruct CA as (v1 & _ & CA). apply bind_ok in CB. destruct CB as (v2 & _ & CB). apply ok_inj, pair_equal_spec in CA. destruct CA as [CA _]. apply pair_equal_spec in CA. destruct CA as [<- _]. apply ok_inj, pair_equal_spec in CB. destruct CB as [CB _]. apply pair_equal_spec in CB. destruct CB as [<- _]. rewrite !dget_dset. change (beq d_ (s2b "v")) with false. exact E.
  - apply ok_inj, pair_equal_spec in CA. destruct CA as [CA _]. apply pair_equal_spec in CA. destruct CA as [<- _]. apply ok_inj, pair_equal_spec in CB. destruct CB as [CB _]. apply pair_equal_spec in CB. destruct CB as [<- _]. exact E.
Qed.
End Ac.
