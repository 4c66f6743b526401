(** Lemmas about ACDC messages: what verification establishes. *)
From Verif Require Import Prelude B64Model B64Proofs MatterModel MatterProofs SubsModel VerModel VerThms ThModel JsonModel JsonProofs SerModel SerSpec SerProofs SerInv CpModel CpSpec CpProofs CpRoll CpAgg CpCompact AcModel AcSpec.
Notation val := JsonModel.val.
Open Scope N_scope.
Ltac Zify.zify_post_hook ::= Z.div_mod_to_equations.

Lemma sections_eq : SectLabels = sections. Proof. reflexivity. Qed.
Lemma obind_ok : forall {A B} (x : option (res A)) (f : A -> option (res B)) b, obind x f = Some (Ok b) -> exists a, x = Some (Ok a) /\ f a = Some (Ok b).
Proof. intros A B x f b H. destruct x as [[a|e]|]; cbn [obind] in H; try discriminate. eauto. Qed.

Lemma some_inj : forall {A} (a b : A), Some a = Some b -> a = b. Proof. congruence. Qed.

(** ** Saids of sections *)
Section Sec.
Variable digest : bytes -> bytes -> bytes.
Variable dm : bool -> list bytes -> sad -> res bytes.
Variable dl : list val -> res bytes.
Hypothesis Hd : digest_ok digest.
Hypothesis Hs : forall s s' l m, dm s l m = dm s' l m.
Notation d_ := (s2b "d").
Notation E_ := (s2b "E").

Lemma make_saidText : forall strict L dflt m m' s', dget m L <> None -> mapperMake digest dm strict [(L, dflt)] m = Ok (m', s') ->
  exists q, saidText digest dm L dflt m = Ok q /\ m' = dset m L (VStr q) /\ digText q = Ok q /\ 0 < len q.
Proof.
  intros strict L dflt m m' s' N H. destruct (make_inv digest dm Hd L dflt _ _ _ _ N H) as (x & raw & q & G & R & Q & Lq & _ & E & _ & (r & Z) & DQ). exists q. split; [|split; [exact E|split; [eapply digText_digest; exact Q|]]].
  - unfold saidText. rewrite G. pose proof Q as (I & _). apply memB_In in I. rewrite I. cbn [negb]. rewrite (Hs true strict), R. cbn [bind]. rewrite DQ. cbn [bind]. rewrite E in Z. rewrite (Hs true strict), Z. reflexivity.
  - rewrite Lq. destruct Q as (I & _). cbn [In DigDex map] in I. repeat (destruct I as [<-|I]; [reflexivity|]). destruct I.
Qed.
Lemma saidText_facts : forall L dflt m q, saidText digest dm L dflt m = Ok q -> digText q = Ok q /\ 0 < len q /\ dget m L <> None.
Proof.
  intros L dflt m q H. destruct (saidText_code digest dm Hd L _ _ _ H) as (x & raw & G & Q). split; [eapply digText_digest; exact Q|]. split; [|congruence].
  unfold saidText in H. rewrite G in H. destruct (negb _); [discriminate|]. destruct (dm true [L] _) as [r|]; cbn [bind] in H; [|discriminate]. destruct (digerOf digest (codeFor dflt x) r) as [t|] eqn:D; cbn [bind] in H; [|discriminate]. destruct (dm true [] _); cbn [bind] in H; [|discriminate]. injection H as <-.
  destruct (digerOf_inv _ _ _ _ Hd D) as (_ & Lq & _). destruct (len (codeFor dflt x) =? 1); lia.
Qed.
Lemma aggMake_text : forall l l' ss, aggMake digest dm SaidsD l = Ok (l', ss) -> Forall2 (elemText digest dm) l ss.
Proof.
  induction l as [|e l IH]; intros l' ss H; cbn [aggMake] in H; [injection H as <- <-; constructor|].
  match type of H with (bind ?x _) = _ => destruct x as [[e' s]|] eqn:E; cbn [bind] in H; [|discriminate] end. destruct (aggMake digest dm SaidsD l) as [[r' rs]|]; cbn [bind] in H; [|discriminate]. injection H as <- <-.
  constructor; [|eapply IH; reflexivity]. destruct e as [| | |t| |m]; try discriminate; cbn [elemText].
  - destruct (digText t) as [q|]; [|discriminate]. injection E as <- <-. exists q. split; reflexivity.
  - destruct (mapperMake digest dm true SaidsD m) as [[m' s']|] eqn:M; [|discriminate]. injection E as <- <-. destruct (dget m d_) as [x|] eqn:G.
    + destruct (make_saidText _ _ _ _ _ _ ltac:(rewrite G; discriminate) M) as (q & Q & -> & _). exists q. split; [exact Q|]. unfold saidOf, SaidsD. rewrite dget_dset, beq_refl. reflexivity.
    + unfold mapperMake, SaidsD in M. cbn [dummyMad keysOf map fst filter] in M. rewrite G in M. assert (K : hasKey m d_ = false) by (apply hasKey_none; exact G). rewrite K in M. cbn [bind] in M. destruct (dm true [] m) eqn:Z; cbn [bind] in M; [|discriminate]. cbn [fillMad] in M. rewrite K in M. cbn [bind] in M. rewrite Z in M. cbn [bind] in M. injection M as <- <-. unfold saidOf, SaidsD. rewrite G. reflexivity.
Qed.
Lemma elemText_dig : forall e s, elemText digest dm e s -> s = VNull \/ digElem s.
Proof.
  intros e s H. destruct e as [| | |t| |m]; cbn [elemText] in H; try contradiction.
  - destruct H as (q & D & ->). right. exists q. split; [reflexivity|]. exact (proj1 (digText_idem _ _ D)).
  - destruct (dget m d_); [|left; exact H]. destruct H as (q & Q & ->). right. exists q. split; [reflexivity|]. exact (proj1 (saidText_facts _ _ _ _ Q)).
Qed.

Hypothesis Hi : injDump dm.
Hypothesis Hl : injDumpl dl.
Lemma elemText_inj : forall a b s, elemText digest dm a s -> elemText digest dm b s -> elemAgree digest dm a b \/ collision digest.
Proof.
  intros a b s A B. destruct a as [| | |t| |m]; cbn [elemText] in A; try contradiction; destruct b as [| | |t'| |m']; cbn [elemText] in B; try contradiction; cbn [elemAgree].
  - destruct A as (q & D & ->). destruct B as (q' & D' & E). injection E as <-. left. eauto.
  - destruct A as (q & D & ->). destruct (dget m' d_); [|discriminate]. destruct B as (q' & D' & E). injection E as <-. left. eauto.
  - destruct B as (q & D & ->). destruct (dget m d_); [|discriminate]. destruct A as (q' & D' & E). injection E as <-. left. eauto.
  - destruct (dget m d_) as [x|]; destruct (dget m' d_) as [y|].
    + destruct A as (q & D & ->). destruct B as (q' & D' & E). injection E as <-. destruct (saidText_inj digest dm d_ _ Hd Hi _ _ _ D D') as [F|C]; [left; right; exact F|right; exact C].
    + destruct A as (q & D & ->). discriminate.
    + destruct B as (q & D & ->). discriminate.
    + left. left. split; reflexivity.
Qed.
Lemma elems_inj : forall a b ss, Forall2 (elemText digest dm) a ss -> Forall2 (elemText digest dm) b ss -> Forall2 (elemAgree digest dm) a b \/ collision digest.
Proof.
  intros a b ss F. revert b. induction F as [|x s a ss H F IH]; intros b G; inversion G as [|y ? b' ? H' G']; subst; [left; constructor|]. destruct (IH _ G') as [A|C]; [|right; exact C]. destruct (elemText_inj _ _ _ H H') as [B|C]; [left; constructor; assumption|right; exact C].
Qed.
Lemma sectionSaid_inj : forall l v w q, sectionSaid digest dm dl l v q -> sectionSaid digest dm dl l w q -> sectionAgree digest dm dl l v w \/ collision digest.
Proof.
  assert (X : forall l, l = s2b "s" -> In l mapSections -> False) by (intros l -> [H|[H|[H|[]]]]; discriminate).
  assert (Y : forall l, l = s2b "A" -> In l mapSections -> False) by (intros l -> [H|[H|[H|[]]]]; discriminate).
  intros l v w q A B. unfold sectionAgree. destruct v as [| | | |es|m]; cbn [sectionSaid] in A; try contradiction; destruct w as [| | | |es'|m']; cbn [sectionSaid] in B; try contradiction.
  - destruct es as [|[| | |h| |] es]; try contradiction. destruct es' as [|[| | |h'| |] es']; try contradiction. destruct A as (L1 & ss & raw & F & R & (I1 & Q & _)). destruct B as (_ & ss' & raw' & F' & R' & (_ & Q' & _)). rewrite Q in Q'. injection Q' as ED.
    destruct (list_eq_dec N.eq_dec raw raw') as [->|N]; [|right; exists E_, raw, raw'; split; [exact I1|split; assumption]].
    assert (G : forall es ss, Forall2 (elemText digest dm) es ss -> Forall (fun v => v = VNull \/ digElem v) ss) by (intros ? ? G; induction G; constructor; [eapply elemText_dig; eassumption|assumption]).
    pose proof (Hl _ _ _ _ (G _ _ F) (G _ _ F') R R') as <-. destruct (elems_inj _ _ _ F F') as [H|C]; [left; right; right; right; split; assumption|right; exact C].
  - destruct es as [|[| | |h| |] es]; try contradiction. destruct A as (-> & _). destruct B as [(B & _)|(B & _)]; [discriminate|exfalso; eapply Y; eauto].
  - destruct es' as [|[| | |h| |] es']; try contradiction. destruct B as (-> & _). destruct A as [(B & _)|(B & _)]; [discriminate|exfalso; eapply Y; eauto].
  - destruct A as [(-> & A)|(A1 & A2 & a' & A3 & A4)]; destruct B as [(B1 & B)|(B1 & B2 & b' & B3 & B4)]; try (exfalso; eapply X; eauto; fail).
    + destruct (saidText_inj digest dm _ _ Hd Hi _ _ _ A B) as [F|C]; [|right; exact C]. left. right. right. right. left. split; [reflexivity|exact F].
    + destruct (text_binds digest dm Hd d_ E_ Hi _ _ _ _ _ A2 B2 A3 A4 B3 B4) as [(F & _)|C]; [|right; exact C]. left. right. right. right. right. split; assumption.
Qed.
End Sec.

Section Ac.
Variable digest : bytes -> bytes -> bytes.
Variable odumps : bytes -> sad -> res bytes.
Variable cdumps : bytes -> versionage -> option versionage -> sad -> res bytes.
Variable loads : bytes -> bytes -> res sad.
Variable nmap : bool -> list bytes -> sad -> res bytes.
Variable olist : bytes -> list val -> res bytes.
Hypothesis Hd : digest_ok digest.
Notation d_ := (s2b "d").
Notation E_ := (s2b "E").
Notation mapDump := (mapDump odumps nmap).
Notation listDump := (listDump olist).
Notation compactSection := (compactSection digest odumps nmap olist).
Notation compactSections := (compactSections digest odumps nmap olist).
Notation verifyACDC := (verifyACDC digest odumps cdumps nmap olist).
Notation mostCompact := (mostCompact digest odumps cdumps nmap olist).
Notation dumps := (dumps odumps cdumps).

Lemma mapDump_strict : forall kind, kind <> KindCesr -> forall s s' l m, mapDump kind s l m = mapDump kind s' l m.
Proof. intros kind N s s' l m. unfold AcModel.mapDump. apply beq_neq in N. rewrite N. reflexivity. Qed.
Lemma dumps_map : forall s m b l, d_kind s <> KindCesr -> dumps s m = mapDump (d_kind s) b l m.
Proof. intros s m b l N. unfold SerModel.dumps, AcModel.mapDump. apply beq_neq in N. rewrite N. reflexivity. Qed.

Lemma mapSaid_form : forall n kind l m q, kind <> KindCesr -> wfv (VMap m) -> dotless d_ (VMap m) -> mapSaid digest odumps nmap n kind l m = Some (Ok q) ->
  q = VNull \/ exists t, q = VStr t /\ 0 < len t /\ sectionSaid digest (mapDump kind) (listDump kind) l (VMap m) t.
Proof.
  intros n kind l m q NK W D H. pose proof (mapDump_strict kind NK) as Hs. unfold mapSaid in H. destruct (beq_spec l (s2b "s")) as [->|Ns].
  - destruct (mapperMake digest (mapDump kind) false SaidsS m) as [[m' s']|] eqn:M; [|discriminate]. injection H as <-. destruct (dget m (s2b "$id")) as [x|] eqn:G.
    + destruct (make_saidText digest (mapDump kind) Hd Hs _ _ _ _ _ _ ltac:(rewrite G; discriminate) M) as (t & T & -> & _ & Lt). right. exists t. unfold saidOf, SaidsS. rewrite dget_dset, beq_refl. split; [reflexivity|]. split; [exact Lt|]. left. split; [reflexivity|exact T].
    + left. unfold mapperMake, SaidsS in M. cbn [dummyMad keysOf map fst filter] in M. rewrite G in M. assert (K : hasKey m (s2b "$id") = false) by (apply hasKey_none; exact G). rewrite K in M. cbn [bind] in M. destruct (mapDump kind false [] m) eqn:Z; cbn [bind] in M; [|discriminate]. cbn [fillMad] in M. rewrite K in M. cbn [bind] in M. rewrite Z in M. cbn [bind] in M. injection M as <- <-. unfold saidOf, SaidsS. rewrite G. reflexivity.
  - destruct (memB l (map s2b ["a"; "e"; "r"]%string)) eqn:I; [|injection H as <-; left; reflexivity]. apply memB_In in I. apply obind_ok in H. destruct H as ([m3 s3] & C & H). cbn [fst] in H. injection H as <-. destruct (dget m d_) as [x|] eqn:G.
    + assert (N : dget m d_ <> None) by (rewrite G; discriminate). destruct (compactor_text digest (mapDump kind) Hd d_ E_ _ _ _ _ _ W D N C) as (m' & t & R & T & -> & _). right. exists t. unfold saidOf, SaidsD. rewrite dget_dset, beq_refl. split; [reflexivity|]. split; [exact (proj1 (proj2 (saidText_facts digest (mapDump kind) Hd _ _ _ _ T)))|]. right. split; [exact I|]. split; [exact N|]. exists m'. split; assumption.
    + left. destruct (compactor_plain digest (mapDump kind) Hd d_ E_ _ _ _ _ _ W D G C) as (T & _). unfold rollTop in T. destruct (rolls digest (mapDump kind) d_ E_ m) as [m'|] eqn:R; cbn [bind] in T; [|discriminate]. rewrite G in T. injection T as <-. unfold saidOf, SaidsD.
      destruct (dget m' d_) as [y|] eqn:Gy; [|reflexivity]. exfalso. assert (K : In d_ (keysOf m')) by (apply dget_keys; eauto). rewrite (rolls_keys _ _ _ _ _ _ R) in K. apply dget_keys in K. destruct K as (z & K). congruence.
Qed.
Lemma section_form : forall n kind l v w, kind <> KindCesr -> wfv v -> dotless d_ v -> compactSection n kind l v = Some (Ok w) ->
  w = v \/ exists q, w = VStr q /\ sectionSaid digest (mapDump kind) (listDump kind) l v q.
Proof.
  intros n kind l v w NK W D H. pose proof (mapDump_strict kind NK) as Hs. unfold AcModel.compactSection in H. destruct (negb (truthy (Some v))); [injection H as <-; left; reflexivity|]. destruct v as [| | |t|es|m]; try (injection H as <-; left; reflexivity).
  - destruct (beq_spec l (s2b "A")) as [->|]; [|injection H as <-; left; reflexivity]. destruct (aggorMake digest (mapDump kind) (listDump kind) E_ SaidsD es) as [[|q r]|] eqn:A; try discriminate; [injection H as <-; left; reflexivity|]. destruct (truthy (Some q)); [|injection H as <-; left; reflexivity]. injection H as <-.
    right. unfold aggorMake in A. destruct es as [|[| | |h| |] es]; try discriminate; [destruct (listDump kind []); cbn [bind] in A; discriminate|]. destruct (aggMake digest (mapDump kind) SaidsD es) as [[r' ss]|] eqn:M; cbn [bind] in A; [|discriminate].
    destruct (listDump kind (dummy (fullSize E_) :: ss)) as [raw|] eqn:R; cbn [bind] in A; [|discriminate]. destruct (digerOf digest E_ raw) as [t|] eqn:Q; cbn [bind] in A; [|discriminate]. destruct (listDump kind (VStr t :: r')); cbn [bind] in A; [|discriminate]. injection A as <- <-.
    exists t. split; [reflexivity|]. cbn [sectionSaid]. split; [reflexivity|]. exists ss, raw. split; [eapply aggMake_text; [exact Hd|exact Hs|exact M]|]. split; [exact R|]. exact (proj1 (digerOf_inv _ _ _ _ Hd Q)).
  - apply obind_ok in H. destruct H as (q & M & H). injection H as <-. destruct (mapSaid_form _ _ _ _ _ NK W D M) as [->|(t & -> & Lt & S)]; [left; reflexivity|]. cbn [truthy]. apply N.ltb_lt in Lt. rewrite Lt. right. eauto.
Qed.
Lemma sections_spec : forall n kind labels sd c, NoDup labels -> compactSections n kind labels sd = Some (Ok c) ->
  keysOf c = keysOf sd /\ (forall k, ~ In k labels -> dget c k = dget sd k) /\
  (forall k, In k labels -> match dget sd k with None => dget c k = None | Some v => exists w, compactSection n kind k v = Some (Ok w) /\ dget c k = Some w end).
Proof.
  intros n kind labels. induction labels as [|l labels IH]; intros sd c N H; cbn [AcModel.compactSections] in H; [injection H as <-; split; [reflexivity|]; split; [reflexivity|intros k []]|]. inversion N as [|? ? Nl N']; subst. destruct (dget sd l) as [v|] eqn:G.
  - apply obind_ok in H. destruct H as (w & S & H). destruct (IH _ _ N' H) as (A & B & C). assert (K : In l (keysOf sd)) by (apply dget_keys; eauto). split; [rewrite A; apply keys_dset; exact K|]. split.
    + intros k Nk. rewrite B by (intros X; apply Nk; right; exact X). rewrite dget_dset. destruct (beq_spec k l) as [Ek|]; [exfalso; apply Nk; left; symmetry; exact Ek|reflexivity].
    + intros k [<-|I]; [rewrite G; exists w; split; [exact S|]; rewrite (B _ Nl), dget_dset, beq_refl; reflexivity|]. specialize (C _ I). rewrite dget_dset in C. destruct (beq_spec k l) as [Ek|]; [subst k; contradiction|exact C].
  - destruct (IH _ _ N' H) as (A & B & C). split; [exact A|]. split; [intros k Nk; apply B; intros X; apply Nk; right; exact X|]. intros k [<-|I]; [rewrite G, (B _ Nl); exact G|apply C; exact I].
Qed.
Lemma sections_nodup : NoDup SectLabels.
Proof. repeat (constructor; [intros H; cbn in H; repeat (destruct H as [H|H]; [discriminate|]); destruct H|]). constructor. Qed.

(** ** Verified messages *)
Hypothesis LIB : library odumps loads.

Lemma acdc_saids : forall vrsn tbl ilk fd, Fields (s2b "ACDC") vrsn = Some tbl -> ilkget tbl ilk = Some fd -> f_saids fd = [(d_, E_)].
Proof.
  intros vrsn tbl ilk fd F G. unfold Fields in F. change (beq (s2b "ACDC") (s2b "KERI")) with false in F. change (beq (s2b "ACDC") (s2b "ACDC")) with true in F. cbv iota zeta in F.
  apply ilkget_In in G. destruct ((fst vrsn =? 1) && (snd vrsn =? 0)); [|destruct ((fst vrsn =? 2) && (snd vrsn =? 0)); [|discriminate]]; injection F as <-; cbn [In Fields_ACDC_1 Fields_ACDC_2] in G; repeat (destruct G as [G|G]; [injection G as <- <-; reflexivity|]); destruct G.
Qed.

(** the facts about a verified message: [csad] is what is digested *)
Record acdcOk (n : nat) (s : serder) (ilk : option bytes) (t cd : bytes) (csad : sad) (D vs : bytes) : Prop := {
  ak_proto : d_proto s = s2b "ACDC";
  ak_ilk : ilkOf (d_sad s) = Ok ilk;
  ak_tbl : exists tbl fd, Fields (d_proto s) (d_pvrsn s) = Some tbl /\ ilkget tbl ilk = Some fd /\ checkFields fd (keysOf (d_sad s)) = Ok tt /\ fdOk ilk fd;
  ak_said : dget (d_sad s) d_ = Some (VStr t) /\ codeOf (Some (VStr t)) = Ok cd;
  ak_raw : dumps s (d_sad s) = Ok (d_raw s);
  ak_vs : dget (d_sad s) (s2b "v") = Some (VStr vs);
  ak_sm : exists sm, deversify vs = Ok sm /\ d_proto s = s_proto sm /\ d_pvrsn s = s_pvrsn sm /\ d_kind s = s_kind sm /\ d_gvrsn s = s_gvrsn sm;
  ak_vsof : exists z, versify (d_proto s) (d_pvrsn s) (d_kind s) z (d_gvrsn s) = Ok vs;
  ak_most : In cd DigDex -> mostCompact n s ilk (dset (d_sad s) d_ (VStr (repeat 35 (List.length t)))) = Some (Ok csad) /\ dumps s csad = Ok D /\ isDigestOf digest cd D t;
  ak_issuer : match ilk with None => true | Some t => (len t =? 0) || memB t (map s2b ["acm"; "ace"; "act"; "acg"; "rip"]%string) end = true -> exists code, codeOf (dget (d_sad s) (s2b "i")) = Ok code /\ In code PreDex }.

Lemma acdc_ok : forall n s, verifyACDC n s = Some (Ok tt) -> wfv (VMap (d_sad s)) -> kindOk (d_kind s) -> loads (d_kind s) (d_raw s) = Ok (d_sad s) ->
  exists ilk t cd csad D vs, acdcOk n s ilk t cd csad D vs.
Proof.
  intros n s H W K LO. pose proof (kindOk_ne _ K) as NK. unfold AcModel.verifyACDC in H. apply obind_ok in H. destruct H as ([sd saids] & V & H). apply some_inj in V. apply obind_ok in H. destruct H as (ilk & IL & H). apply some_inj in IL. apply obind_ok in H. destruct H as ([[sd3 final] size] & CO & H). apply some_inj in H.
  apply raise_if_ok in H. destruct H as [RF H]. apply negb_false_iff, beq_eq in RF. subst final.
  (* validation *)
  unfold validate in V. apply raise_if_ok in V. destruct V as [P1 V]. apply negb_false_iff, beq_eq in P1. apply raise_if_ok in V. destruct V as [_ V]. apply raise_if_ok in V. destruct V as [_ V]. apply raise_if_ok in V. destruct V as [_ V].
  destruct (Fields (d_proto s) (d_pvrsn s)) as [tbl|] eqn:FT; [|discriminate]. rewrite IL in V. cbn [bind] in V. destruct (ilkget tbl ilk) as [fd|] eqn:FD; [|discriminate]. destruct (checkFields fd (keysOf (d_sad s))) as [[]|] eqn:CF; cbn [bind] in V; [|discriminate].
  rewrite P1 in FT. rewrite (acdc_saids _ _ _ _ FT FD) in V. pose proof (fd_ok _ _ _ _ _ FT FD) as FO. destruct (checkFields_v _ _ _ FO CF) as (kr & KV).
  assert (IV : In (s2b "v") (keysOf (d_sad s))) by (rewrite KV; left; reflexivity). cbn [dummySaids] in V. destruct (codeOf (dget (d_sad s) d_)) as [cd|] eqn:CD; cbn [bind] in V; [|discriminate]. apply ok_inj, pair_equal_spec in V. destruct V as [<- <-].
  destruct (dget (d_sad s) d_) as [[| | |t| |]|] eqn:GD; try discriminate. assert (ID : In d_ (keysOf (d_sad s))) by (apply dget_keys; eauto).
  (* computation *)
  unfold computeA in CO. pose proof NK as NB. apply beq_neq in NB. rewrite NB in CO. cbn [negb] in CO. apply obind_ok in CO. destruct CO as ([sd1 sz1] & C1 & CO). apply some_inj in C1. apply bind_ok in C1. destruct C1 as (raw0 & R0 & C1). apply bind_ok in C1. destruct C1 as (vs & VS & C1). apply ok_inj, pair_equal_spec in C1. destruct C1 as [<- <-].
  apply obind_ok in CO. destruct CO as (csad & MC & CO). apply some_inj in CO. apply bind_ok in CO. destruct CO as (D & RD & CO). apply bind_ok in CO. destruct CO as (sd3' & FI & CO). apply bind_ok in CO. destruct CO as (fin & RF & CO). apply ok_inj, pair_equal_spec in CO. destruct CO as [CO _]. apply pair_equal_spec in CO. destruct CO as [-> ->].
  set (sd0 := if memB cd DigDex then dset (d_sad s) d_ (dummy (textLen (Some (VStr t)))) else d_sad s) in *.
  assert (K0 : keysOf sd0 = keysOf (d_sad s)) by (unfold sd0; destruct (memB cd DigDex); [apply keys_dset; exact ID|reflexivity]).
  assert (W0 : wfv (VMap sd0)) by (unfold sd0; destruct (memB cd DigDex); [apply wfv_dset; [exact W|exact Logic.I|exact ID]|exact W]).
  assert (W1 : wfv (VMap (dset sd0 (s2b "v") (VStr vs)))) by (apply wfv_dset; [exact W0|exact Logic.I|rewrite K0; exact IV]).
  assert (K1 : keysOf (dset sd0 (s2b "v") (VStr vs)) = keysOf (d_sad s)) by (rewrite keys_dset; [exact K0|rewrite K0; exact IV]).
  assert (W3 : wfv (VMap sd3)) by (eapply fillSaids_wf; [exact FI| |exact W1]; intros l [<-|[]]; rewrite K1; exact ID).
  pose proof (loads_dumps odumps cdumps loads LIB s sd3 _ K W3 RF) as L3. rewrite LO in L3. injection L3 as E3.
  cbn [fillSaids] in FI.
  assert (GV : dget (d_sad s) (s2b "v") = Some (VStr vs)).
  { rewrite E3. destruct (memB cd DigDex); cbn [bind] in FI; [destruct (digerOf digest cd D) as [q|]; cbn [bind] in FI; [|discriminate]; injection FI as <-; rewrite dget_dset; change (beq (s2b "v") d_) with false; cbv iota|injection FI as <-]; rewrite dget_dset, beq_refl; reflexivity. }
  rewrite E3 in GV at 1. rewrite GV in H. apply bind_ok in H. destruct H as (sm & DV & H). do 5 (apply raise_if_ok in H; destruct H as [? H]). rewrite <- E3 in GV.
  repeat match goal with X : negb _ = false |- _ => apply negb_false_iff in X end.
  exists ilk, t, cd, csad, D, vs. constructor.
  - exact P1.
  - exact IL.
  - exists tbl, fd. rewrite P1. auto.
  - split; assumption.
  - rewrite E3 at 1. exact RF.
  - exact GV.
  - exists sm. split; [exact DV|]. split; [apply beq_eq; assumption|]. split; [apply veq_eq; assumption|]. split; [apply beq_eq; assumption|]. apply oveq_eq. assumption.
  - eauto.
  - intros DD. assert (M : memB cd DigDex = true) by (apply memB_In; exact DD). assert (X : sd0 = dset (d_sad s) d_ (VStr (repeat 35 (List.length t)))) by (unfold sd0; rewrite M, dummy_len; reflexivity).
    rewrite (dset_same sd0 (s2b "v") (VStr vs)) in MC, FI; [|rewrite X, dget_dset; change (beq (s2b "v") d_) with false; exact GV|rewrite X, dget_dset; change (beq (s2b "v") d_) with false; exact GV]. rewrite <- X. split; [exact MC|]. split; [exact RD|].
    rewrite M in FI. destruct (digerOf digest cd D) as [q|] eqn:Q; cbn [bind] in FI; [|discriminate]. injection FI as FI. destruct (digerOf_inv _ _ _ _ Hd Q) as (DQ & _). rewrite <- FI, X in E3. rewrite E3 in GD. rewrite dget_dset, beq_refl in GD. injection GD as <-. exact DQ.
  - intros IS. rewrite IS in H. destruct (codeOf (dget (d_sad s) (s2b "i"))) as [code|] eqn:CI; [|discriminate]. exists code. split; [reflexivity|]. apply raise_if_ok in H. destruct H as [H _]. apply negb_false_iff, memB_In in H. exact H.
Qed.
End Ac.
