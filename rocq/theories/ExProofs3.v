(** Delivery in parts. *)
From Verif Require Import Prelude B64Model SubsModel ThModel ThSpec ThThms JsonModel JsonProofs Lex SerProofs RpModel RpProofs ExModel ExSpec ExProofs ExProofs2.
Open Scope N_scope.
Ltac Zify.zify_post_hook ::= Z.div_mod_to_equations.

(** ** the order of the stored groups *)
Definition tsorted (l : list tsg) : Prop := ForallOrdPairs (fun a b => bltb (tkey b) (tkey a) = false) l.
Lemma tkey_sigs a b : sameT a b = true -> tkey a = tkey b.
Proof. unfold sameT, tkey. rewrite !andb_true_iff, !beq_eq, N.eqb_eq. intros (((-> & ->) & ->) & ->). reflexivity. Qed.
Lemma tput_Forall (P : bytes -> Prop) l t : Forall (fun a => P (tkey a)) l -> P (tkey t) -> Forall (fun a => P (tkey a)) (tput l t).
Proof.
  intros F T. rewrite Forall_forall in *. intros y I. apply tput_In in I. destruct I as [I|(_ & A & B & C & D & _)]; [apply F; exact I|]. unfold tkey in *. rewrite A, B, C, D. exact T.
Qed.
Lemma tput_sorted l t : tsorted l -> tsorted (tput l t).
Proof.
  unfold tsorted. induction l as [|z l IH]; intros S1; cbn [tput]; destruct (t_sigs t) as [|sg sgs] eqn:T; try exact S1; [constructor; constructor|].
  inversion S1 as [|? ? F R]; subst. destruct (sameT z t) eqn:SZ; [constructor; assumption|]. destruct (bltb (tkey t) (tkey z)) eqn:LT.
  - constructor; [|constructor; assumption]. constructor; [change (tkey (mkT (t_said t) (t_pre t) (t_sn t) (t_dig t) (addSigs [] (sg :: sgs)))) with (tkey t); apply blt_asym; exact LT|].
    rewrite Forall_forall in *. intros y Iy. specialize (F y Iy). change (bltb (tkey y) (tkey t) = false). destruct (bltb (tkey y) (tkey t)) eqn:Q; [|reflexivity]. rewrite (blt_trans _ _ _ Q LT) in F. discriminate.
  - constructor; [|apply IH; exact R]. apply (tput_Forall (fun k => bltb k (tkey z) = false)); assumption.
Qed.
Definition grp (s pre : bytes) (sn : N) (dig : bytes) (sg : list siger) : list tsg := match sg with [] => [] | _ => [mkT s pre sn dig sg] end.
Lemma addSigs_ne new old : old <> [] \/ new <> [] -> addSigs old new <> [].
Proof.
  intros H E0. assert (X : forall s, In s old -> False) by (intros s I; pose proof (addSigs_old new old s I) as Y; rewrite E0 in Y; destruct Y).
  assert (X2 : forall s, In s new -> False) by (intros s I; pose proof (addSigs_text new old s I) as Y; rewrite E0 in Y; destruct Y).
  destruct H as [H|H]; [destruct old as [|a ?]; [congruence|exact (X a (or_introl eq_refl))]|destruct new as [|a ?]; [congruence|exact (X2 a (or_introl eq_refl))]].
Qed.
Lemma grp_ne s pre sn dig sg : sg <> [] -> grp s pre sn dig sg = [mkT s pre sn dig sg].
Proof. destruct sg; [congruence|reflexivity]. Qed.
Lemma fetch_tput_same l s pre sn dig sg new : tsorted l -> fetchTsgs l s None = grp s pre sn dig sg ->
  fetchTsgs (tput l (mkT s pre sn dig new)) s None = grp s pre sn dig (addSigs sg new).
Proof.
  intros S1 F. destruct new as [|n0 new0] eqn:EN; [destruct l; exact F|]. rewrite <- EN. assert (NN : new <> []) by congruence. clear EN.
  rewrite (grp_ne _ _ _ _ (addSigs sg new)) by (apply addSigs_ne; auto).
  revert S1 F. unfold fetchTsgs. induction l as [|z l IH]; intros S1 F; cbn [tput t_sigs]; (destruct new as [|n1 new1] eqn:EN; [congruence|rewrite <- EN in *]).
  - cbn [filter t_said]. rewrite beq_refl. destruct sg; [reflexivity|discriminate F].
  - assert (FZ : Forall (fun b => bltb (tkey b) (tkey z) = false) l) by (inversion S1; assumption). cbn [filter] in F.
    assert (RR : tsorted l) by (inversion S1; assumption).
    destruct (sameT z (mkT s pre sn dig new)) eqn:SZ.
    + pose proof SZ as SZ'. unfold sameT in SZ'. rewrite !andb_true_iff, !beq_eq, N.eqb_eq in SZ'. cbn in SZ'. destruct SZ' as (((E1 & E2) & E3) & E4). rewrite E1, beq_refl in F. cbn [filter t_said]. rewrite E1, E2, E3, E4, beq_refl.
      destruct sg as [|a0 sg']; [discriminate|]. cbn [grp] in F. injection F as Z1 Z2. rewrite Z2. subst z. cbn [t_sigs]. reflexivity.
    + destruct (bltb (tkey (mkT s pre sn dig new)) (tkey z)) eqn:LT.
      * (* no group of that key further on *)
        assert (NG : filter (fun t => beq (t_said t) s) (z :: l) = []).
        { destruct sg as [|a0 sg']; [exact F|]. exfalso. cbn [grp] in F. assert (Iz : In (mkT s pre sn dig (a0 :: sg')) (filter (fun t => beq (t_said t) s) (z :: l))) by (cbn [filter]; rewrite F; left; reflexivity).
          apply filter_In in Iz. destruct Iz as ([Ez|Iz] & _).
          - subst z. unfold sameT in SZ. cbn in SZ. rewrite !beq_refl, N.eqb_refl in SZ. discriminate.
          - rewrite Forall_forall in FZ. specialize (FZ _ Iz). change (tkey (mkT s pre sn dig (a0 :: sg'))) with (tkey (mkT s pre sn dig new)) in FZ. congruence. }
        assert (SGE : sg = []) by (destruct sg as [|a0 sg']; [reflexivity|]; cbn [filter] in NG; rewrite NG in F; discriminate). subst sg.
        change (t_said (mkT s pre sn dig new)) with s. change (t_pre (mkT s pre sn dig new)) with pre. change (t_sn (mkT s pre sn dig new)) with sn. change (t_dig (mkT s pre sn dig new)) with dig. cbn [filter t_said] in *. rewrite beq_refl. rewrite NG. reflexivity.
      * cbn [filter]. destruct (beq (t_said z) s) eqn:EZ.
        -- exfalso. destruct sg as [|a0 sg']; [discriminate|]. cbn [grp] in F. injection F as Z1 Z2. subst z. unfold sameT in SZ. cbn in SZ. rewrite !beq_refl, N.eqb_refl in SZ. discriminate.
        -- apply IH; assumption.
Qed.
Lemma fetch_addGroups_other gs l s' s : s' <> s -> fetchTsgs (addGroups s' gs l) s None = fetchTsgs l s None.
Proof.
  intros NE. unfold addGroups. revert l. induction gs as [|g gs IH]; intros l; [reflexivity|]. cbn [fold_left]. rewrite IH. apply fetch_tput_other. cbn. exact NE.
Qed.
Lemma addGroups_sorted s gs l : tsorted l -> tsorted (addGroups s gs l).
Proof. unfold addGroups. revert l. induction gs as [|g gs IH]; intros l T; [exact T|]. cbn [fold_left]. apply IH, tput_sorted, T. Qed.

Section L.
Variable e : xenv.
Variable routes : bytes -> option behavior.
Lemma process_sorted kv now x gs cs ptds es nests d : tsorted (esigs d) -> tsorted (esigs (fst (processEvent e routes kv now x gs cs ptds es nests d))).
Proof.
  intros F. destruct (process_outcome e routes kv now x gs cs ptds es nests d) as [r|q gs' Q GG|kw P KW NE0]; [exact F| |].
  - cbn. apply addGroups_sorted. exact F.
  - cbn [fst]. assert (L : esigs (logEvent x ptds gs cs es nests d) = addGroups (x_said x) gs (esigs d)) by (unfold logEvent; destruct (x_prior x); reflexivity).
    cbv zeta. destruct (routes (x_route x)); cbn [esigs setCalls setScues]; rewrite L; apply addGroups_sorted; exact F.
Qed.
Lemma run_sorted a d : tsorted (esigs d) -> tsorted (esigs (xrun e routes a d)).
Proof.
  intros F. destruct a as [kv now x gs cs ptds es nests|kv now s]; cbn [xrun]; [apply process_sorted; exact F|].
  destruct (visit_cases e routes kv now s d _ eq_refl) as [-> |[-> |(x & G & [(_ & ->)|(_ & ->)])]]; [exact F| |apply process_sorted; exact F| ];
    (match goal with |- context [unescrow ?a ?b] => destruct (unescrow_exns a b) as (_ & _ & _ & -> & _) end); [exact F|apply process_sorted; exact F].
Qed.
Lemma hist_sorted l d : xhist e routes l d -> tsorted (esigs d).
Proof. induction 1; [constructor|apply run_sorted; assumption]. Qed.

(** ** actions on other messages *)
Definition same (s : bytes) (d d' : xdb) : Prop :=
  dget (exns d') s = dget (exns d) s /\ dget (epse d') s = dget (epse d) s /\ dget (epsd d') s = dget (epsd d) s /\
  dget (epath d') s = dget (epath d) s /\ dget (enst d') s = dget (enst d) s /\ dget (essrs d') s = dget (essrs d) s /\
  fetchTsgs (esigs d') s None = fetchTsgs (esigs d) s None /\ (forall c, In c (calls d) -> In c (calls d')).
Lemma same_refl s d : same s d d.
Proof. unfold same. auto 10. Qed.
Lemma same_trans s d1 d2 d3 : same s d1 d2 -> same s d2 d3 -> same s d1 d3.
Proof. unfold same. intros (A1 & A2 & A3 & A4 & A5 & A6 & A7 & A8) (B1 & B2 & B3 & B4 & B5 & B6 & B7 & B8). repeat match goal with |- _ /\ _ => split end; try congruence. auto. Qed.
Lemma vpin_other d k v s : k <> s -> dget (vpin d k v) s = dget d s.
Proof. intros NE. unfold vpin. destruct v; [reflexivity|]. rewrite dget_dset. destruct (beq_spec s k); [congruence|reflexivity]. Qed.
Lemma dput_other {V} (m : list (bytes * V)) k v s : k <> s -> dget (dput m k v) s = dget m s.
Proof. intros NE. rewrite dget_dput. destruct (dget m s); [reflexivity|]. destruct (beq_spec s k); [congruence|reflexivity]. Qed.
Lemma vadd_other es : forall d k s, k <> s -> dget (fold_left (fun l t => vadd l k t) es d) s = dget d s.
Proof.
  induction es as [|t es IH]; intros d k s NE; [reflexivity|]. cbn [fold_left]. rewrite IH by exact NE. unfold vadd. destruct (memB t (vget d k)); [reflexivity|]. rewrite dget_dset. destruct (beq_spec s k); [congruence|reflexivity].
Qed.
Lemma process_same kv now x gs cs ptds es nests d s : x_said x <> s -> same s d (fst (processEvent e routes kv now x gs cs ptds es nests d)).
Proof.
  intros NE. destruct (process_outcome e routes kv now x gs cs ptds es nests d) as [r|q gs' Q GG|kw P KW NE0]; [apply same_refl| |].
  - cbn [fst]. unfold same. cbn [exns epse epsd epath enst essrs esigs calls escrowPS fst setQcues setEpse setEnst setEpath setEpsd setEsigs].
    rewrite !dput_other, !vpin_other, fetch_addGroups_other by exact NE. auto 10.
  - cbn [fst]. cbv zeta.
    assert (W : same s d (logEvent x ptds gs cs es nests d)).
    { unfold logEvent, same. destruct (x_prior x); cbn [exns epse epsd epath enst essrs esigs calls setErpy setExns setEssrs setEnst setEpath setEcigs setEsigs]; rewrite !dput_other, !vpin_other, vadd_other, fetch_addGroups_other by exact NE; auto 10. }
    unfold same in W. destruct (routes (x_route x)); unfold same; cbn [exns epse epsd epath enst essrs esigs calls setScues setCalls]; [|exact W]. destruct W as (A1 & A2 & A3 & A4 & A5 & A6 & A7 & A8). repeat match goal with |- _ /\ _ => split end; auto. intros c I. right. apply A8. exact I.
Qed.
Lemma unescrow_same s s' d : s' <> s -> same s d (unescrow s' d).
Proof.
  intros NE. assert (NE' : s <> s') by congruence. unfold unescrow, same. destruct (dget (exns d) s'); cbn [exns epse epsd epath enst essrs esigs calls setEpsd setEpse setEnst setEpath]; rewrite !(drem_other _ _ _ NE'); auto 10.
Qed.
Lemma other_same a d s l : xhist e routes l d -> about a <> s -> same s d (xrun e routes a d).
Proof.
  intros H NE. destruct a as [kv now x gs cs ptds es nests|kv now s']; cbn [xrun about] in *; [apply process_same; exact NE|].
  destruct (inv1_hist _ _ _ _ H) as (IE & _).
  destruct (visit_cases e routes kv now s' d _ eq_refl) as [-> |[-> |(x & G & [(_ & ->)|(_ & ->)])]]; [apply same_refl|apply unescrow_same; exact NE| |].
  - apply process_same. destruct (IE _ _ G) as (-> & _). exact NE.
  - eapply same_trans; [|apply unescrow_same; exact NE]. apply process_same. destruct (IE _ _ G) as (-> & _). exact NE.
Qed.

(** ** the parts *)
Variable rd : bytes -> siger.
Variables (now sn : N) (x : xmsg) (dig : bytes) (ptds nests : list bytes) (kw : xkwa).
Hypothesis KW : kwargs e x ptds [] nests = Ok kw.
Hypothesis WE : welcome routes x kw.
Hypothesis ND1 : NoDup ptds.
Hypothesis ND2 : NoDup nests.
Notation s := (x_said x).
Definition done (d : xdb) : Prop := savedMsg d x /\ (routes (x_route x) <> None -> In (x, kw) (calls d)).
Lemma osetB_id l : NoDup l -> osetB l = l.
Proof.
  induction l as [|a l IH]; intros N; [reflexivity|]. inversion N as [|? ? NI N']; subst. cbn [osetB]. rewrite (IH N'). f_equal. clear - NI. induction l as [|b l IH]; [reflexivity|]. cbn [filter]. destruct (beq_spec a b) as [->|]; [destruct NI; left; reflexivity|]. cbn [negb]. f_equal. apply IH. intros I. apply NI. right. exact I.
Qed.
Lemma vpin_set d v : dget d s = None \/ vget d s = v -> NoDup v -> vget (vpin d s v) s = v.
Proof.
  intros C N. unfold vpin. destruct v as [|a v]; [destruct C as [C|C]; [unfold vget; rewrite C; reflexivity|exact C]|]. unfold vget. rewrite dget_dset, beq_refl. apply osetB_id. exact N.
Qed.
(** without the part of the IPEX chain the behavior agrees *)
Lemma welcome_ok kv d : match routes (x_route x) with None => BNone | Some Ipex => ipexVerify e kv x kw d | Some (Other f _) => f x kw end = BTrue \/ routes (x_route x) = None.
Proof.
  unfold welcome in WE. destruct (routes (x_route x)) as [[|f h]|]; [|auto|auto]. left. destruct WE as (P & (v & IV & ER) & KN).
  assert (KE : kw_essr kw = None) by (unfold kwargs in KW; destruct (paths e ptds); [|discriminate]; cbn [bind] in KW; destruct (x_essr x); [discriminate|]; apply ok_inj in KW; subst kw; reflexivity).
  unfold ipexVerify. rewrite KN, KE, ER, P. unfold ipexRoute. destruct IV as [<-|[<-|[<-|[]]]]; reflexivity.
Qed.
Lemma go_done kv gs cs d : dget (exns d) s = None -> done (fst (conclude e routes kv x gs cs ptds [] nests kw d)).
Proof.
  intros NX. unfold conclude. cbv zeta. pose proof (welcome_ok kv d) as W. set (v := match routes (x_route x) with None => _ | Some _ => _ end) in *.
  assert (V : v = BTrue \/ v = BNone) by (destruct W as [W|W]; [auto|right; unfold v; rewrite W; reflexivity]).
  set (d1 := setScues _ _). assert (D1 : savedMsg d1 x) by (unfold savedMsg, d1; cbn [exns setScues]; rewrite log_exns, dget_dput, NX, beq_refl; reflexivity). clearbody v d1. clear W.
  assert (GO : done (fst (match routes (x_route x) with
    | Some b => match (match b with Ipex => match kw_nests kw, kw_essr kw with None, None => xnotify e x | _, _ => BRaise TypeError end | Other _ h => h x kw end) with
                | BRaise ex => (setCalls d1 ((x, kw) :: calls d1), Err ex) | _ => (setCalls d1 ((x, kw) :: calls d1), Ok tt) end
    | None => (d1, Ok tt) end))).
  { destruct (routes (x_route x)) as [b|] eqn:RT; [|split; [exact D1|congruence]].
    match goal with |- context [match ?q with BTrue => _ | BFalse => _ | BNone => _ | BRaise _ => _ end] => destruct q end; cbn [fst]; (split; [exact D1|intros _; left; reflexivity]). }
  destruct V as [-> | ->]; exact GO.
Qed.
(** the state while parts arrive *)
Definition wait (seen : bool) (S : list siger) (d : xdb) : Prop :=
  dget (exns d) s = None /\ dget (essrs d) s = None /\
  (exists sg, fetchTsgs (esigs d) s None = grp s (x_sender x) sn dig sg /\ incl S sg /\ asText rd sg) /\
  if seen then dget (epse d) s = Some x /\ (exists t, dget (epsd d) s = Some t /\ now <= t + 10) /\ vget (epath d) s = ptds /\ vget (enst d) s = nests
  else dget (epse d) s = None /\ dget (epsd d) s = None /\ dget (epath d) s = None /\ dget (enst d) s = None.
Definition J (S : list siger) (d : xdb) : Prop := done d \/ (exists seen, wait seen S d /\ (S <> [] -> seen = true)).
Lemma J_same S d d' : same s d d' -> J S d -> J S d'.
Proof.
  intros (A1 & A2 & A3 & A4 & A5 & A6 & A7 & A8) [(D1 & D2)|(seen & (W1 & W2 & W3 & W4) & SS)].
  - left. split; [unfold savedMsg in *; congruence|]. intros N. apply A8. auto.
  - right. exists seen. split; [|exact SS]. unfold wait. rewrite A1, A6, A7. split; [exact W1|]. split; [exact W2|]. split; [exact W3|]. unfold vget in *. rewrite A2, A3, A4, A5. exact W4.
Qed.
Lemma run_done a d : done d -> done (xrun e routes a d).
Proof.
  intros (D1 & D2). split; [apply run_exns; exact D1|]. intros N. specialize (D2 N).
  assert (PC : forall kv now x0 gs cs p es n d, In (x, kw) (calls d) -> In (x, kw) (calls (fst (processEvent e routes kv now x0 gs cs p es n d)))).
  { intros kv t x0 gs cs p es n d0 I. destruct (process_outcome e routes kv t x0 gs cs p es n d0) as [r|q gs' Q GG|kw0 P KW0 NE0]; [exact I|exact I|]. cbn [fst]. cbv zeta. destruct (log_epse x0 p gs cs es n d0) as (_ & _ & L3 & _). destruct (routes (x_route x0)); cbn [calls setCalls setScues]; rewrite L3; [right; exact I|exact I]. }
  destruct a as [kv t x0 gs cs p es n|kv t s']; cbn [xrun]; [apply PC; exact D2|].
  destruct (visit_cases e routes kv t s' d _ eq_refl) as [-> |[-> |(x0 & G & [(_ & ->)|(_ & ->)])]]; [exact D2| |apply PC; exact D2|];
    (match goal with |- context [unescrow ?a ?b] => destruct (unescrow_exns a b) as (_ & _ & -> & _) end); [exact D2|apply PC; exact D2].
Qed.
Lemma J_part kv t sigs S d : tsorted (esigs d) -> asText rd sigs -> now <= t + 10 ->
  ((match xcur kv (x_sender x) with None => True | Some n => n < sn end) \/ (exists ks th, keysAt e kv (x_sender x) sn dig ks th)) ->
  J S d -> J (S ++ sigs) (xrun e routes (Deliver kv t x [mkG (x_sender x) sn dig sigs] [] ptds [] nests) d).
Proof.
  intros SO T LE AV [D|(seen & W & SS)]; [left; apply run_done; exact D|]. cbn [xrun]. unfold processEvent. set (g := mkG (x_sender x) sn dig sigs).
  destruct W as (W1 & W2 & (sg & F & IC & TS) & W4).
  assert (ES : J (S ++ sigs) (fst (escrowPS t x [g] ptds nests d))).
  { right. exists true. split; [|reflexivity]. unfold wait. cbn [exns epse epsd epath enst essrs esigs escrowPS fst setEpse setEnst setEpath setEpsd setEsigs].
    split; [exact W1|]. split; [exact W2|]. split.
    - exists (addSigs sg sigs). split; [unfold addGroups; cbn [fold_left]; apply fetch_tput_same; assumption|].
      assert (T2 : asText rd (sg ++ sigs)) by (intros a Ia; apply in_app_or in Ia; destruct Ia; auto). split; [|intros a Ia; apply addSigs_In in Ia; destruct Ia; auto].
      intros a Ia. apply (addSigs_has rd); [exact T2|]. apply in_or_app. apply in_app_or in Ia. destruct Ia as [Ia|Ia]; auto.
    - destruct seen.
      + destruct W4 as (W5 & (t0 & W6 & LE0) & W7 & W8). rewrite !dget_dput, W5, W6. split; [reflexivity|]. split; [eauto|]. split; apply vpin_set; auto.
      + destruct W4 as (W5 & W6 & W7 & W8). rewrite !dget_dput, W5, W6, beq_refl. split; [reflexivity|]. split; [eauto|]. split; apply vpin_set; auto. }
  assert (WT : J (S ++ sigs) (fst (let '(d', new) := escrowPS t x [g] ptds nests d in (if new then setQcues d' ((g_pre g, g_sn g) :: qcues d') else d', @Err unit MissingSignatureError)))).
  { destruct (escrowPS t x [g] ptds nests d) as [d' new]. cbn [fst] in *. destruct new; exact ES. }
  assert (CG : checkGroups e kv x [g] = GOk \/ checkGroups e kv x [g] = GWait (g_pre g) (g_sn g)).
  { cbn [checkGroups]. assert (EB : beq (x_sender x) (g_pre g) = true) by (apply beq_refl). rewrite EB. cbn [negb]. destruct (ahead kv g) eqn:AH; [right; reflexivity|].
    destruct AV as [AV|(ks & th & KA)]; [exfalso; unfold ahead, g in AH; cbn in AH; destruct (xcur kv (x_sender x)); [apply N.ltb_ge in AH; lia|discriminate]|].
    assert (RS : resolve e kv g = Ok (Some ks, Some th)).
    { unfold resolve, keysAt, g in *. cbn [g_pre g_sn g_dig]. destruct (xtrans e (x_sender x)); [destruct KA as (ev & -> & <- & -> & ->); rewrite beq_refl; reflexivity|]. destruct KA as (-> & ->). reflexivity. }
    unfold satisfied. rewrite RS. cbn [bind]. destruct (satisfy th _); auto. }
  destruct CG as [-> | ->]; [|exact WT]. rewrite KW. left. apply go_done. exact W1.
Qed.
Lemma addSigs_self l : forall m, (forall a, In a m -> In a l) -> addSigs l m = l.
Proof.
  induction m as [|a m IH]; intros F; [reflexivity|]. cbn [addSigs]. assert (M : memB (sg_qb64 a) (map sg_qb64 l) = true) by (apply memB_In; apply in_map; apply F; left; reflexivity). rewrite M. apply IH. intros b Ib. apply F. right. exact Ib.
Qed.
Lemma check_cases kv sigs : ((match xcur kv (x_sender x) with None => True | Some n => n < sn end) \/ (exists ks th, keysAt e kv (x_sender x) sn dig ks th)) ->
  checkGroups e kv x [mkG (x_sender x) sn dig sigs] = GOk \/ checkGroups e kv x [mkG (x_sender x) sn dig sigs] = GWait (x_sender x) sn.
Proof.
  intros AV. set (g := mkG (x_sender x) sn dig sigs). cbn [checkGroups]. assert (EB : beq (x_sender x) (g_pre g) = true) by (apply beq_refl). rewrite EB. cbn [negb]. destruct (ahead kv g) eqn:AH; [right; reflexivity|].
  destruct AV as [AV|(ks & th & KA)]; [exfalso; unfold ahead, g in AH; cbn in AH; destruct (xcur kv (x_sender x)); [apply N.ltb_ge in AH; lia|discriminate]|].
  assert (RS : resolve e kv g = Ok (Some ks, Some th)).
  { unfold resolve, keysAt, g in *. cbn [g_pre g_sn g_dig]. destruct (xtrans e (x_sender x)); [destruct KA as (ev & -> & <- & -> & ->); rewrite beq_refl; reflexivity|]. destruct KA as (-> & ->). reflexivity. }
  unfold satisfied. rewrite RS. cbn [bind]. destruct (satisfy th _); auto.
Qed.
Lemma J_visit kv t S d : tsorted (esigs d) -> t <= now ->
  ((match xcur kv (x_sender x) with None => True | Some n => n < sn end) \/ (exists ks th, keysAt e kv (x_sender x) sn dig ks th)) ->
  J S d -> J S (xrun e routes (Visit kv t s) d).
Proof.
  intros SO LE AV [D|(seen & W & SS)]; [left; apply run_done; exact D|]. cbn [xrun]. unfold sweep1. destruct seen.
  2:{ destruct W as (W1 & W2 & W3 & W4). pose proof W4 as (W5 & _). rewrite W5. right. exists false. split; [|exact SS]. split; [exact W1|]. split; [exact W2|]. split; [exact W3|exact W4]. }
  destruct W as (W1 & W2 & (sg & F & IC & TS) & W5 & (t0 & W6 & LE0) & W7 & W8).
  rewrite W5, W6. assert (TO : TimeoutPSE <? t - t0 = false) by (apply N.ltb_ge; unfold TimeoutPSE; lia). rewrite TO, W7, W8.
  assert (ESR : vget (essrs d) s = []) by (unfold vget; rewrite W2; reflexivity). rewrite ESR.
  assert (ES : forall gs, gs = storedGroups s d -> wait true S (fst (escrowPS t x gs ptds nests d))).
  { intros gs EG. unfold wait. cbn [exns epse epsd epath enst essrs esigs escrowPS fst setEpse setEnst setEpath setEpsd setEsigs].
    split; [exact W1|]. split; [exact W2|]. split.
    - exists sg. split; [|auto]. subst gs. unfold storedGroups, addGroups. rewrite F. destruct sg as [|a sg']; [exact F|]. rewrite grp_ne by discriminate. cbn [map fold_left t_pre t_sn t_dig t_sigs g_pre g_sn g_dig g_sigs].
      rewrite (fetch_tput_same _ _ _ _ _ (a :: sg')) by assumption. rewrite addSigs_self by auto. apply grp_ne. discriminate.
    - rewrite !dget_dput, W5, W6. split; [reflexivity|]. split; [eauto|]. split; apply vpin_set; auto. }
  unfold processEvent. destruct (storedGroups s d) as [|g gs] eqn:SG.
  - specialize (ES [] eq_refl). right. exists true. split; [exact ES|exact SS].
  - assert (SGS : g :: gs = [mkG (x_sender x) sn dig sg]).
    { rewrite <- SG. unfold storedGroups in *. rewrite F in *. destruct sg; [discriminate|]. reflexivity. }
    specialize (ES _ eq_refl). rewrite SGS in *. destruct (check_cases kv sg AV) as [-> | ->].
    + rewrite KW. left. pose proof (go_done kv [mkG (x_sender x) sn dig sg] [] d W1) as GD. destruct (conclude e routes kv x [mkG (x_sender x) sn dig sg] [] ptds [] nests kw d) as [d' r]. cbn [fst] in GD.
      assert (U : done (unescrow s d')) by (destruct GD as (G1 & G2); destruct (unescrow_exns s d') as (E1 & _ & E3 & _); split; [unfold savedMsg; rewrite E1; exact G1|rewrite E3; exact G2]).
      destruct r as [|[]]; assumption.
    + right. exists true. split; [|exact SS]. destruct (escrowPS t x [mkG (x_sender x) sn dig sg] ptds nests d) as [d' new]. cbn [fst] in ES. destruct new; exact ES.
Qed.
Lemma J_parts l S : parts e rd now x sn dig ptds nests l S -> forall l0 d, xhist e routes l0 d -> fresh s d -> xhist e routes (l ++ l0) (xruns e routes l d) /\ J S (xruns e routes l d).
Proof.
  intros P l0 d H FR. induction P as [|kv t sigs l S P IH T LE AV|kv t l S P IH LE AV|a l S P IH NE].
  - split; [exact H|]. right. exists false. destruct FR as (F1 & F2 & F3 & F4 & F5 & F6 & F7). split; [|congruence]. split; [exact F1|]. split; [exact F6|]. split; [|auto].
    exists []. split; [|split; [intros a []|intros a []]]. cbn [grp]. change (xruns e routes [] d) with d. destruct (fetchTsgs (esigs d) s None) as [|t0 r] eqn:Q; [reflexivity|]. exfalso. assert (I : In t0 (fetchTsgs (esigs d) s None)) by (rewrite Q; left; reflexivity). apply fetch_In in I. destruct I as (I & E0). exact (F7 t0 I E0).
  - destruct IH as (IH1 & IH2). split; [cbn [app xruns fold_right]; constructor; exact IH1|]. cbn [xruns fold_right]. apply J_part; auto. eapply hist_sorted; exact IH1.
  - destruct IH as (IH1 & IH2). split; [cbn [app xruns fold_right]; constructor; exact IH1|]. cbn [xruns fold_right]. apply J_visit; auto. eapply hist_sorted; exact IH1.
  - destruct IH as (IH1 & IH2). split; [cbn [app xruns fold_right]; constructor; exact IH1|]. cbn [xruns fold_right]. eapply J_same; [eapply other_same; [exact IH1|exact NE]|exact IH2].
Qed.
Lemma visit_done kv S d : J S d -> enough e kv x (mkG (x_sender x) sn dig S) -> done (sweep1 e routes kv now s d).
Proof.
  intros [D|(seen & W & SS)] EN; [apply (run_done (Visit kv now s)); exact D|]. assert (NS : S <> []) by (apply (enough_sigs _ _ _ _ EN)). specialize (SS NS). subst seen.
  destruct W as (W1 & W2 & (sg & F & IC & TS) & W5 & (t & W6 & LE) & W7 & W8).
  assert (NG : sg <> []) by (destruct S as [|a S']; [congruence|]; intros ->; destruct (IC a (or_introl eq_refl))).
  unfold sweep1. rewrite W5, W6. assert (TO : TimeoutPSE <? now - t = false) by (apply N.ltb_ge; unfold TimeoutPSE; lia). rewrite TO, W7, W8.
  assert (SGS : storedGroups s d = [mkG (x_sender x) sn dig sg]) by (unfold storedGroups; rewrite F, grp_ne by exact NG; reflexivity). rewrite SGS.
  assert (ESR : vget (essrs d) s = []) by (unfold vget; rewrite W2; reflexivity). rewrite ESR.
  assert (EN2 : enough e kv x (mkG (x_sender x) sn dig sg)) by (eapply enough_more; [exact EN|reflexivity|reflexivity|reflexivity|exact IC]).
  destruct (enough_satisfied e rd kv x (mkG (x_sender x) sn dig sg) TS EN2) as (AH & SA).
  unfold processEvent. cbn [checkGroups]. rewrite AH, SA. cbn [g_pre]. rewrite beq_refl. cbn [negb]. rewrite KW.
  pose proof (go_done kv [mkG (x_sender x) sn dig sg] [] d W1) as GD. destruct (conclude e routes kv x [mkG (x_sender x) sn dig sg] [] ptds [] nests kw d) as [d' r]. cbn [fst] in GD.
  assert (U : done (unescrow s d')) by (destruct GD as (G1 & G2); destruct (unescrow_exns s d') as (E1 & _ & E3 & _); split; [unfold savedMsg; rewrite E1; exact G1|rewrite E3; exact G2]).
  destruct r as [|[]]; assumption.
Qed.
(** one pass over the escrow *)
Lemma sweep_done kv S l d : xhist e routes l d -> J S d -> enough e kv x (mkG (x_sender x) sn dig S) -> done (sweep e routes kv now d).
Proof.
  intros H JD EN. unfold sweep.
  assert (DD : forall ks d, done d -> done (fold_left (fun d s' => sweep1 e routes kv now s' d) ks d)).
  { induction ks as [|k ks IH]; intros d0 D; [exact D|]. cbn [fold_left]. apply IH. apply (run_done (Visit kv now k)); exact D. }
  destruct JD as [D|(seen & W & SS)]; [apply DD; exact D|]. assert (NS : S <> []) by (apply (enough_sigs _ _ _ _ EN)). pose proof (SS NS) as ->.
  assert (I : In s (map fst (epse d))).
  { destruct W as (_ & _ & _ & W5 & _). clear - W5. induction (epse d) as [|[k v] m IH]; [discriminate|]. cbn [dget] in W5. cbn [map fst]. destruct (beq_spec s k) as [->|]; [left; reflexivity|right; auto]. }
  assert (JD : J S d) by (right; exists true; auto). clear W SS. remember (map fst (epse d)) as ks eqn:EK. clear EK. revert l d H JD I.
  induction ks as [|k ks IH]; intros l d0 H JD I; [destruct I|]. cbn [fold_left]. destruct (beq_spec k s) as [->|NE].
  - apply DD. eapply visit_done; eauto.
  - destruct I as [I|I]; [congruence|]. eapply (IH (Visit kv now k :: l)); [apply (xh_step e routes l d0 (Visit kv now k)); exact H| |exact I]. eapply J_same; [apply (other_same (Visit kv now k) d0 s l H NE)|exact JD].
Qed.
End L.
