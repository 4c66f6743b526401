(** Primitives of native messages are read back. *)
From Verif Require Import Prelude B64Model B64Proofs MatterModel MatterProofs MatterInv MatterSpec MatterThms SubsModel SubsProofs SubsThms CtrModel CtrProofs CtrThms ThModel ThSpec ThProofs ThThms VerModel JsonModel SerModel SerSpec SerProofs NmModel NmSpec NmProofs NmProofs2 NkModel NkSpec.
Open Scope N_scope.
Ltac Zify.zify_post_hook ::= Z.div_mod_to_equations.
Notation val := JsonModel.val.
Notation versionage := VerModel.versionage.

Lemma take_app : forall A (a b : list A) n, len a = n -> ntake n (a ++ b) = a.
Proof. intros A a b n <-. apply ntake_len_app. Qed.
Lemma drop_app : forall A (a b : list A) n, len a = n -> ndrop n (a ++ b) = b.
Proof. intros A a b n <-. apply ndrop_len_app. Qed.
(** the bytes are read as the value, in front of anything *)
Record reads {A} (f : bytes -> res (A * bytes)) (q : bytes) (v : A) : Prop := {
  rd_text : b64text q; rd_four : len q mod 4 = 0; rd_ne : q <> []; rd_read : forall t, f (q ++ t) = Ok (v, t) }.
Lemma prim_reads : forall m q, prim m q -> reads matter_strip q m.
Proof.
  intros m q P. constructor.
  - exact (pr_text _ _ P).
  - exact (pr_four _ _ P).
  - destruct (pr_first _ _ P) as (x & r & -> & _). discriminate.
  - exact (pr_strip _ _ P).
Qed.
Lemma isPrimOf_prim : forall dex s, isPrimOf dex s -> exists m, prim m s /\ In (m_code m) dex.
Proof.
  intros dex s (B & m & X & I & C). exists m. split; [|exact C]. apply prim_of; [|exact I].
  assert (F : exists f, fullSize m = Ok f) by (destruct (exfil_inv s m X) as (sz & FF); exact (exfil_full s m sz FF)).
  destruct F as (f & F). assert (BT : b64text s) by (apply Reb64_b64text; exact B).
  destruct (c03_text_canonical_partial s m f X F (b64text_ntake _ _ BT)) as [Lf C3]. rewrite I in C3. apply ok_inj in C3.
  assert (f = len s) by (apply (f_equal len) in C3; rewrite len_ntake in C3; lia). subst f.
  apply built_qb64 with (q := s) (f := len s); [exact X|exact F|]. rewrite ntake_all by reflexivity. exact B.
Qed.
Lemma stripDex_reads : forall dex s, isPrimOf dex s -> reads (stripDex dex) s s.
Proof.
  intros dex s H. destruct (isPrimOf_prim _ _ H) as (m & P & C). destruct (prim_reads _ _ P) as [A B N R]. constructor; auto.
  intros t. unfold stripDex. rewrite R. cbn [bind]. apply memB_true in C. rewrite C. cbn [negb]. rewrite (pr_infil _ _ P). reflexivity.
Qed.
Lemma matter_reads : forall s, isPrimOf (map fst Sizes) s -> reads (fun s => '(m, r) <- matter_strip s ;; q <- infil m ;; Ok (VStr q, r)) s (VStr s).
Proof.
  intros s H. destruct (isPrimOf_prim _ _ H) as (m & P & C). destruct (prim_reads _ _ P) as [A B N R]. constructor; auto.
  intros t. rewrite R. cbn [bind]. rewrite (pr_infil _ _ P). reflexivity.
Qed.

(** ** Tags *)
Lemma tag_prim : forall t m q, tagger_of_tag t = Ok m -> infil m = Ok q -> prim m q /\ tag m = t /\ (forall r, stripTag (q ++ r) = Ok (m, r)) /\ exfil q = Ok m.
Proof.
  intros t m q H I. assert (L : Reb64 t = true /\ 1 <= len t <= 11).
  { destruct (Reb64 t) eqn:B; [|destruct (c08_tag_rejects t) as (e & E); [auto|congruence]]. split; [reflexivity|].
    destruct (N.leb_spec 1 (len t)); [|destruct (c08_tag_rejects t) as (e & E); [lia|congruence]].
    destruct (N.leb_spec (len t) 11); [lia|]. destruct (c08_tag_rejects t) as (e & E); [lia|congruence]. }
  destruct L as [B L]. destruct (c08_tag_round_trip t [] B L) as (m' & q' & T1 & T2 & T3 & T4 & T5). rewrite H in T1. apply ok_inj in T1. subst m'. rewrite I in T4. apply ok_inj in T4. subst q'.
  pose proof (prim_of _ _ T2 I) as P. split; [exact P|]. split; [exact T3|]. split.
  - intros r. unfold stripTag. rewrite (pr_strip _ _ P). cbn [bind].
    unfold tagger_of_tag in H. destruct t as [|x t]; [discriminate|]. apply raise_if_ok in H. destruct H as [_ H]. apply bind_ok in H. destruct H as (c & _ & H). apply bind_ok in H. destruct H as (m' & _ & H).
    apply raise_if_ok in H. destruct H as [K H]. apply ok_inj in H. subst m'. rewrite K. reflexivity.
  - exact (pr_exfil _ _ P).
Qed.
Lemma isVerser_ok : forall m m', isVerser m = Ok m' -> m' = m /\ In (m_code m) [s2b "Y"; s2b "0O"].
Proof.
  intros m m' H. unfold isVerser in H. apply raise_if_ok in H. destruct H as [K H]. apply ok_inj in H. subst. split; [reflexivity|]. apply negb_false_iff in K. apply SerProofs.memB_In in K. exact K.
Qed.
Lemma ver_len : forall v s, verToB64 v = Ok s -> len s = 3 /\ b64ToVer s = Ok v.
Proof.
  intros [a b] s H. unfold verToB64 in H. apply raise_if_ok in H. cbn [fst snd] in H. destruct H as [K H]. apply ok_inj in H. subst s.
  assert (A : a < 64) by lia. assert (B : b < 4096) by lia.
  pose proof (intToB64_len_fits a 1 A) as L1. pose proof (intToB64_len_fits b 2 B) as L2.
  split; [rewrite len_app; lia|]. unfold b64ToVer.
  assert (R : Reb64 (intToB64 a 1 ++ intToB64 b 2) = true). { apply Reb64_b64text. apply b64text_app. split; apply intToB64_text. }
  rewrite R. cbn [negb]. rewrite (take_app _ _ _ _ L1), (drop_app _ _ _ _ L1). rewrite (ntake_all _ (intToB64 b 2)) by exact L2.
  rewrite !b64ToInt_val by (try apply intToB64_text; intros E; apply (f_equal len) in E; cbn in E; lia). rewrite !intToB64_val by lia. reflexivity.
Qed.

Lemma verser_reads : forall proto p g q, len proto = 4 -> verserText proto p g = Ok q ->
  exists m, prim m q /\ reads verserStrip q m /\ versage m = Ok (proto, p, g) /\ (m_code m = s2b "Y" \/ m_code m = s2b "0O").
Proof.
  intros proto p g q L4 H. unfold verserText in H. apply bind_ok in H. destruct H as (a & A & H). apply bind_ok in H. destruct H as (b & B & H).
  apply bind_ok in H. destruct H as (m & M & H). apply bind_ok in H. destruct H as (m' & V & I). pose proof V as V0. apply isVerser_ok in V. destruct V as [-> C].
  destruct (tag_prim _ _ _ M I) as (P & T & R & _). exists m. split; [exact P|].
  split; [constructor; try apply (prim_reads _ _ P); intros t; unfold verserStrip; rewrite R; cbn [bind]; rewrite V0; reflexivity|].
  split; [|cbn [In] in C; destruct C as [C|[C|[]]]; auto].
  destruct (ver_len _ _ A) as [LA RA]. unfold versage. rewrite T. rewrite (drop_app _ _ _ _ L4), (take_app _ _ _ _ L4), (take_app _ _ _ _ LA), RA. cbn [bind].
  destruct g as [g|].
  - destruct (ver_len _ _ B) as [LB RB]. rewrite !len_app, L4, LA, LB. change (4 + (3 + 3) =? 10) with true. cbn iota.
    rewrite app_assoc. rewrite (drop_app _ (proto ++ a)) by (rewrite len_app, L4, LA; reflexivity). rewrite ntake_all by exact LB. rewrite RB. reflexivity.
  - apply ok_inj in B. subst b. rewrite !len_app, L4, LA. reflexivity.
Qed.
Lemma verserText_fun : forall proto p g m q, len proto = 4 -> verserText proto p g = Ok q -> verserStrip q = Ok (m, []) -> versage m = Ok (proto, p, g).
Proof.
  intros proto p g m q L4 H S. destruct (verser_reads _ _ _ _ L4 H) as (m' & _ & R & V & _). pose proof (rd_read _ _ _ R []) as X. rewrite app_nil_r, S in X. apply ok_inj in X. injection X as ->. exact V.
Qed.
Lemma isIlker_ok : forall m m', isIlker m = Ok m' -> m' = m.
Proof. intros m m' H. unfold isIlker in H. apply raise_if_ok in H. destruct H as [_ H]. apply raise_if_ok in H. destruct H as [_ H]. apply ok_inj in H. auto. Qed.
Lemma ilker_reads : forall ilk q, ilkerText ilk = Ok q -> reads ilkerStrip q ilk.
Proof.
  intros ilk q H. unfold ilkerText in H. apply bind_ok in H. destruct H as (m & M & H). apply bind_ok in H. destruct H as (m' & K & I). pose proof K as K0. apply isIlker_ok in K. subst m'.
  destruct (tag_prim _ _ _ M I) as (P & T & R & _). constructor; try apply (prim_reads _ _ P). intros t. unfold ilkerStrip. rewrite R. cbn [bind]. rewrite K0. cbn [bind]. rewrite T. reflexivity.
Qed.
Lemma traitor_reads : forall s q, traitorText s = Ok q -> reads traitorStrip q s.
Proof.
  intros s q H. unfold traitorText in H. apply bind_ok in H. destruct H as (m & M & H). apply raise_if_ok in H. destruct H as [K I].
  destruct (tag_prim _ _ _ M I) as (P & T & R & _). constructor; try apply (prim_reads _ _ P). intros t. unfold traitorStrip. rewrite R. cbn [bind]. rewrite K, T. reflexivity.
Qed.

(** ** Numbers *)
Lemma prim_len : forall m q c, prim m q -> m_code m = c -> forall b, (exists sz f, dget Sizes c = Some sz /\ fs sz = Some f /\ f <= b) -> len q <= b.
Proof.
  intros m q c P C b (sz & f & Z & F & L). destruct (built_facts m (pr_built _ _ P)) as (sz' & FF). pose proof (infil_text _ _ FF) as I. rewrite (pr_infil _ _ P) in I. apply ok_inj in I.
  pose proof (mf_sz _ _ FF) as Z'. rewrite C, Z in Z'. injection Z' as <-. rewrite I, (text_len _ _ FF). unfold fsize. rewrite F. exact L.
Qed.
Lemma number_reads : forall s, isNumber s -> exists m q, number_of_numh s = Ok m /\ infil m = Ok q /\ reads numberStrip q s /\ len q <= 24.
Proof.
  intros s (n & B & ->). destruct (c06_number_round_trip n B) as (m & q & b & E & E2 & E3 & I & _). exists m, q.
  split; [unfold number_of_numh; pose proof (hexint_hexstr n) as X; destruct (hexstr n) as [|x r]; [discriminate|]; rewrite X; exact E|]. split; [exact I|].
  pose proof (prim_of _ _ E2 I) as P. split.
  - constructor; try apply (prim_reads _ _ P). intros t. unfold numberStrip. rewrite (pr_strip _ _ P). cbn [bind].
    rewrite number_none in E. destruct (numCode n) as [c|] eqn:NC; [|discriminate]. destruct (numCode_dex n c NC) as (Hd & _).
    assert (m_code m = c). { destruct (number_code_ok n c Hd) as (sz & k & _ & _ & [[_ F]|[_ F]]); [rewrite E in F; apply ok_inj in F; subst m; reflexivity|congruence]. }
    subst c. rewrite Hd. cbn [negb]. unfold numh. rewrite E3. reflexivity.
  - rewrite number_none in E. destruct (numCode n) as [c|] eqn:NC; [|discriminate]. destruct (numCode_dex n c NC) as (Hd & _).
    destruct (number_code_ok n c Hd) as (sz' & k & Z & _ & [[_ F]|[_ F]]); [|congruence]. rewrite E in F. apply ok_inj in F.
    apply (prim_len m q c); [exact P|subst m; reflexivity|]. apply SerProofs.memB_In in Hd. cbn in Hd.
    repeat match type of Hd with _ \/ _ => destruct Hd as [<-|Hd]; [eexists; eexists; split; [vm_compute; reflexivity|split; [reflexivity|vm_compute; discriminate]]|] end. contradiction.
Qed.

(** ** Date and time *)
Lemma dt_inv : forall x, (48 <= x <= 57 \/ In x (s2b "T:.+-")) -> dtFrom (dtTo x) = x /\ isB64 (dtTo x) = true.
Proof.
  intros x H. assert (L : In x (map N.of_nat (seq 43 16) ++ [84])). { apply in_or_app. destruct H as [H|H]; [left; apply in_map_iff; exists (N.to_nat x); split; [lia|apply in_seq; lia]|]. cbn in H. cbn. intuition lia. }
  assert (A : forallb (fun x => negb (((48 <=? x) && (x <=? 57)) || existsb (N.eqb x) (s2b "T:.+-")) || ((dtFrom (dtTo x) =? x) && isB64 (dtTo x))) (map N.of_nat (seq 43 16) ++ [84]) = true) by (vm_compute; reflexivity).
  rewrite forallb_forall in A. specialize (A x L). apply orb_true_iff in A. destruct A as [A|A].
  - exfalso. apply negb_true_iff, orb_false_iff in A. destruct A as [A1 A2]. destruct H as [H|H]; [lia|]. assert (E : existsb (N.eqb x) (s2b "T:.+-") = true) by (apply existsb_exists; exists x; split; [exact H|apply N.eqb_refl]). congruence.
  - apply andb_true_iff in A. destruct A as [A1 A2]. split; [lia|exact A2].
Qed.
Lemma date_prim : forall s, Reb64 s = true -> len s = 32 -> exists m, prim m (DateTime ++ s) /\ m_code m = DateTime.
Proof.
  intros s B L. apply Reb64_b64text in B. destruct (decode_text 8 s B) as (a & D & O & La & E & _); [unfold len in L; lia|].
  exists (mkMatter DateTime [] a). split; [|reflexivity].
  assert (Z : dget Sizes DateTime = Some (mkSizage 4 0 0 (Some 36) 0)) by (vm_compute; reflexivity).
  assert (LA : len a = 24) by (unfold len; rewrite La; reflexivity).
  apply prim_of.
  - apply built_raw with (raw := a) (code := DateTime) (soft := []) (rize := None); [exact O|].
    apply (fixed_raw a DateTime _ Z 36); [reflexivity|reflexivity|rewrite LA; reflexivity|discriminate].
  - unfold infil. cbn [m_code m_raw]. rewrite Z. cbv zeta. cbn [hs ss fs ls]. rewrite LA. change ((3 - (24 + 0) mod 3) mod 3) with 0. change (negb (0 =? (4 + 0) mod 4)) with false. cbv iota.
    change (zeros (N.to_nat (0 + 0)) ++ a) with a. rewrite E. change (ndrop 0 s) with s. unfold both. cbn [m_code m_soft xs]. change (repeat 95 (N.to_nat 0)) with (@nil N). cbn [app]. rewrite app_nil_r.
    cbn [bind]. rewrite len_app, L. reflexivity.
Qed.
Lemma date_reads : forall s, isDate s -> exists q, daterText s = Ok q /\ reads daterStrip q s.
Proof.
  intros s [L F].
  assert (B : Reb64 (map dtTo s) = true /\ map dtFrom (map dtTo s) = s).
  { clear L. induction F as [|x s Hx F IH]; [split; reflexivity|]. destruct IH as [I1 I2]. destruct (dt_inv x Hx) as [D1 D2]. cbn [map Reb64 forallb]. split; [rewrite D2; exact I1|rewrite D1, I2; reflexivity]. }
  destruct B as [B T]. assert (LM : len (map dtTo s) = 32) by (unfold len in *; rewrite map_length; exact L).
  destruct (date_prim _ B LM) as (m & P & C).
  exists (DateTime ++ map dtTo s). assert (CD : beq (m_code m) DateTime = true) by (rewrite C; apply beq_refl).
  split; [unfold daterText; rewrite (pr_exfil _ _ P); cbn [bind]; rewrite CD; exact (pr_infil _ _ P)|].
  constructor; try apply (prim_reads _ _ P). intros t. unfold daterStrip. rewrite (pr_strip _ _ P). cbn [bind]. rewrite CD. cbn [negb]. rewrite (pr_infil _ _ P). cbn [bind].
  rewrite (drop_app _ DateTime) by reflexivity. rewrite T. reflexivity.
Qed.

(** ** Paths *)
Lemma joinb_splitb : forall sep s, joinb sep (splitb sep s) = s.
Proof.
  intros sep s. induction s as [|x s IH]; [reflexivity|]. cbn [splitb]. destruct (N.eqb_spec x sep) as [->|N].
  - destruct (splitb sep s) as [|p ps] eqn:E; [destruct s; cbn in E; [discriminate|destruct (_ =? _); [discriminate|destruct (splitb sep s); discriminate]]|]. change (sep :: joinb sep (p :: ps) = sep :: s). rewrite IH. reflexivity.
  - destruct (splitb sep s) as [|p ps] eqn:E; [destruct s; cbn in E; [discriminate|destruct (_ =? _); [discriminate|destruct (splitb sep s); discriminate]]|].
    rewrite <- IH. destruct ps as [|p' ps]; reflexivity.
Qed.
Lemma splitb_parts : forall sep s, splitb sep s <> [] /\ Forall (nosep sep) (splitb sep s).
Proof.
  intros sep s. induction s as [|x s [N F]]; [split; [discriminate|repeat constructor]|]. cbn [splitb]. destruct (N.eqb_spec x sep) as [->|D].
  - split; [discriminate|]. constructor; [constructor|exact F].
  - destruct (splitb sep s) as [|p ps]; [congruence|]. split; [discriminate|]. inversion F as [|? ? F1 F2]; subst. constructor; [constructor; assumption|exact F2].
Qed.
Lemma attTail_nosep : forall s x, attTail s = true -> ~ In 10 s -> attNext x = false -> nosep x s /\ Reb64 s = true.
Proof.
  induction s as [|y s IH]; intros x H N A; [split; [constructor|reflexivity]|]. cbn [attTail] in H. apply orb_true_iff in H. destruct H as [H|H]; apply andb_true_iff in H; destruct H as [H1 H2].
  - destruct (IH x H2) as [I1 I2]; [intros I; apply N; right; exact I|exact A|]. split; [constructor; [intros ->; congruence|exact I1]|]. cbn [Reb64 forallb]. rewrite (attNext_b64 _ H1). exact I2.
  - exfalso. apply N. left. lia.
Qed.
Lemma joinb_text : forall sep l, isB64 sep = true -> Forall (fun s => Reb64 s = true) l -> Reb64 (joinb sep l) = true.
Proof.
  intros sep l S F. induction F as [|x l Hx F IH]; [reflexivity|]. destruct l as [|y l]; [exact Hx|]. change (joinb sep (x :: y :: l)) with (x ++ sep :: joinb sep (y :: l)). unfold Reb64 in *. rewrite forallb_app. cbn [forallb]. rewrite Hx, S, IH. reflexivity.
Qed.
Lemma parts_In : forall sep s p x, In p (splitb sep s) -> In x p -> In x s.
Proof.
  intros sep s p x I J. rewrite <- (joinb_splitb sep s). revert I. generalize (splitb sep s) as l. induction l as [|q l IH]; intros I; [contradiction|].
  destruct l as [|q' l]; [destruct I as [-> |[]]; exact J|]. change (joinb sep (q :: q' :: l)) with (q ++ sep :: joinb sep (q' :: l)). apply in_or_app. destruct I as [-> |I]; [left; exact J|right; right; exact (IH I)].
Qed.
Definition pathEsc (p : bytes) : bytes := match p with x :: _ => if (x =? 65) && (wadSize p <=? 1) then 45 :: 45 :: p else p | [] => p end.
Lemma pathEsc_ok : forall p, dbl 45 p = false -> ~ ambiguous (pathEsc p) /\ match pathEsc p with 45 :: 45 :: r => r | _ => pathEsc p end = p /\ (Reb64 p = true -> Reb64 (pathEsc p) = true).
Proof.
  intros p D. unfold pathEsc. destruct p as [|x p]; [split; [intros [H _]; discriminate|split; [reflexivity|auto]]|].
  destruct ((x =? 65) && (wadSize (x :: p) <=? 1)) eqn:E.
  - split; [intros [H _]; discriminate|]. split; [reflexivity|]. intros R. change (Reb64 (45 :: 45 :: x :: p)) with (Reb64 (x :: p)). exact R.
  - split; [|split; [|auto]].
    + intros [H1 H2]. cbn in H1. injection H1 as ->. cbn [N.eqb Pos.eqb andb] in E. change (65 =? 65) with true in E. cbn [andb] in E. unfold wadSize in E. rewrite H2 in E. discriminate.
    + destruct p as [|y p]; [destruct x as [|px]; [reflexivity|repeat (destruct px; try reflexivity)]|].
      destruct (N.eqb_spec x 45) as [->|Nx]; [destruct (N.eqb_spec y 45) as [->|Ny]; [cbn in D; discriminate|]|].
      * destruct y as [|py]; [reflexivity|]. repeat (destruct py; try reflexivity). congruence.
      * destruct x as [|px]; [reflexivity|]. repeat (destruct px; try reflexivity). congruence.
Qed.
Lemma path_reads : forall s q, isRoute s -> patherText s = Ok q -> reads patherStrip q s.
Proof.
  intros s q (U & N10 & NS) H. unfold patherText in H. apply bind_ok in H. destruct H as (m & M & I). unfold pather_of_path in M.
  set (parts := if existsb (N.eqb 47) s then splitb 47 s else splitb 45 s) in *.
  assert (J : joinb 47 parts = s /\ parts <> []).
  { unfold parts. destruct (existsb (N.eqb 47) s) eqn:E; [split; [apply joinb_splitb|apply splitb_parts]|].
    destruct NS as [NS|NS]; [exfalso; assert (X : existsb (N.eqb 47) s = true) by (apply existsb_exists; exists 47; split; [exact NS|reflexivity]); congruence|].
    rewrite splitb_nosep; [split; [reflexivity|discriminate]|]. apply Forall_forall. intros x Hx ->. contradiction. }
  destruct J as [J NE]. destruct (forallb attTail parts) eqn:FT.
  - apply raise_if_ok in M. destruct M as [D M]. fold (pathEsc (joinb 45 parts)) in M. apply bind_ok in M. destruct M as (raw & R & M).
    assert (PT : Forall (fun p => nosep 45 p /\ Reb64 p = true) parts).
    { apply Forall_forall. intros p Hp. rewrite forallb_forall in FT. apply attTail_nosep; [exact (FT p Hp)| |vm_compute; reflexivity]. intros H10. apply N10.
      unfold parts in Hp. destruct (existsb (N.eqb 47) s); eapply parts_In; eassumption. }
    destruct (pathEsc_ok _ D) as (AM & UE & RE). assert (BP : Reb64 (joinb 45 parts) = true) by (apply joinb_text; [reflexivity|eapply Forall_impl; [|exact PT]; intros p Hp; apply Hp]).
    specialize (RE BP). pose proof RE as RT. apply Reb64_b64text in RT. destruct (b64raw _ RT) as (raw' & R1 & R2 & R3). unfold rawify in R. cbv zeta in R.
    assert (EE : bext_escape (pathEsc (joinb 45 parts)) false = pathEsc (joinb 45 parts)) by (destruct (pathEsc (joinb 45 parts)); reflexivity). rewrite EE, R1 in R. apply ok_inj in R. subst raw'.
    destruct (var_raw raw 52 65 m) as (V1 & V2 & sz & V3 & V4); [left; reflexivity|left; reflexivity|exact M|].
    assert (B : built m) by (apply built_raw with (raw := raw) (code := StrB64_L0) (soft := []) (rize := None); [exact R2|exact M]).
    pose proof (prim_of _ _ B I) as P. constructor; try apply (prim_reads _ _ P). intros t. unfold patherStrip. rewrite (pr_strip _ _ P). cbn [bind]. unfold pathOf.
    assert (BX : memB (m_code m) BexDex = true) by (cbn [varCodes In] in V2; destruct V2 as [<-|[<-|[<-|[<-|[<-|[<-|[]]]]]]]; vm_compute; reflexivity).
    rewrite BX, V1, (R3 _ _ V3 V4 AM). cbn [bind]. rewrite UE. rewrite split_join; [rewrite J; reflexivity|exact NE|]. eapply Forall_impl; [|exact PT]. intros p Hp. apply Hp.
  - apply raise_if_ok in M. destruct M as [D M]. rewrite J in M. destruct (var_raw s 52 66 m) as (V1 & V2 & _); [right; left; reflexivity|left; reflexivity|exact M|].
    assert (B : built m) by (apply built_raw with (raw := s) (code := s2b "4B") (soft := []) (rize := None); [exact (utf8_octets _ U)|exact M]).
    pose proof (prim_of _ _ B I) as P. constructor; try apply (prim_reads _ _ P). intros t. unfold patherStrip. rewrite (pr_strip _ _ P). cbn [bind]. unfold pathOf.
    assert (BX : memB (m_code m) BexDex = false) by (cbn [varCodes In] in V2; destruct V2 as [<-|[<-|[<-|[<-|[<-|[<-|[]]]]]]]; vm_compute; reflexivity).
    rewrite BX, V1. unfold decode. rewrite U. reflexivity.
Qed.

(** ** Thresholds *)
Lemma sithVal_inv : forall s, valSith (sithVal s) = Ok s.
Proof.
  assert (T : forall vs, texts (map VStr vs) = Ok vs) by (induction vs as [|x vs IH]; [reflexivity|cbn [map texts]; rewrite IH; reflexivity]).
  assert (E : forall e, valElem (elemVal e) = Ok e) by (intros [w|k vs]; [reflexivity|cbn [elemVal valElem]; rewrite T; reflexivity]).
  assert (M : forall es, mapr valElem (map elemVal es) = Ok es) by (induction es as [|x es IH]; [reflexivity|cbn [map mapr]; rewrite E; cbn [bind]; rewrite IH; reflexivity]).
  assert (I : forall i, valItem (itemVal i) = Ok i). { intros [[w|k vs]|es]; cbn [itemVal elemVal valItem]; [reflexivity|change (VMap [(k, VList (map VStr vs))]) with (elemVal (SN k vs)); rewrite E; reflexivity|rewrite M; reflexivity]. }
  intros [n|h|is]; cbn [sithVal valSith].
  - destruct (Z.ltb_spec (Z.of_N n) 0); [lia|]. rewrite N2Z.id. reflexivity.
  - reflexivity.
  - replace (mapr valItem (map itemVal is)) with (Ok is : res (list item)); [reflexivity|]. induction is as [|x is IH]; [reflexivity|]. cbn [map mapr]. rewrite I. cbn [bind]. rewrite <- IH. reflexivity.
Qed.
Lemma tholder_reads : forall v q, isThreshold v -> tholderText v = Ok q -> reads tholderStrip q v.
Proof.
  intros v q (s & t & V & PS & SV) H. unfold tholderText in H. rewrite V in H. cbn [bind] in H. rewrite PS in H. cbn [bind] in H.
  pose proof (th_sith _ _ PS) as TH. destruct (c12_limen_round_trip t TH) as (q' & Q1 & Q2). rewrite H in Q1. apply ok_inj in Q1. subst q'.
  assert (P : exists m, prim m q).
  { unfold limenOf in H. apply threshold_norm in TH. destruct TH as [(n & -> & Hn)|(th & -> & _ & _ & m & Hm)].
    - destruct (c06_number_round_trip n Hn) as (m & q' & b & E1 & E2 & _). rewrite E1 in H. cbn [bind] in H. exists m. exact (prim_of _ _ E2 H).
    - rewrite Hm in H. cbn [bind] in H. exists m. apply prim_of; [|exact H]. unfold bexter_of_bext in Hm. apply raise_if_ok in Hm. destruct Hm as [RB Hm]. apply negb_false_iff in RB. apply bind_ok in Hm. destruct Hm as (raw & R & Hm).
      apply bind_ok in Hm. destruct Hm as (m' & M & Hm). apply raise_if_ok in Hm. destruct Hm as [_ Hm]. apply ok_inj in Hm. subst m'.
      apply built_raw with (raw := raw) (code := StrB64_L0) (soft := []) (rize := None); [|exact M]. apply Reb64_b64text in RB. destruct (b64raw _ (escape_text _ true RB)) as (raw' & R1 & R2 & _). rewrite rawify_true, R1 in R. apply ok_inj in R. subst raw'. exact R2. }
  destruct P as (m & P). constructor; try apply (prim_reads _ _ P). intros r. unfold tholderStrip. rewrite (pr_strip _ _ P). cbn [bind]. rewrite Q2. cbn [bind]. rewrite SV. reflexivity.
Qed.
