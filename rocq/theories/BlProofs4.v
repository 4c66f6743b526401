(** Proofs about counted groups of structures. *)
From Verif Require Import Prelude B64Model B64Proofs MatterModel MatterProofs MatterInv MatterBinInv MatterSpec MatterThms SubsModel SubsThms CtrModel CtrProofs CtrThms ThModel VerModel JsonModel SerModel SerSpec SerProofs NmModel NmProofs NmProofs3 NmProofs4 NkModel NkSpec NkProofs4 NkProofs6 MzModel BlModel BlSpec BlProofs BlProofs2.
Open Scope N_scope.
Ltac Zify.zify_post_hook ::= Z.div_mod_to_equations.
Notation val := JsonModel.val.
Notation csize := CtrModel.csize.

(** ** Primitives in binary *)
Record rwb (m : matter) (b : bytes) : Prop := { wb_three : len b mod 3 = 0; wb_ne : b <> []; wb_bexfil : forall t, bexfil (b ++ t) = Ok m }.
Lemma rw_bin : forall m q b, rw m q -> binfil m = Ok b -> rwb m b.
Proof.
  intros m q b R H. pose proof (rw_exfil _ _ R []) as X. destruct (exfil_afacts _ _ X) as (sz & A). clear X.
  assert (T : b64text (m_soft m)).
  { unfold binfil in H. rewrite (af_sz _ _ A) in H. cbv zeta in H. apply bind_ok in H. destruct H as (i & I & _). apply b64ToInt_ok in I. destruct I as (T & _).
    unfold both in T. rewrite !b64text_app in T. tauto. }
  assert (W : wf_matter m) by (exists sz; destruct A as [A1 A2 A3 A4 A5 A6 A7]; auto).
  destruct (wf_facts _ W) as (sz' & F & _). rewrite (binfil_bin _ _ F) in H. apply ok_inj in H. subst b.
  pose proof (bin_len _ _ F) as L. pose proof (fsize_mod4 _ _ F) as L4.
  assert (P : 0 < fsize m sz').
  { destruct (mf_k _ _ F) as (k & _ & _ & K). pose proof (mf_wf _ _ F) as (_ & HP & _). lia. }
  constructor.
  - lia.
  - intros E. rewrite E in L. cbn in L. lia.
  - intros t. exact (bexfil_bin _ _ t F).
Qed.
Lemma bin_eq : forall s m, octets s -> bexfil s = Ok m -> exists b, binfil m = Ok b /\ s = b ++ ndrop (len b) s /\ b <> [].
Proof.
  intros s m O8 H. destruct (bexfil_inv s m O8 H) as (_ & sz & F & HB & HL). exists (bin m sz). split; [exact (binfil_bin _ _ F)|].
  pose proof (bin_len _ _ F) as L. pose proof (fsize_mod4 _ _ F) as L4.
  assert (P : 0 < fsize m sz).
  { destruct (mf_k _ _ F) as (k & _ & _ & K). pose proof (mf_wf _ _ F) as (_ & HP & _). lia. }
  split; [|intros E; rewrite E in L; cbn in L; lia]. rewrite L, HB. rewrite ntake_ndrop. reflexivity.
Qed.
Lemma text_eq : forall s m, b64text s -> exfil s = Ok m -> exists q, infil m = Ok q /\ s = q ++ ndrop (len q) s.
Proof.
  intros s m T H. destruct (exfil_afacts _ _ H) as (sz & A). exists (MatterProofs.text m sz). split; [exact (afacts_infil _ _ A)|].
  destruct (exfil_inv _ _ H) as (sz' & F). pose proof (xf_sz _ _ _ F) as E. rewrite (af_sz _ _ A) in E. injection E as <-.
  destruct (exfil_text_wf _ _ _ F (b64text_ntake _ _ T)) as (_ & E). rewrite (afacts_text_len _ _ A), <- E, ntake_ndrop. reflexivity.
Qed.

(** ** Structures are read back *)
Lemma textAll_back : forall ks ms qs, Forall2 fit ks ms -> Forall2 rw ms qs -> forall t, textAll ks (List.concat qs ++ t) = Ok (ms, t).
Proof.
  intros ks ms qs F. revert qs. induction F as [|k m ks ms H F IH]; intros qs Q t; inversion Q as [|? q ? qs' R Q']; subst; [reflexivity|].
  cbn [List.concat textAll]. rewrite <- app_assoc. unfold readText at 1. rewrite (rw_exfil _ _ R). cbn [bind]. rewrite (proj1 H). cbn [bind]. rewrite (rw_infil _ _ R). cbn [bind].
  rewrite ndrop_len_app, (IH _ Q'). reflexivity.
Qed.
Lemma cat_inv : forall (g : matter -> res bytes) ms b, cat (map g ms) = Ok b -> exists bs, Forall2 (fun m b => g m = Ok b) ms bs /\ b = List.concat bs.
Proof.
  intros g. induction ms as [|m ms IH]; intros b H; cbn [map cat] in H.
  - apply ok_inj in H. subst b. exists []. split; [constructor|reflexivity].
  - apply bind_ok in H. destruct H as (x & X & H). apply bind_ok in H. destruct H as (y & Y & H). apply ok_inj in H. subst b. destruct (IH _ Y) as (bs & B & ->). exists (x :: bs). split; [constructor; assumption|reflexivity].
Qed.
Lemma binAll_back : forall ks ms bs, Forall2 fit ks ms -> Forall2 (fun m b => binfil m = Ok b) ms bs -> forall t, binAll ks (List.concat bs ++ t) = Ok (ms, t).
Proof.
  intros ks ms bs F. revert bs. induction F as [|k m ks ms H F IH]; intros bs Q t; inversion Q as [|? b ? bs' R Q']; subst; [reflexivity|]. destruct H as [C (q & RW)]. pose proof (rw_bin _ _ _ RW R) as RB.
  cbn [List.concat binAll]. rewrite <- app_assoc. unfold readBin at 1. rewrite (wb_bexfil _ _ RB). cbn [bind]. rewrite C. cbn [bind]. rewrite R. cbn [bind].
  rewrite ndrop_len_app, (IH _ Q'). reflexivity.
Qed.
Lemma cast_ne : forall c, castOf c <> []. Proof. intros []; discriminate. Qed.
Lemma four_concat : forall ms qs, Forall2 rw ms qs -> len (List.concat qs) mod 4 = 0.
Proof. intros ms qs F. induction F as [|m q ms qs H F IH]; [reflexivity|]. cbn [List.concat]. rewrite len_app. pose proof (rw_four _ _ H). lia. Qed.
Lemma three_concat : forall ms qs bs, Forall2 rw ms qs -> Forall2 (fun m b => binfil m = Ok b) ms bs -> len (List.concat bs) mod 3 = 0.
Proof.
  intros ms qs bs F. revert bs. induction F as [|m q ms qs H F IH]; intros bs B; inversion B as [|? b ? bs' R B']; subst; [reflexivity|]. cbn [List.concat]. rewrite len_app.
  pose proof (wb_three _ _ (rw_bin _ _ _ H R)). pose proof (IH _ B'). lia.
Qed.
Lemma concat_ne : forall ms qs, Forall2 rw ms qs -> ms <> [] -> List.concat qs <> [].
Proof. intros ms qs F NE. inversion F as [|m q ms' qs' R F']; subst; [congruence|]. cbn [List.concat]. intros E. apply app_eq_nil in E. exact (rw_ne _ _ R (proj1 E)). Qed.
Lemma concatb_ne : forall ms qs bs, Forall2 rw ms qs -> Forall2 (fun m b => binfil m = Ok b) ms bs -> ms <> [] -> List.concat bs <> [].
Proof. intros ms qs bs F B NE. inversion F as [|m q ms' qs' R F']; subst; [congruence|]. inversion B as [|? b ? bs' R' B']; subst. cbn [List.concat]. intros E. apply app_eq_nil in E. exact (wb_ne _ _ (rw_bin _ _ _ R R') (proj1 E)). Qed.

Lemma frame_back : forall A (f : bytes -> res (A * bytes)) qs vs, Forall2 (fun q v => q <> [] /\ forall t, f (q ++ t) = Ok (v, t)) qs vs -> readFrame f (List.concat qs) = Ok vs.
Proof.
  intros A f qs vs F. unfold readFrame. assert (G : forall n, (List.length (List.concat qs) <= n)%nat -> readAll f n (List.concat qs) = Ok vs); [|apply G; lia].
  induction F as [|q v qs vs [NE R] F IH]; intros n L; [destruct n; reflexivity|]. cbn [List.concat] in *. rewrite app_length in L. destruct q as [|x q]; [congruence|]. cbn [List.length] in L.
  destruct n as [|n]; [lia|]. cbn [readAll app]. change (x :: q ++ List.concat qs) with ((x :: q) ++ List.concat qs). rewrite R. cbn [bind]. rewrite IH by lia. reflexivity.
Qed.
(** ** Counters of clans *)
Definition clanLetter (c : clan) : N :=
  match dget CtrDex_2_0 (s2b (codenOf c)) with Some [_; x] => x | _ => 0 end.
Lemma clan_code : forall c, In [45; clanLetter c] (map fst CSizes_2_0) /\ forall n, counter_of V20 (s2b (codenOf c)) n = counter_of V20 [45; clanLetter c] n.
Proof.
  intros c. split; [apply memB_In; destruct c; vm_compute; reflexivity|]. intros n. unfold counter_of.
  assert (E : lookCode CtrDex_2_0 CSizes_2_0 (s2b (codenOf c)) = lookCode CtrDex_2_0 CSizes_2_0 [45; clanLetter c]) by (destruct c; vm_compute; reflexivity).
  change (ctables V20) with (Ok (CtrDex_2_0, CSizes_2_0)). cbn [bind]. rewrite E. reflexivity.
Qed.
Lemma clan_small : forall f c, hasClan f c = true -> forall n, nameOf CtrDex_2_0 [45; clanLetter c] = Ok n -> clanOfName f n = Ok c.
Proof. intros f c H n N'. assert (E : n = s2b (codenOf c)) by (destruct c; vm_compute in N'; apply ok_inj in N'; subst n; reflexivity). subst n. clear N'. destruct f; destruct c; try discriminate; reflexivity. Qed.
Lemma clan_big : forall f c n, nameOf CtrDex_2_0 [45; 45; clanLetter c] = Ok n -> clanOfName f n = Err KeyError.
Proof. intros f c n N'. destruct c; vm_compute in N'; apply ok_inj in N'; subst n; destruct f; vm_compute; reflexivity. Qed.
Lemma ctr_name : forall code n c, counter_of V20 code n = Ok c -> nameOf CtrDex_2_0 (c_code c) = Ok (c_name c).
Proof.
  intros code n c H. unfold counter_of in H. change (ctables V20) with (Ok (CtrDex_2_0, CSizes_2_0)) in H. cbn [bind] in H. apply bind_ok in H. destruct H as ([k sz] & _ & H). cbv zeta in H.
  apply raise_if_ok in H. destruct H as [_ H]. apply bind_ok in H. destruct H as ([k' ss'] & _ & H). apply raise_if_ok in H. destruct H as [_ H]. apply bind_ok in H. destruct H as (name & N' & H). apply ok_inj in H. subst c. exact N'.
Qed.
Lemma clan_counter : forall c n ctr, counter_of V20 (s2b (codenOf c)) n = Ok ctr ->
  c_count ctr = n /\ (n < 4096 -> (forall f, hasClan f c = true -> clanOfName f (c_name ctr) = Ok c) /\ len (c_code ctr) = 2) /\ (4096 <= n -> forall f, clanOfName f (c_name ctr) = Err KeyError).
Proof.
  intros c n ctr H. split; [exact (proj1 (c39_text_round_trip _ _ _ _ H))|]. pose proof (ctr_name _ _ _ H) as N'. destruct (clan_code c) as (I & E). rewrite E in H.
  destruct (c39_promotion (clanLetter c) n I) as (P1 & P2 & P3). change (mkV 2 0) with V20 in *. split.
  - intros L. destruct (P1 L) as (c' & C & K). rewrite H in C. apply ok_inj in C. subst c'. rewrite K in N'. split; [|rewrite K; reflexivity]. intros f HC. exact (clan_small f c HC _ N').
  - intros L f. destruct (N.lt_ge_cases n (64 ^ 5)) as [L'|L'].
    + destruct (P2 (conj L L')) as (c' & C & K). rewrite H in C. apply ok_inj in C. subst c'. rewrite K in N'. exact (clan_big f c _ N').
    + rewrite (P3 L') in H. discriminate.
Qed.
(** the head of a group *)
Lemma head_text : forall ctr h n code rest, counter_of V20 code n = Ok ctr -> cinfil ctr = Ok h -> exists sz, cexfil V20 (h ++ rest) = Ok ctr /\ csize ctr = Ok sz /\ cfs sz = len h.
Proof.
  intros ctr h n code rest C I. destruct (c39_text_round_trip _ _ _ _ C) as (_ & _ & q & D & _ & _ & E). rewrite I in D. apply ok_inj in D. subst q.
  pose proof (E rest) as X. unfold counter_strip in X. apply bind_ok in X. destruct X as (c' & X1 & X). apply bind_ok in X. destruct X as (sz & X2 & X). apply ok_inj in X. apply pair_equal_spec in X. destruct X as [-> _].
  exists sz. split; [exact X1|]. split; [exact X2|]. pose proof (E (repeat 0 (N.to_nat (cfs sz)))) as Y. unfold counter_strip in Y. apply bind_ok in Y. destruct Y as (c' & _ & Y). apply bind_ok in Y. destruct Y as (sz' & Y2 & Y).
  apply ok_inj in Y. apply pair_equal_spec in Y. destruct Y as [-> Y]. rewrite X2 in Y2. apply ok_inj in Y2. subst sz'. apply (f_equal len) in Y. rewrite len_ndrop, len_app in Y. unfold len in Y. rewrite repeat_length in Y. unfold len. lia.
Qed.
Lemma head_bin : forall ctr h n code rest, counter_of V20 code n = Ok ctr -> cbinfil ctr = Ok h -> exists sz, cbexfil V20 (h ++ rest) = Ok ctr /\ csize ctr = Ok sz /\ cfs sz / 4 * 3 = len h.
Proof.
  intros ctr h n code rest C I. destruct (c39_binary_round_trip _ _ _ _ C) as (q & b & D0 & D & _ & _ & _ & E). rewrite I in D. apply ok_inj in D. subst b.
  pose proof (E rest) as X. unfold counter_bstrip in X. apply bind_ok in X. destruct X as (c' & X1 & X). apply bind_ok in X. destruct X as (sz & X2 & X). apply ok_inj in X. apply pair_equal_spec in X. destruct X as [-> _].
  exists sz. split; [exact X1|]. split; [exact X2|]. pose proof (E (repeat 0 (N.to_nat (cfs sz)))) as Y. unfold counter_bstrip in Y. apply bind_ok in Y. destruct Y as (c' & _ & Y). apply bind_ok in Y. destruct Y as (sz' & Y2 & Y).
  apply ok_inj in Y. apply pair_equal_spec in Y. destruct Y as [-> Y]. rewrite X2 in Y2. apply ok_inj in Y2. subst sz'. apply (f_equal len) in Y. rewrite len_ndrop, len_app in Y. unfold len in Y. rewrite repeat_length in Y.
  destruct (head_text _ _ _ _ [] C D0) as (sz' & _ & S' & L'). rewrite X2 in S'. apply ok_inj in S'. subst sz'.
  destruct (c39_text_round_trip _ _ _ _ C) as (_ & _ & q' & D1 & _ & L4 & _). rewrite D0 in D1. apply ok_inj in D1. subst q'. unfold len in *. lia.
Qed.
Lemma slice : forall (h s t : bytes) n, n = len s -> ndrop (len h) (ntake (len h + n) (h ++ s ++ t)) = s /\ ndrop (len h + n) (h ++ s ++ t) = t.
Proof.
  intros h s t n ->. rewrite app_assoc. replace (len h + len s) with (len (h ++ s)) by (rewrite len_app; reflexivity). rewrite ntake_len_app, !ndrop_len_app. auto.
Qed.

Section Digest.
Variable digest : bytes -> bytes -> bytes.
Hypothesis DOK : digest_ok digest.

Lemma settle_back : forall f s, sound digest f s -> settle digest f false (s_clan s) (s_data s) = Ok s.
Proof.
  intros f [c ms] [_ _ SD]. cbn [s_clan s_data] in *. unfold settle. destruct (saidive f); [|reflexivity]. rewrite (saided_verify digest DOK _ (SD eq_refl)). reflexivity.
Qed.
Lemma text_back : forall f s, sound digest f s -> exists q, stText s = Ok q /\ q <> [] /\ len q mod 4 = 0 /\ forall t, ofText digest f (s_clan s) (q ++ t) = Ok (s, t).
Proof.
  intros f s S. destruct (fit_rw _ _ (sd_fit _ _ _ S)) as (qs & Q). exists (List.concat qs). split; [exact (matsB_rw _ _ Q)|].
  assert (NE : List.concat qs <> []).
  { apply (concat_ne _ _ Q). intros E. pose proof (sd_fit _ _ _ S) as F. rewrite E in F. inversion F as [E'|]. exact (cast_ne _ (eq_sym E')). }
  split; [exact NE|]. split; [exact (four_concat _ _ Q)|]. intros t. unfold ofText. rewrite (sd_clan _ _ _ S). cbn [negb].
  rewrite (textAll_back _ _ _ (sd_fit _ _ _ S) Q). cbn [bind]. rewrite (settle_back _ _ S). cbn [bind]. destruct (List.concat qs) as [|x r]; [congruence|reflexivity].
Qed.
Lemma bin_back : forall f s b, sound digest f s -> stBin s = Ok b -> b <> [] /\ len b mod 3 = 0 /\ forall t, ofBin digest f (s_clan s) (b ++ t) = Ok (s, t).
Proof.
  intros f s b S H. destruct (fit_rw _ _ (sd_fit _ _ _ S)) as (qs & Q). unfold stBin in H. destruct (cat_inv _ _ _ H) as (bs & B & ->).
  assert (NE : List.concat bs <> []).
  { apply (concatb_ne _ _ _ Q B). intros E. pose proof (sd_fit _ _ _ S) as F. rewrite E in F. inversion F as [E'|]. exact (cast_ne _ (eq_sym E')). }
  split; [exact NE|]. split; [exact (three_concat _ _ _ Q B)|]. intros t. unfold ofBin. rewrite (sd_clan _ _ _ S). cbn [negb].
  rewrite (binAll_back _ _ _ (sd_fit _ _ _ S) B). cbn [bind]. rewrite (settle_back _ _ S). cbn [bind]. destruct (List.concat bs) as [|x r]; [congruence|reflexivity].
Qed.
Lemma join_text : forall f c l buf, Forall (sound digest f) l -> joinAll stText c l = Ok buf ->
  exists qs, buf = List.concat qs /\ len buf mod 4 = 0 /\ Forall2 (fun q v => q <> [] /\ forall t, ofText digest f c (q ++ t) = Ok (v, t)) qs l.
Proof.
  intros f c l buf F. revert buf. unfold joinAll. induction F as [|s l S F IH]; intros buf H; cbn [concatr] in H.
  - apply ok_inj in H. subst buf. exists []. split; [reflexivity|]. split; [reflexivity|constructor].
  - apply bind_ok in H. destruct H as (q & Q & H). apply bind_ok in H. destruct H as (b & B & H). apply ok_inj in H. subst buf. apply raise_if_ok in Q. destruct Q as [C Q]. apply negb_false_iff in C.
    assert (E : s_clan s = c) by (destruct (s_clan s), c; try discriminate; reflexivity). destruct (text_back _ _ S) as (q' & Q' & NE & L4 & R). rewrite Q in Q'. apply ok_inj in Q'. subst q'. rewrite E in R.
    destruct (IH _ B) as (qs & -> & L & F2). exists (q :: qs). split; [reflexivity|]. split; [rewrite len_app; lia|]. constructor; [auto|exact F2].
Qed.
Lemma join_bin : forall f c l buf, Forall (sound digest f) l -> joinAll stBin c l = Ok buf ->
  exists qs, buf = List.concat qs /\ len buf mod 3 = 0 /\ Forall2 (fun q v => q <> [] /\ forall t, ofBin digest f c (q ++ t) = Ok (v, t)) qs l.
Proof.
  intros f c l buf F. revert buf. unfold joinAll. induction F as [|s l S F IH]; intros buf H; cbn [concatr] in H.
  - apply ok_inj in H. subst buf. exists []. split; [reflexivity|]. split; [reflexivity|constructor].
  - apply bind_ok in H. destruct H as (q & Q & H). apply bind_ok in H. destruct H as (b & B & H). apply ok_inj in H. subst buf. apply raise_if_ok in Q. destruct Q as [C Q]. apply negb_false_iff in C.
    assert (E : s_clan s = c) by (destruct (s_clan s), c; try discriminate; reflexivity). destruct (bin_back _ _ _ S Q) as (NE & L4 & R). rewrite E in R.
    destruct (IH _ B) as (qs & -> & L & F2). exists (q :: qs). split; [reflexivity|]. split; [rewrite len_app; lia|]. constructor; [auto|exact F2].
Qed.
Lemma obtained_all : forall f l, Forall (obtained digest f) l -> Forall (sound digest f) l.
Proof. intros f l F. eapply Forall_impl; [|exact F]. intros s. exact (obtained_sound digest DOK f s). Qed.

Lemma enclose_inv : forall (ser : structor -> res bytes) (wrap : CtrModel.versionage -> bytes -> bytes -> res bytes) f l g, encloseWith ser wrap f l = Ok g ->
  exists s l' buf, l = s :: l' /\ joinAll ser (s_clan s) l = Ok buf /\ hasClan f (s_clan s) = true /\ wrap V20 (s2b (codenOf (s_clan s))) buf = Ok g.
Proof.
  intros ser wrap f l g H. unfold encloseWith in H. destruct l as [|s l']; [discriminate|]. apply bind_ok in H. destruct H as (buf & B & H). apply raise_if_ok in H. destruct H as [C H]. apply negb_false_iff in C.
  exists s, l', buf. auto.
Qed.
Lemma enclose_parts : forall v code s g, enclose v code s = Ok g -> exists c h, counter_of v code (len s / 4) = Ok c /\ cinfil c = Ok h /\ g = h ++ s /\ len s mod 4 = 0.
Proof.
  intros v code s g H. unfold enclose in H. apply raise_if_ok in H. destruct H as [H4 H]. apply negb_false_iff, N.eqb_eq in H4. apply bind_ok in H. destruct H as (c & C & H). apply raise_if_ok in H. destruct H as [_ H].
  apply bind_ok in H. destruct H as (h & I & H). apply ok_inj in H. exists c, h. auto.
Qed.
Lemma benclose_parts : forall v code s g, benclose v code s = Ok g -> exists c h, counter_of v code (len s / 3) = Ok c /\ cbinfil c = Ok h /\ g = h ++ s /\ len s mod 3 = 0.
Proof.
  intros v code s g H. unfold benclose in H. apply raise_if_ok in H. destruct H as [H4 H]. apply negb_false_iff, N.eqb_eq in H4. apply bind_ok in H. destruct H as (c & C & H). apply raise_if_ok in H. destruct H as [_ H].
  apply bind_ok in H. destruct H as (h & I & H). apply ok_inj in H. exists c, h. auto.
Qed.
Lemma head_len : forall code n c h, counter_of V20 code n = Ok c -> cinfil c = Ok h -> len (c_code c) = 2 -> len h = 4.
Proof.
  intros code n c h C I L. destruct (counter_of_ok _ _ _ _ C) as (_ & _ & codes & sizes & sz & K & _). rewrite (cinfil_ok _ _ _ _ K) in I. apply ok_inj in I. subst h.
  rewrite (cboth_len _ _ _ _ K). pose proof (csize_ok _ _ _ _ K) as SZ.
  destruct (c_code c) as [|a [|x [|z r]]] eqn:E; try discriminate; [|unfold len in L; cbn in L; lia].
  unfold csize in SZ. destruct (counter_of_ok _ _ _ _ C) as (V & _). rewrite V in SZ. change (ctables V20) with (Ok (CtrDex_2_0, CSizes_2_0)) in SZ. cbn [bind] in SZ. rewrite E in SZ.
  destruct (dget CSizes_2_0 [a; x]) as [sz'|] eqn:D; [|discriminate]. apply ok_inj in SZ. subst sz'.
  assert (G : forallb (fun p => match fst p with [_; _] => cfs (snd p) =? 4 | _ => true end) CSizes_2_0 = true) by (vm_compute; reflexivity).
  rewrite forallb_forall in G. apply dget_In in D; specialize (G _ D). cbn [fst snd] in G. apply N.eqb_eq in G. exact G.
Qed.
Lemma head_big : forall code n c h, counter_of V20 code n = Ok c -> cinfil c = Ok h -> 4 <= len h.
Proof.
  intros code n c h C I. destruct (c39_text_round_trip _ _ _ _ C) as (_ & _ & q & D & _ & L & E). rewrite I in D. apply ok_inj in D. subst q. destruct h as [|x h]; [|unfold len in *; cbn [List.length] in *; lia].
  specialize (E []). discriminate E.
Qed.

Lemma group_text : forall f l g rest, Forall (obtained digest f) l -> encloseText f l = Ok g -> len g <= 16384 -> extractText digest f (g ++ rest) = Ok (l, rest).
Proof.
  intros f l g rest O H L. apply obtained_all in O. destruct (enclose_inv _ _ _ _ _ H) as (s & l' & buf & E & J & HC & W).
  destruct (enclose_parts _ _ _ _ W) as (c & h & C & I & -> & L4). destruct (join_text _ _ _ _ O J) as (qs & EB & _ & F2).
  pose proof (head_big _ _ _ _ C I) as H4. rewrite len_app in L. destruct (clan_counter _ _ _ C) as (CN & CS & _). destruct CS as [CS CL]; [lia|].
  rewrite <- app_assoc. destruct (head_text _ _ _ _ (buf ++ rest) C I) as (sz & X & SZ & CF). unfold extractText. rewrite X. cbn [bind]. rewrite (CS f HC). cbn [bind]. rewrite SZ. cbn [bind]. cbv zeta.
  rewrite CF. destruct (slice h buf rest (byteCount_txt c)) as [S1 S2]; [unfold byteCount_txt; rewrite CN; lia|]. rewrite S1, S2, EB, (frame_back _ _ _ _ F2). reflexivity.
Qed.
Lemma group_text_big : forall f l g rest, encloseText f l = Ok g -> 16384 < len g -> extractText digest f (g ++ rest) = Err KeyError.
Proof.
  intros f l g rest H L. destruct (enclose_inv _ _ _ _ _ H) as (s & l' & buf & E & J & HC & W).
  destruct (enclose_parts _ _ _ _ W) as (c & h & C & I & -> & L4). rewrite len_app in L. destruct (clan_counter _ _ _ C) as (CN & CS & CB).
  rewrite <- app_assoc. destruct (head_text _ _ _ _ (buf ++ rest) C I) as (sz & X & SZ & CF). unfold extractText. rewrite X. cbn [bind].
  destruct (N.lt_ge_cases (len buf / 4) 4096) as [L'|L']; [|rewrite (CB L'); reflexivity].
  exfalso. destruct (CS L') as [_ CL]. pose proof (head_len _ _ _ _ C I CL). lia.
Qed.
Lemma group_bin : forall f l g rest, Forall (obtained digest f) l -> encloseBin f l = Ok g -> len g <= 12288 -> extractBin digest f (g ++ rest) = Ok (l, rest).
Proof.
  intros f l g rest O H L. apply obtained_all in O. destruct (enclose_inv _ _ _ _ _ H) as (s & l' & buf & E & J & HC & W).
  destruct (benclose_parts _ _ _ _ W) as (c & h & C & I & -> & L3). destruct (join_bin _ _ _ _ O J) as (qs & EB & _ & F2).
  destruct (head_bin _ _ _ _ (buf ++ rest) C I) as (sz & X & SZ & CF).
  assert (H3 : 3 <= len h).
  { destruct (c39_text_round_trip _ _ _ _ C) as (_ & _ & q & D & _). pose proof (head_big _ _ _ _ C D) as H4. destruct (head_text _ _ _ _ [] C D) as (sz' & _ & S' & L'). rewrite SZ in S'. apply ok_inj in S'. subst sz'. lia. }
  rewrite len_app in L. destruct (clan_counter _ _ _ C) as (CN & CS & _). destruct CS as [CS CL]; [lia|].
  rewrite <- app_assoc. unfold extractBin. rewrite X. cbn [bind]. rewrite (CS f HC). cbn [bind]. rewrite SZ. cbn [bind]. cbv zeta.
  rewrite CF. destruct (slice h buf rest (byteCount_bny c)) as [S1 S2]; [unfold byteCount_bny; rewrite CN; lia|]. rewrite S1, S2, EB, (frame_back _ _ _ _ F2). reflexivity.
Qed.
Lemma group_bin_big : forall f l g rest, encloseBin f l = Ok g -> 12288 < len g -> extractBin digest f (g ++ rest) = Err KeyError.
Proof.
  intros f l g rest H L. destruct (enclose_inv _ _ _ _ _ H) as (s & l' & buf & E & J & HC & W).
  destruct (benclose_parts _ _ _ _ W) as (c & h & C & I & -> & L4). rewrite len_app in L. destruct (clan_counter _ _ _ C) as (CN & CS & CB).
  rewrite <- app_assoc. destruct (head_bin _ _ _ _ (buf ++ rest) C I) as (sz & X & SZ & CF). unfold extractBin. rewrite X. cbn [bind].
  destruct (N.lt_ge_cases (len buf / 3) 4096) as [L'|L']; [|rewrite (CB L'); reflexivity].
  exfalso. destruct (CS L') as [_ CL]. destruct (c39_text_round_trip _ _ _ _ C) as (_ & _ & q & D & _). pose proof (head_len _ _ _ _ C D CL) as H4.
  destruct (head_text _ _ _ _ [] C D) as (sz' & _ & S' & L''). rewrite SZ in S'. apply ok_inj in S'. subst sz'. rewrite L'', H4 in CF. change (4 / 4 * 3) with 3 in CF. lia.
Qed.
Lemma group_total : forall f l c, hasClan f c = true -> Forall (fun s => obtained digest f s /\ s_clan s = c) l -> l <> [] ->
  exists buf, concatr stText l = Ok buf /\ len buf mod 4 = 0 /\ (len buf < 4 * 64 ^ 5 -> exists g, encloseText f l = Ok g).
Proof.
  intros f l c HC F NE. assert (J : exists buf, concatr stText l = Ok buf /\ joinAll stText c l = Ok buf /\ len buf mod 4 = 0).
  { clear NE. unfold joinAll. induction F as [|s l [S E] F IH]; [exists []; auto|]. destruct IH as (b & B1 & B2 & B3). apply (obtained_sound digest DOK) in S. destruct (text_back _ _ S) as (q & Q & _ & L4 & _).
    exists (q ++ b). cbn [concatr]. rewrite B1, B2, Q, E. replace (clan_eqb c c) with true by (destruct c; reflexivity). cbn [negb bind]. split; [reflexivity|]. split; [reflexivity|]. rewrite len_app. lia. }
  destruct J as (buf & J1 & J2 & L4). exists buf. split; [exact J1|]. split; [exact L4|]. intros L. destruct l as [|s l]; [congruence|]. inversion F as [|? ? [_ E] _]; subst c.
  unfold encloseText, encloseWith. rewrite J2. cbn [bind]. rewrite HC. cbn [negb]. destruct (clan_code (s_clan s)) as (I & EC).
  destruct (c42_enclose_total (clanLetter (s_clan s)) buf I L4 L) as (g & G). exists g. rewrite <- G. unfold enclose. change (mkV 2 0) with V20. rewrite EC. reflexivity.
Qed.

(** ** What is extracted *)
Lemma readAll_inv : forall A (f : bytes -> res (A * bytes)) (P : bytes -> Prop) (g : A -> bytes -> Prop) n s l,
  (forall s a r, P s -> f s = Ok (a, r) -> exists q, g a q /\ s = q ++ r) -> (forall a b, P (a ++ b) -> P b) -> P s -> readAll f n s = Ok l -> exists qs, Forall2 g l qs /\ s = List.concat qs.
Proof.
  intros A f P g n. induction n as [|n IH]; intros s l H1 H2 HP H; destruct s as [|x s]; cbn [readAll] in H; try discriminate; try (apply ok_inj in H; subst l; exists []; split; [constructor|reflexivity]).
  apply bind_ok in H. destruct H as ([a r] & F & H). apply bind_ok in H. destruct H as (l' & R & H). apply ok_inj in H. subst l. destruct (H1 _ _ _ HP F) as (q & G & E).
  rewrite E in HP. destruct (IH r l' H1 H2 (H2 _ _ HP) R) as (qs & F2 & ->). exists (q :: qs). split; [constructor; assumption|exact E].
Qed.
Lemma readAll_all : forall A (f : bytes -> res (A * bytes)) (Q : A -> Prop) (P : bytes -> Prop) n s l,
  (forall s a r, P s -> f s = Ok (a, r) -> Q a /\ P r) -> P s -> readAll f n s = Ok l -> Forall Q l.
Proof.
  intros A f Q P n. induction n as [|n IH]; intros s l H1 HP H; destruct s as [|x s]; cbn [readAll] in H; try discriminate; try (apply ok_inj in H; subst l; constructor).
  apply bind_ok in H. destruct H as ([a r] & F & H). apply bind_ok in H. destruct H as (l' & R & H). apply ok_inj in H. subst l. destruct (H1 _ _ _ HP F) as [HQ HP']. constructor; [exact HQ|]. exact (IH _ _ H1 HP' R).
Qed.
Lemma textAll_eq : forall ks s ms r, b64text s -> textAll ks s = Ok (ms, r) -> exists q, matsB ms = Ok q /\ s = q ++ r.
Proof.
  unfold matsB. induction ks as [|k ks IH]; intros s ms r T H; cbn [textAll] in H.
  - apply ok_inj in H. apply pair_equal_spec in H. destruct H as [<- <-]. exists []. auto.
  - apply bind_ok in H. destruct H as (m & M & H). apply bind_ok in H. destruct H as (q & Q & H). apply bind_ok in H. destruct H as ([ms' r'] & R & H). apply ok_inj in H. apply pair_equal_spec in H. destruct H as [<- <-].
    unfold readText in M. apply bind_ok in M. destruct M as (m' & X & C). pose proof (check_id _ _ _ C). subst m'. destruct (text_eq _ _ T X) as (q' & Q' & E). rewrite Q in Q'. apply ok_inj in Q'. subst q'.
    assert (T' : b64text (ndrop (len q) s)) by (apply b64text_ndrop; exact T). destruct (IH _ _ _ T' R) as (b & B & E'). cbn [map cat]. rewrite Q. cbn [bind]. rewrite B. cbn [bind]. exists (q ++ b). split; [reflexivity|].
    rewrite <- app_assoc, <- E'. exact E.
Qed.
Lemma binAll_eq : forall ks s ms r, octets s -> binAll ks s = Ok (ms, r) -> exists q, cat (map binfil ms) = Ok q /\ s = q ++ r.
Proof.
  induction ks as [|k ks IH]; intros s ms r T H; cbn [binAll] in H.
  - apply ok_inj in H. apply pair_equal_spec in H. destruct H as [<- <-]. exists []. auto.
  - apply bind_ok in H. destruct H as (m & M & H). apply bind_ok in H. destruct H as (q & Q & H). apply bind_ok in H. destruct H as ([ms' r'] & R & H). apply ok_inj in H. apply pair_equal_spec in H. destruct H as [<- <-].
    unfold readBin in M. apply bind_ok in M. destruct M as (m' & X & C). pose proof (check_id _ _ _ C). subst m'. destruct (bin_eq _ _ T X) as (q' & Q' & E & _). rewrite Q in Q'. apply ok_inj in Q'. subst q'.
    assert (T' : octets (ndrop (len q) s)) by (apply octets_ndrop; exact T). destruct (IH _ _ _ T' R) as (b & B & E'). cbn [map cat]. rewrite Q. cbn [bind]. rewrite B. cbn [bind]. exists (q ++ b). split; [reflexivity|].
    rewrite <- app_assoc, <- E'. exact E.
Qed.
Lemma settle_id : forall f c ms s, settle digest f false c ms = Ok s -> s = mkSt c ms.
Proof. intros f c ms s H. unfold settle in H. destruct (saidive f); [apply bind_ok in H; destruct H as (? & _ & H)|]; apply ok_inj in H; auto. Qed.
Lemma ofText_eq : forall f c s st r, b64text s -> ofText digest f c s = Ok (st, r) -> exists q, stText st = Ok q /\ s = q ++ r.
Proof.
  intros f c s st r T H. unfold ofText in H. apply raise_if_ok in H. destruct H as [_ H]. destruct s as [|x s]; [discriminate|]. apply bind_ok in H. destruct H as ([ms r'] & M & H). apply bind_ok in H. destruct H as (t & S & H).
  apply ok_inj in H. apply pair_equal_spec in H. destruct H as [<- <-]. apply settle_id in S. subst t. exact (textAll_eq _ _ _ _ T M).
Qed.
Lemma ofBin_eq : forall f c s st r, octets s -> ofBin digest f c s = Ok (st, r) -> exists q, stBin st = Ok q /\ s = q ++ r.
Proof.
  intros f c s st r T H. unfold ofBin in H. apply raise_if_ok in H. destruct H as [_ H]. destruct s as [|x s]; [discriminate|]. apply bind_ok in H. destruct H as ([ms r'] & M & H). apply bind_ok in H. destruct H as (t & S & H).
  apply ok_inj in H. apply pair_equal_spec in H. destruct H as [<- <-]. apply settle_id in S. subst t. exact (binAll_eq _ _ _ _ T M).
Qed.
Lemma slice_eq : forall (s : bytes) a n, s = ntake a s ++ ndrop a (ntake (a + n) s) ++ ndrop (a + n) s.
Proof.
  intros s a n. assert (E : ntake (a + n) s ++ ndrop (a + n) s = s) by apply ntake_ndrop. rewrite <- E at 1. rewrite app_assoc. f_equal.
  rewrite <- (ntake_ndrop _ a (ntake (a + n) s)) at 1. f_equal. unfold ntake. rewrite firstn_firstn. f_equal. lia.
Qed.
Lemma extract_text_sound : forall f s l rest, extractText digest f s = Ok (l, rest) ->
  (exists c, Forall (fun x => obtained digest f x /\ s_clan x = c) l) /\ (b64text s -> exists h qs, Forall2 (fun x q => stText x = Ok q) l qs /\ s = h ++ List.concat qs ++ rest).
Proof.
  intros f s l rest H. unfold extractText in H. apply bind_ok in H. destruct H as (ctr & C & H). apply bind_ok in H. destruct H as (c & CN & H). apply bind_ok in H. destruct H as (sz & SZ & H). cbv zeta in H.
  apply bind_ok in H. destruct H as (l' & R & H). apply ok_inj in H. apply pair_equal_spec in H. destruct H as [<- <-]. unfold readFrame in R. split.
  - exists c. eapply (readAll_all _ _ _ (fun _ => True)); [|exact Logic.I|exact R]. intros s' a r _ O. split; [|exact Logic.I]. split; [eapply ob_text; exact O|exact (proj2 (ofText_sound digest DOK _ _ _ _ _ O))].
  - intros T. destruct (readAll_inv _ _ b64text (fun x q => stText x = Ok q) _ _ _ (ofText_eq f c) (fun a b P => proj2 (proj1 (b64text_app a b) P)) (b64text_ndrop _ _ (b64text_ntake _ _ T)) R) as (qs & F & E).
    exists (ntake (cfs sz) s), qs. split; [exact F|]. rewrite <- E. apply slice_eq.
Qed.
Lemma extract_bin_sound : forall f s l rest, octets s -> extractBin digest f s = Ok (l, rest) ->
  (exists c, Forall (fun x => obtained digest f x /\ s_clan x = c) l) /\ exists h qs, Forall2 (fun x q => stBin x = Ok q) l qs /\ s = h ++ List.concat qs ++ rest.
Proof.
  intros f s l rest O8 H. unfold extractBin in H. apply bind_ok in H. destruct H as (ctr & C & H). apply bind_ok in H. destruct H as (c & CN & H). apply bind_ok in H. destruct H as (sz & SZ & H). cbv zeta in H.
  apply bind_ok in H. destruct H as (l' & R & H). apply ok_inj in H. apply pair_equal_spec in H. destruct H as [<- <-]. unfold readFrame in R.
  assert (O9 : octets (ndrop (cfs sz / 4 * 3) (ntake (cfs sz / 4 * 3 + byteCount_bny ctr) s))) by (apply octets_ndrop; apply Forall_firstn; exact O8). split.
  - exists c. eapply (readAll_all _ _ _ octets); [|exact O9|exact R]. intros s' a r P O. split; [split; [eapply ob_bin; [exact P|exact O]|exact (proj2 (ofBin_sound digest DOK _ _ _ _ _ P O))]|].
    destruct (ofBin_eq _ _ _ _ _ P O) as (q & _ & E). rewrite E in P. apply Forall_app in P. exact (proj2 P).
  - destruct (readAll_inv _ _ octets (fun x q => stBin x = Ok q) _ _ _ (ofBin_eq f c) (fun a b P => proj2 (proj1 (Forall_app _ a b) P)) O9 R) as (qs & F & E).
    exists (ntake (cfs sz / 4 * 3) s), qs. split; [exact F|]. rewrite <- E. apply slice_eq.
Qed.

(** ** Reading ends *)
Lemma check_nov : forall k m, nov (check k m).
Proof. intros k m. destruct k; cbn [check]; unfold inLabelDex, isVerser; novs. Qed.
Lemma readText_nov : forall k s, nov (readText k s).
Proof. intros k s. unfold readText. novs; [apply exfil_nov|apply check_nov]. Qed.
Lemma textAll_nov : forall ks s, nov (textAll ks s).
Proof. induction ks as [|k ks IH]; intros s; cbn [textAll]; [apply nov_ok|]. apply nov_bind; [apply readText_nov|]. intros m _. apply nov_bind; [apply infil_nov|]. intros q _. apply nov_bind; [apply IH|]. intros [ms r] _. apply nov_ok. Qed.
Lemma cat_nov : forall (g : matter -> res bytes) ms, (forall m, nov (g m)) -> nov (cat (map g ms)).
Proof. intros g ms G. induction ms as [|m ms IH]; cbn [map cat]; [apply nov_ok|]. apply nov_bind; [apply G|]. intros. apply nov_bind; [exact IH|]. intros. apply nov_ok. Qed.
Lemma digerOf_nov : forall c s, nov (digerOf digest c s).
Proof. intros c s. unfold digerOf. novs; first [apply bytes_to_nov|apply infil_nov]. Qed.
Lemma settle_nov : forall f c ms, nov (settle digest f false c ms).
Proof.
  intros f c ms. unfold settle. destruct (saidive f); [|apply nov_ok]. unfold verifySaid, saidText, matsB. novs; first [apply infil_nov|apply digerOf_nov|apply cat_nov; apply infil_nov].
Qed.
Lemma ofText_nov : forall f c s, nov (ofText digest f c s).
Proof.
  intros f c s. unfold ofText. apply nov_if; [discriminate|]. destruct s as [|x s]; [discriminate|]. apply nov_bind; [apply textAll_nov|]. intros [ms r] _. apply nov_bind; [apply settle_nov|]. intros. apply nov_ok.
Qed.
Lemma textAll_shorter : forall ks s ms r, textAll ks s = Ok (ms, r) -> (List.length r <= List.length s)%nat /\ (ks <> [] -> (List.length r < List.length s)%nat).
Proof.
  induction ks as [|k ks IH]; intros s ms r H; cbn [textAll] in H.
  - apply ok_inj in H. apply pair_equal_spec in H. destruct H as [_ <-]. split; [lia|congruence].
  - apply bind_ok in H. destruct H as (m & M & H). apply bind_ok in H. destruct H as (q & Q & H). apply bind_ok in H. destruct H as ([ms' r'] & R & H). apply ok_inj in H. apply pair_equal_spec in H. destruct H as [_ <-].
    destruct (readText_fit _ _ _ M) as [_ (q' & RW)]. pose proof (rw_infil _ _ RW) as E. rewrite Q in E. apply ok_inj in E. subst q'. pose proof (rw_ne _ _ RW) as NE. apply IH in R. destruct R as [R _]. unfold ndrop in R. rewrite skipn_length in R.
    assert (S : s <> []) by (intros ->; unfold readText in M; discriminate M). destruct q as [|y q]; [congruence|]. destruct s as [|x s]; [congruence|]. unfold len in R. cbn [List.length] in *. split; intros; lia.
Qed.
Lemma ofText_shorter : forall f c s a r, ofText digest f c s = Ok (a, r) -> (List.length r < List.length s)%nat.
Proof.
  intros f c s a r H. unfold ofText in H. apply raise_if_ok in H. destruct H as [_ H]. destruct s as [|x s]; [discriminate|]. apply bind_ok in H. destruct H as ([ms r'] & M & H). apply bind_ok in H. destruct H as (t & S & H).
  apply ok_inj in H. apply pair_equal_spec in H. destruct H as [_ <-]. apply textAll_shorter in M. apply M. apply cast_ne.
Qed.
Lemma clanOfName_nov : forall f n, nov (clanOfName f n). Proof. intros f n. unfold clanOfName. destruct (find _ _); discriminate. Qed.
Lemma extract_text_ends : forall f s, extractText digest f s <> Err OverflowError.
Proof.
  intros f s. fold (nov (extractText digest f s)). unfold extractText. apply nov_bind; [apply cexfil_nov|]. intros ctr _. apply nov_bind; [apply clanOfName_nov|]. intros c _. apply nov_bind; [apply csize_nov|]. intros sz _. cbv zeta.
  apply nov_bind; [|intros; apply nov_ok]. apply readFrame_nov; [intros; apply ofText_nov|]. intros s' a r. apply ofText_shorter.
Qed.
Lemma nab1_nov : forall s, octets s -> s <> [] -> nov (nabSextets s 1).
Proof.
  intros s O8 NE. destruct s as [|x s]; [congruence|]. inversion O8 as [|? ? X _]; subst. unfold nabSextets. change (sceil34 1) with 1.
  replace (len (x :: s) <? 1) with false by (unfold len; cbn [List.length]; lia). change (1 mod 4) with 1. rewrite shiftl_mul4, shiftr_div4. change (4 ^ 1) with 4.
  unfold ntake. change (N.to_nat 1) with 1%nat. cbn [firstn]. unfold int_from_bytes, of_digits. cbn [fold_left]. unfold int_to_bytes. change (256 ^ 1) with 256.
  assert (E : (0 * 256 + x) / 4 * 4 <? 256 = true) by (assert (X' : x < 256) by exact X; clear - X'; apply N.ltb_lt; lia). rewrite E. apply nov_ok.
Qed.
Lemma bexfil_nov : forall s, octets s -> nov (bexfil s).
Proof.
  intros s O8. unfold bexfil. destruct s as [|x s]; [discriminate|]. apply nov_bind; [apply nab1_nov; [exact O8|discriminate]|]. intros first _.
  novs; first [apply codeB2_nov|apply b64ToInt_nov|idtac].
Qed.
Lemma binAll_ends : forall ks s, octets s -> nov (binAll ks s) /\ forall ms r, binAll ks s = Ok (ms, r) -> octets r /\ (List.length r <= List.length s)%nat /\ (ks <> [] -> (List.length r < List.length s)%nat).
Proof.
  induction ks as [|k ks IH]; intros s O8; cbn [binAll].
  - split; [apply nov_ok|]. intros ms r H. apply ok_inj in H. apply pair_equal_spec in H. destruct H as [_ <-]. split; [exact O8|]. split; [lia|congruence].
  - split.
    + apply nov_bind; [unfold readBin; apply nov_bind; [exact (bexfil_nov _ O8)|]; intros; apply check_nov|]. intros m M. unfold readBin in M. apply bind_ok in M. destruct M as (m' & X & C). pose proof (check_id _ _ _ C). subst m'.
      destruct (bin_eq _ _ O8 X) as (q & Q & _). rewrite Q. cbn [bind]. apply nov_bind; [exact (proj1 (IH _ (octets_ndrop _ _ O8)))|]. intros [ms r] _. apply nov_ok.
    + intros ms r H. apply bind_ok in H. destruct H as (m & M & H). apply bind_ok in H. destruct H as (q & Q & H). apply bind_ok in H. destruct H as ([ms' r'] & R & H). apply ok_inj in H. apply pair_equal_spec in H. destruct H as [_ <-].
      unfold readBin in M. apply bind_ok in M. destruct M as (m' & X & C). pose proof (check_id _ _ _ C). subst m'. destruct (bin_eq _ _ O8 X) as (q' & Q' & E & NE). rewrite Q in Q'. apply ok_inj in Q'. subst q'.
      destruct (IH _ (octets_ndrop (len q) _ O8)) as [_ IH']. destruct (IH' _ _ R) as (P1 & P2 & _). split; [exact P1|].
      assert (L : (List.length (ndrop (len q) s) < List.length s)%nat).
      { rewrite E at 2. rewrite app_length. destruct q as [|y q]; [congruence|]. cbn [List.length]. lia. }
      split; intros; lia.
Qed.
Lemma ofBin_ends : forall f c s, octets s -> nov (ofBin digest f c s) /\ forall a r, ofBin digest f c s = Ok (a, r) -> octets r /\ (List.length r < List.length s)%nat.
Proof.
  intros f c s O8. unfold ofBin. destruct (negb (hasClan f c)); [split; [discriminate|intros; discriminate]|]. destruct s as [|x s]; [split; [discriminate|intros; discriminate]|].
  destruct (binAll_ends (castOf c) (x :: s) O8) as [B1 B2]. split.
  - apply nov_bind; [exact B1|]. intros [ms r] _. apply nov_bind; [apply settle_nov|]. intros. apply nov_ok.
  - intros a r H. apply bind_ok in H. destruct H as ([ms r'] & M & H). apply bind_ok in H. destruct H as (t & S & H). apply ok_inj in H. apply pair_equal_spec in H. destruct H as [_ <-]. destruct (B2 _ _ M) as (P1 & _ & P3). split; [exact P1|].
    apply P3. apply cast_ne.
Qed.
Lemma readAll_ends : forall A (f : bytes -> res (A * bytes)), (forall s, octets s -> nov (f s) /\ forall a r, f s = Ok (a, r) -> octets r /\ (List.length r < List.length s)%nat) -> forall n s, octets s -> (List.length s <= n)%nat -> nov (readAll f n s).
Proof.
  intros A f N'. induction n as [|n IH]; intros s O8 L; destruct s as [|x s]; try apply nov_ok; [cbn in L; lia|]. cbn [readAll]. destruct (N' _ O8) as [N1 N2]. apply nov_bind; [exact N1|]. intros [a r] E. destruct (N2 _ _ E) as [O9 L']. apply nov_bind; [apply IH; [exact O9|lia]|]. intros. apply nov_ok.
Qed.
Lemma extract_bin_ends : forall f s, octets s -> extractBin digest f s <> Err OverflowError.
Proof.
  intros f s O8. fold (nov (extractBin digest f s)). unfold extractBin. apply nov_bind; [exact (cbexfil_nov _ _ O8)|]. intros ctr _. apply nov_bind; [apply clanOfName_nov|]. intros c _. apply nov_bind; [apply csize_nov|]. intros sz _. cbv zeta.
  apply nov_bind; [|intros; apply nov_ok]. apply (readAll_ends _ _ (ofBin_ends f c)); [|lia]. apply octets_ndrop. apply Forall_firstn. exact O8.
Qed.
End Digest.
