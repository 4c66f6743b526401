(** What the said of a native field map commits to; the binary form; sizes. *)
From Verif Require Import Prelude B64Model B64Proofs MatterModel MatterProofs MatterInv MatterSpec MatterThms SubsModel SubsProofs SubsThms CtrModel CtrProofs CtrThms ThModel ThProofs JsonModel JsonProofs SerModel SerSpec SerProofs SerInv CpModel CpSpec CpProofs CpRoll CpCompact CpAgg NmModel NmSpec NmProofs NmProofs2.
Open Scope N_scope.
Notation val := JsonModel.val.
Ltac Zify.zify_post_hook ::= Z.div_mod_to_equations.

Section Bind.
Variable strict : bool.
Variable L dum : bytes.
Definition fieldOk (kv : bytes * val) : Prop := utf8 (fst kv) = true /\ (if beq (fst kv) L then snd kv = VStr dum else plain (snd kv)).
Lemma fieldD : forall l v r b, exhaleFields strict [L] ((l, v) :: r) = Ok b -> exists k x c, serLabel strict l = Ok k /\
  (if beq l L then match v with VStr s => Ok s | _ => Err TypeError end else serialize strict v) = Ok x /\ exhaleFields strict [L] r = Ok c /\ b = k ++ x ++ c.
Proof.
  intros l v r b H. cbn [exhaleFields] in H. apply bind_ok in H. destruct H as (a & A & H). apply catchIV_ok in A. apply bind_ok in A. destruct A as (k & K & A). apply bind_ok in A. destruct A as (x & X & A). apply ok_inj in A. subst a.
  apply bind_ok in H. destruct H as (c & C & H). apply ok_inj in H. subst b. exists k, x, c. split; [exact K|]. split; [|split; [exact C|apply eq_sym, app_assoc]].
  unfold memB in X. cbn [existsb] in X. rewrite orb_false_r in X. exact X.
Qed.
Lemma fieldsD_inj : forall m m', Forall fieldOk m -> Forall fieldOk m' -> forall r, exhaleFields strict [L] m = Ok r -> exhaleFields strict [L] m' = Ok r -> m = m'.
Proof.
  assert (NE : forall l v m, fieldOk (l, v) -> exhaleFields strict [L] ((l, v) :: m) = Ok [] -> False).
  { intros l v m [U _] H. destruct (fieldD _ _ _ _ H) as (k & x & c & K & _ & _ & E). destruct (serLabel_read strict l k U K) as (_ & _ & K3 & _). destruct k; [cbn in K3; lia|discriminate]. }
  induction m as [|[l v] m IH]; intros m' F F' r H H'.
  - cbn in H. apply ok_inj in H. subst r. destruct m' as [|[l v] m']; [reflexivity|]. exfalso. inversion F'; subst. eapply NE; eassumption.
  - destruct m' as [|[l' v'] m']; [cbn in H'; apply ok_inj in H'; subst r; exfalso; inversion F; subst; eapply NE; eassumption|].
    inversion F as [|? ? [U1 P1] F1]; subst. inversion F' as [|? ? [U2 P2] F2]; subst. cbn [fst snd] in U1, U2, P1, P2.
    destruct (fieldD _ _ _ _ H) as (k & x & c & K & X & C & E). destruct (fieldD _ _ _ _ H') as (k' & x' & c' & K' & X' & C' & E').
    destruct (serLabel_read strict l k U1 K) as (_ & _ & _ & R1). destruct (serLabel_read strict l' k' U2 K') as (_ & _ & _ & R2).
    specialize (R1 (x ++ c)). specialize (R2 (x' ++ c')). rewrite <- E in R1. rewrite <- E', R1 in R2. apply ok_inj in R2. injection R2 as <- XE.
    destruct (beq l L).
    + subst v v'. apply ok_inj in X, X'. subst x x'. apply app_inv_head in XE. subst c'. f_equal. exact (IH _ F1 F2 _ C C').
    + pose proof (serialize_framed strict v P1 _ X) as [_ _ _ Q]. pose proof (serialize_framed strict v' P2 _ X') as [_ _ _ Q'].
      set (n := (2 * List.length x + 2 * List.length x')%nat). specialize (Q n c ltac:(lia)). specialize (Q' n c' ltac:(lia)). rewrite XE, Q' in Q. apply ok_inj in Q. injection Q as -> ->. f_equal. exact (IH _ F1 F2 _ C C').
Qed.
Lemma exhaleD_inj : forall m m' r, Forall fieldOk m -> Forall fieldOk m' -> exhale strict [L] m = Ok r -> exhale strict [L] m' = Ok r -> m = m'.
Proof.
  intros m m' r F F' H H'. unfold exhale in *. apply bind_ok in H. destruct H as (b & B & H). apply bind_ok in H'. destruct H' as (b' & B' & H').
  destruct (c42_enclose_frames _ _ _ _ H) as (c & S1 & _). destruct (c42_enclose_frames _ _ _ _ H') as (c' & S2 & _). specialize (S1 []). specialize (S2 []). rewrite S1 in S2. apply ok_inj in S2. injection S2 as _ S2. rewrite !app_nil_r in S2. subst b'.
  exact (fieldsD_inj _ _ F F' _ B B').
Qed.
End Bind.
Lemma plain_fields : forall m L dum, plainMap m -> In L (keysOf m) -> Forall (fieldOk L dum) (dset m L (VStr dum)).
Proof.
  intros m L dum [ND P] I. induction m as [|[l v] m IH]; [destruct I|]. cbn [map fst fold_right snd] in *. destruct P as (U & Pv & P). inversion ND as [|? ? N1 ND1]; subst. cbn [dset].
  assert (G : ~ In L (map fst m) -> Forall (fieldOk L dum) m).
  { clear -P. intros N. induction m as [|[k x] m IH]; [constructor|]. cbn [map fst fold_right snd] in *. destruct P as (U & Px & P). constructor; [|apply IH; [exact P|intros I; apply N; right; exact I]].
    split; [exact U|]. cbn [fst snd]. destruct (beq_spec k L) as [-> |]; [exfalso; apply N; left; reflexivity|exact Px]. }
  destruct (beq_spec L l) as [-> |Nl].
  - constructor; [split; [exact U|cbn [fst snd]; rewrite beq_refl; reflexivity]|]. exact (G N1).
  - constructor; [split; [exact U|cbn [fst snd]]|].
    + destruct (beq_spec l L) as [-> |]; [congruence|exact Pv].
    + apply IH; [exact ND1|exact P|]. destruct I as [E|I]; [cbn in E; congruence|exact I].
Qed.
Theorem native_binds : forall digest strict L dflt a b q, digest_ok digest -> plainMap a -> plainMap b ->
  mapperVerify digest exhale strict [(L, dflt)] a = Ok tt -> mapperVerify digest exhale strict [(L, dflt)] b = Ok tt ->
  dget a L = Some (VStr q) -> dget b L = Some (VStr q) -> a = b \/ collision digest.
Proof.
  intros digest strict L dflt a b q Hd Pa Pb A B Ga Gb.
  destruct (verify_inv digest exhale Hd L dflt strict a) as (qa & ra & E1 & Da & (I1 & Xa & _)); [congruence|exact A|]. destruct (verify_inv digest exhale Hd L dflt strict b) as (qb & rb & E2 & Db & (_ & Xb & _)); [congruence|exact B|].
  rewrite Ga in E1. injection E1 as <-. rewrite Gb in E2. injection E2 as <-. rewrite Xa in Xb. injection Xb as Ed. destruct (list_eq_dec N.eq_dec ra rb) as [-> |N].
  - left. assert (E : dset a L (dummy (CpModel.fullSize (codeFor dflt (VStr q)))) = dset b L (dummy (CpModel.fullSize (codeFor dflt (VStr q))))).
    { eapply exhaleD_inj; [| |exact Da|exact Db]; apply plain_fields; try assumption; [apply dget_In in Ga; exact (in_map fst _ _ Ga)|apply dget_In in Gb; exact (in_map fst _ _ Gb)]. }
    rewrite <- (dset_same a L (VStr q) Ga), <- (dset_same b L (VStr q) Gb). rewrite <- (dset_dset a L (dummy (CpModel.fullSize (codeFor dflt (VStr q)))) (VStr q)), E, dset_dset. reflexivity.
  - right. exists (codeFor dflt (VStr q)), ra, rb. split; [exact I1|]. split; assumption.
Qed.

(** ** Binary *)
Lemma four_nat : forall (s : bytes), len s mod 4 = 0 -> exists k, List.length s = (4 * k)%nat.
Proof. intros s H. unfold len in H. exists (N.to_nat (N.of_nat (List.length s) / 4)). lia. Qed.
Theorem map_binary : forall strict m q t, plainMap m -> exhale strict [] m = Ok q -> exists b, qb2 q = Ok b /\ octets b /\ encodeB64 b = q /\ 4 * len b = 3 * len q /\ mapperReadB strict (b ++ t) = Ok m.
Proof.
  intros strict m q t P H. destruct (map_round_trip strict m q [] P H) as (T & F & R). rewrite app_nil_r in R. destruct (four_nat q F) as (k & K). destruct (decode_text k q T K) as (b & D & O & LB & E & _).
  exists b. split; [exact D|]. split; [exact O|]. split; [exact E|]. split; [unfold len; lia|].
  unfold exhale in H. apply bind_ok in H. destruct H as (bdy & B & H).
  destruct (enclose_head _ _ _ (or_intror eq_refl) H) as (F4 & h & c & r & Eq & H1 & H2 & H3 & H4 & HC & (sz & HS1 & HS2) & _ & _ & _ & _ & CO & CI).
  destruct (c39_binary_round_trip _ _ _ _ CO) as (h' & hb & I1 & I2 & I3 & I4 & I5 & I6). rewrite CI in I1. apply ok_inj in I1. subst h'.
  assert (TB : b64text bdy) by (rewrite Eq in T; apply b64text_app in T; tauto).
  destruct (four_nat bdy F4) as (k2 & K2). destruct (decode_text k2 bdy TB K2) as (bb & D2 & O2 & LB2 & E2 & _).
  destruct (four_nat h H2) as (k1 & K1). destruct (decode_text k1 h H1 K1) as (hb' & D1 & O1 & LB1 & E1 & _). rewrite I4 in D1. apply ok_inj in D1. subst hb'.
  assert (EB : b = hb ++ bb).
  { assert (X : encodeB64 (hb ++ bb) = q) by (rewrite (encodeB64_app3 k1), E1, E2 by exact LB1; symmetry; exact Eq).
    assert (Y : decodeB64 (encodeB64 (hb ++ bb)) = Ok (hb ++ bb)) by (apply (decode_encode (k1 + k2)); [apply Forall_app; auto|rewrite app_length; lia]).
    rewrite X, D in Y. apply ok_inj in Y. exact Y. }
  unfold mapperReadB. specialize (I6 (bb ++ t)). unfold counter_bstrip in I6. rewrite app_assoc, <- EB in I6. apply bind_ok in I6. destruct I6 as (c' & C1 & I6). apply bind_ok in I6. destruct I6 as (sz' & C2 & I6). apply ok_inj in I6. injection I6 as -> _. rewrite C1. cbn [bind]. rewrite HS1. cbn [bind].
  assert (LL : byteCount_bny c + cfs sz * 3 / 4 = len b).
  { unfold byteCount_bny, byteCount_txt in *. rewrite HS2, EB, len_app. unfold len in *. lia. }
  rewrite LL, ntake_len_app, E. unfold mapperRead in R. rewrite <- (app_nil_r q) in R at 1. rewrite HC in R. cbn [bind] in R. rewrite HS1 in R. cbn [bind] in R.
  rewrite ntake_all in R; [exact R|]. rewrite H4, HS2, Eq, len_app. lia.
Qed.

(** ** Serialization fails only for sizes *)
Lemma infil_samelen : forall m m', m_code m' = m_code m -> m_raw m' = m_raw m -> len (m_soft m') = len (m_soft m) -> forall t', infil m' = Ok t' -> exists t, infil m = Ok t.
Proof.
  intros m m' C R S t' H. unfold infil in *. rewrite C, R in H. destruct (dget Sizes (m_code m)) as [sz|]; [|discriminate]. cbv zeta in *.
  assert (LB : len (both m' sz) = len (both m sz)) by (unfold both; rewrite C; rewrite !len_app, S; reflexivity).
  apply bind_ok in H. destruct H as (f & F & H). apply raise_if_ok in H. destruct H as [E _].
  destruct (fs sz) as [n|].
  - apply raise_if_ok in F. destruct F as [F1 F2]. rewrite F1. apply ok_inj in F2. subst f. cbn [bind]. rewrite len_app in E |- *. rewrite LB in E. rewrite E. eauto.
  - apply raise_if_ok in F. destruct F as [F1 F2]. rewrite F1. apply ok_inj in F2. subst f. cbn [bind]. rewrite len_app in E |- *. rewrite LB in E. rewrite E. eauto.
Qed.
Lemma exfil_infil : forall q m, exfil q = Ok m -> exists t, infil m = Ok t.
Proof.
  intros q m H. destruct (exfil_inv q m H) as (sz & F).
  set (m' := mkMatter (m_code m) (if fs sz then repeat 65 (List.length (m_soft m)) else m_soft m) (m_raw m)).
  assert (SL : len (m_soft m') = len (m_soft m)) by (unfold m'; cbn [m_soft]; destruct (fs sz); [unfold len; rewrite repeat_length|]; reflexivity).
  assert (W : wf_matter m').
  { exists sz. unfold m'. cbn [m_code m_soft m_raw]. split; [exact (xf_sz _ _ _ F)|]. split; [exact (xf_oct _ _ _ F)|]. pose proof (xf_raw _ _ _ F) as R. pose proof (xf_var _ _ _ F) as V. pose proof (xf_soft _ _ _ F) as S1.
    destruct (fs sz) as [f|]; [|auto]. split; [apply b64text_repeat_A|]. split; [unfold len in *; rewrite repeat_length; exact S1|exact R]. }
  destruct (wf_facts m' W) as (sz' & F' & _). eapply infil_samelen; [| |exact SL|exact (infil_text _ _ F')]; reflexivity.
Qed.
Lemma built_infil : forall m, built m -> exists q, infil m = Ok q.
Proof. intros m B. destruct (c01_text_layout m B) as (sz & q & _ & I & _). eauto. Qed.

(** fails at most for a size *)
Definition sized {A} (r : res A) : Prop := forall e, r = Err e -> sizeErr e.
Lemma sized_ok : forall {A} (a : A), sized (Ok a). Proof. intros A a e H. discriminate. Qed.
Lemma sized_bind : forall {A B} (r : res A) (f : A -> res B), sized r -> (forall a, r = Ok a -> sized (f a)) -> sized (bind r f).
Proof. intros A B r f R F e H. destruct r as [a|e']; [exact (F a eq_refl e H)|]. cbn in H. injection H as ->. exact (R e eq_refl). Qed.
Lemma var_sized : forall raw d x, varLetter x -> d = 52 \/ d = 53 \/ d = 54 -> sized (matter_of_raw raw [d; x] [] None).
Proof.
  intros raw d x Hx Hd e H. unfold matter_of_raw in H.
  assert (Z : exists sz, dget Sizes [d; x] = Some sz /\ fs sz = None).
  { destruct Hx as [-> |[-> | ->]], Hd as [-> |[-> | ->]]; eexists; (split; [vm_compute; reflexivity|reflexivity]). }
  destruct Z as (sz & Z1 & Z2). rewrite Z1, Z2 in H. cbv zeta in H. rewrite ntake_all in H by lia. rewrite N.eqb_refl in H. cbn [negb] in H.
  unfold varCode in H. replace (memN (nth 0 [d; x] 0) SmallVrzDex) with true in H by (destruct Hd as [-> |[-> | ->]]; reflexivity).
  destruct (_ <=? 64 ^ 2 - 1); [discriminate|]. destruct (_ <=? 64 ^ 4 - 1); [discriminate|]. cbn [bind] in H. injection H as <-. right. reflexivity.
Qed.
Lemma rawify_total : forall s, Reb64 s = true -> exists raw, rawify s true = Ok raw /\ octets raw.
Proof.
  intros s Hs. apply Reb64_b64text in Hs. destruct (b64raw _ (escape_text s true Hs)) as (raw & R1 & R2 & _). exists raw. split; [|exact R2]. rewrite rawify_true. exact R1.
Qed.
Lemma var_label : forall raw d x m, x = 65 \/ x = 66 -> d = 52 \/ d = 53 \/ d = 54 -> matter_of_raw raw [d; x] [] None = Ok m -> inLabelDex m = Ok m.
Proof.
  intros raw d x m Hx Hd M. destruct (var_raw raw d x m) as (_ & C & _); [unfold varLetter; tauto|exact Hd|exact M|]. unfold inLabelDex.
  replace (memB (m_code m) LabelDex) with true; [reflexivity|]. cbn [varCodes In] in C. destruct Hx as [-> | ->]; destruct C as [<-|[<-|[<-|[<-|[<-|[<-|[]]]]]]]; vm_compute; reflexivity.
Qed.
Lemma compact_sized : forall s, Reb64 s = true -> s <> [] -> sized (m <- compact s ;; inLabelDex m).
Proof.
  intros s Hs Hn. unfold compact. destruct (tag_codify s) as [code|ex] eqn:Et.
  - assert (L : 1 <= len s <= 11).
    { unfold tag_codify in Et. cbv zeta in Et. change (len TagDex) with 11 in Et. destruct ((len s <? 1) || (11 <? len s)) eqn:E; [discriminate|lia]. }
    destruct (c08_tag_round_trip s [] Hs L) as (m' & q & A & B & C & _). unfold tagger_of_tag in A. destruct s as [|x r]; [congruence|].
    rewrite Hs in A. cbn [negb] in A. rewrite Et in A. cbn [bind] in A. destruct (matter_of_soft code (x :: r)) as [m|]; [|discriminate]. cbn [bind] in A |- *.
    destruct (negb (special (m_code m)) || negb (memB (m_code m) TagDex)) eqn:E; [discriminate|]. apply orb_false_iff in E. destruct E as [_ E]. apply negb_false_iff in E.
    unfold inLabelDex. replace (memB (m_code m) LabelDex) with true; [apply sized_ok|]. symmetry. apply memB_In in E. apply memB_true. right. apply in_or_app. left. exact E.
  - destruct (rawify_total s Hs) as (raw & R & _). rewrite R. cbn [bind]. destruct (strCode_cases s) as (d & Ed & Hd). rewrite Ed.
    apply sized_bind; [apply var_sized; [left; reflexivity|exact Hd]|]. intros m M. rewrite (var_label raw d 65 m (or_introl eq_refl) Hd M). apply sized_ok.
Qed.
Lemma labeler_text_sized : forall s, sized (labeler_text s).
Proof.
  intros s. unfold labeler_text. destruct (Reb64 s) eqn:B.
  - destruct s as [|x s]; [vm_compute; intros e H; discriminate|]. apply compact_sized; [exact B|discriminate].
  - destruct (N.eqb_spec (len s) 1) as [E1|E1]; [|destruct (N.eqb_spec (len s) 2) as [E2|E2]].
    + erewrite fixed_raw; [|vm_compute; reflexivity|reflexivity|reflexivity|rewrite E1; reflexivity|discriminate]. vm_compute. intros e H. discriminate.
    + erewrite fixed_raw; [|vm_compute; reflexivity|reflexivity|reflexivity|rewrite E2; reflexivity|discriminate]. vm_compute. intros e H. discriminate.
    + apply sized_bind; [apply var_sized; [right; left; reflexivity|left; reflexivity]|]. intros m M. rewrite (var_label s 52 66 m (or_intror eq_refl) (or_introl eq_refl) M). apply sized_ok.
Qed.
Lemma labeler_text_built : forall s m, octets s -> labeler_text s = Ok m -> built m.
Proof.
  intros s m O8 H. unfold labeler_text in H. apply bind_ok in H. destruct H as (m' & C & H). apply inLabelDex_ok in H. destruct H as [-> L].
  destruct (Reb64 s) eqn:B.
  - destruct s as [|x s]; [eapply built_raw; [constructor|exact C]|]. exact (proj1 (compact_ok (x :: s) m' B ltac:(discriminate) C)).
  - eapply built_raw; [exact O8|exact C].
Qed.
Lemma txt_sized : forall s, utf8 s = true -> sized (txt s).
Proof.
  intros s U. unfold txt. apply sized_bind; [apply labeler_text_sized|]. intros m M. apply labeler_text_built in M; [|exact (utf8_octets _ U)]. destruct (built_infil _ M) as (q & ->). apply sized_ok.
Qed.
Lemma serText_sized : forall s, utf8 s = true -> sized (serText s).
Proof.
  intros s U. unfold serText. destruct (exfil s) as [p|ex] eqn:X; [|exact (txt_sized _ U)]. destruct (exfil_infil _ _ X) as (t & ->). cbn [bind]. destruct (negb (len t =? len s)); [exact (txt_sized _ U)|].
  destruct (memB (m_code p) EscapeDex); [|apply sized_ok]. destruct escape_prim as (e & q & _ & _ & ->). apply sized_ok.
Qed.
Lemma serLabel_sized : forall strict l, utf8 l = true -> legalLabel strict l -> sized (serLabel strict l).
Proof.
  intros strict l U Lg. unfold serLabel. destruct strict; cbn [legalLabel] in Lg.
  - destruct Lg as [R N]. assert (B : Reb64 l = true) by (destruct (Reatt_last _ R) as [B|(r & E & _)]; [exact B|exfalso; exact (N r E)]).
    assert (E : labeler_label l = (m <- compact l ;; inLabelDex m)) by (unfold labeler_label; destruct l as [|x l]; [discriminate|]; rewrite R; reflexivity). rewrite E.
    assert (Nl : l <> []) by (destruct l; [discriminate|discriminate]).
    apply sized_bind; [apply compact_sized; assumption|]. intros m M. rewrite <- E in M. destruct (built_infil m (proj1 (labeler_label_ok _ _ M))) as (q & ->). apply sized_ok.
  - apply (txt_sized _ U).
Qed.
Lemma enclose_sized : forall name bdy, name = s2b "GenericListGroup" \/ name = s2b "GenericMapGroup" -> len bdy mod 4 = 0 -> sized (enclose V20 name bdy).
Proof.
  intros name bdy Hn H4 e H. unfold enclose in H. rewrite H4 in H. change (negb (0 =? 0)) with false in H. cbn iota in H.
  destruct (counter_of V20 name (len bdy / 4)) as [c|ex] eqn:C.
  - exfalso. cbn [bind] in H. change (vmajor V20 <? 2) with false in H. cbn [andb] in H. destruct (c39_text_round_trip _ _ _ _ C) as (_ & _ & q & Q & _). rewrite Q in H. discriminate.
  - cbn [bind] in H. injection H as <-. left. unfold counter_of in C. destruct (ctables V20) as [[codes sizes]|] eqn:T; [|vm_compute in T; discriminate]. cbn [bind] in C.
    assert (LK : exists x, lookCode codes sizes name = Ok ([45; x], mkC 2 2 4) /\ (x = 74 \/ x = 73)).
    { apply ok_inj in T. injection T as <- <-. destruct Hn as [-> | ->]; [exists 74|exists 73]; (split; [vm_compute; reflexivity|tauto]). }
    destruct LK as (x & LK & Hx). rewrite LK in C. cbn [bind chs css cfs] in C. change ((2 <? 2) || negb (4 =? 2 + 2) || negb ((2 + 2) mod 4 =? 0)) with false in C. cbn iota in C.
    assert (E : exists code ss, (code = [45; x] \/ code = [45; 45; x]) /\ (raise_if (64 ^ ss - 1 <? len bdy / 4) InvalidVarIndexError (name <- nameOf codes code ;; Ok (mkCtr V20 code (len bdy / 4) name))) = Err ex).
    { change (nth 1 [45; x] 0) with x in C. replace (negb (digits_ x)) with true in C by (destruct Hx as [-> | ->]; reflexivity). change (negb ((2 =? 2) || (2 =? 5))) with false in C. cbn iota in C.
      replace (negb (x =? 45)) with true in C by (destruct Hx as [-> | ->]; reflexivity). cbn [andb] in C. destruct (64 ^ 2 - 1 <? len bdy / 4); cbn [bind] in C; eexists _, _; (split; [|exact C]); tauto. }
    destruct E as (code & ss & EC & E). destruct (64 ^ ss - 1 <? len bdy / 4); [injection E as <-; reflexivity|]. exfalso.
    assert (Nm : exists nm, nameOf codes code = Ok nm).
    { apply ok_inj in T. injection T as <- <-. destruct Hx as [-> | ->], EC as [-> | ->]; eexists; vm_compute; reflexivity. }
    destruct Nm as (nm & Nm). rewrite Nm in E. discriminate.
Qed.
Section S.
Variable strict : bool.
Lemma int_sized : forall z, sized (m <- decimer_of_dec noFloat (DInt z) ;; infil m).
Proof.
  intros z. destruct (dec_ok noFloat z) as (A & B & C & D). apply sized_bind.
  - unfold decimer_of_dec, decimer_of_dns. cbn [decText]. rewrite A. cbn [bind]. destruct (b64raw _ B) as (raw & R1 & R2 & _). rewrite decRaw_text. cbn [decText]. rewrite R1. cbn [bind].
    apply sized_bind; [apply (var_sized raw 52 72); [right; right; reflexivity|left; reflexivity]|]. intros m M. destruct (var_raw raw 52 72 m (or_intror (or_intror eq_refl)) (or_introl eq_refl) M) as (_ & M2 & _).
    replace (memB (m_code m) DecDex) with true; [apply sized_ok|]. symmetry. apply memB_true. exact M2.
  - intros m M. destruct (built_infil m (proj1 (decimer_int_ok _ _ _ M))) as (q & ->). apply sized_ok.
Qed.
Lemma serialize_sized : forall v, plain v -> legal strict v -> sized (serialize strict v).
Proof.
  induction v as [| b | z | s | l IH | m IH] using val_ind'; intros P Lg.
  - vm_compute. intros e H. discriminate.
  - destruct b; vm_compute; intros e H; discriminate.
  - apply int_sized.
  - apply serText_sized. exact (proj1 P).
  - rewrite ser_list. apply sized_bind.
    + cbn [plain legal] in P, Lg. induction IH as [|v l Hv F IHl]; [apply sized_ok|]. cbn [fold_right] in P, Lg. cbn [serElems]. apply sized_bind; [apply Hv; tauto|]. intros a _. apply sized_bind; [apply IHl; tauto|]. intros b _. apply sized_ok.
    + intros bdy B. apply enclose_sized; [left; reflexivity|]. refine (proj1 (proj2 (elems_read strict l _ P bdy B))). apply Forall_forall. intros v _. apply serialize_framed.
  - rewrite ser_map. destruct P as [ND P]. apply sized_bind.
    + cbn [legal] in Lg. clear ND. induction IH as [|[k v] m Hv F IHm]; [apply sized_ok|]. cbn [fold_right fst snd] in P, Lg, Hv. cbn [serFields]. apply sized_bind; [apply serLabel_sized; tauto|]. intros kk _. apply sized_bind; [apply Hv; tauto|]. intros a _. apply sized_bind; [apply IHm; tauto|]. intros b _. apply sized_ok.
    + intros bdy B. apply enclose_sized; [right; reflexivity|]. refine (proj1 (proj2 (fields_read strict m _ P bdy B))). apply Forall_forall. intros v _. apply serialize_framed.
Qed.
Lemma catchIV_sized : forall {A} e (r : res A), sized r -> sized (catchIV e r).
Proof. intros A e [a|ex] R; [apply sized_ok|]. destruct (R ex eq_refl) as [-> | ->]; exact R. Qed.
Theorem exhale_sized : forall m, plainMap m -> legal strict (VMap m) -> sized (exhale strict [] m).
Proof.
  intros m [ND P] Lg. cbn [legal] in Lg. unfold exhale. apply sized_bind.
  - clear ND. induction m as [|[k v] m IHm]; [apply sized_ok|]. cbn [fold_right fst snd] in P, Lg. cbn [exhaleFields]. apply sized_bind; [apply catchIV_sized|].
    + apply sized_bind; [apply serLabel_sized; tauto|]. intros kk _. apply sized_bind; [cbn [memB existsb]; apply serialize_sized; tauto|]. intros a _. apply sized_ok.
    + intros a _. apply sized_bind; [apply IHm; tauto|]. intros b _. apply sized_ok.
  - intros bdy B. apply enclose_sized; [right; reflexivity|]. apply exhale_fields in B. refine (proj1 (proj2 (fields_read strict m _ P bdy B))). apply Forall_forall. intros v _. apply serialize_framed.
Qed.
End S.

(** ** Numbers *)
Lemma int_refused : forall pf z e, decimer_of_dec pf (DInt z) = Err e -> sizeErr e.
Proof.
  intros pf z e H. apply (int_sized z e). unfold decimer_of_dec, decimer_of_dns in *. destruct (dec_ok pf z) as (A & _). destruct (dec_ok noFloat z) as (B & _). cbn [decText] in *. rewrite A in H. rewrite B. cbn [bind] in *. rewrite H. reflexivity.
Qed.
Lemma decimer_float_ok : forall pf r m, floatText pf r -> decimer_of_dec pf (DFloat r) = Ok m -> built m /\ dnsOf m = Ok r /\ decimal pf m = Ok (DFloat r) /\ memB (m_code m) DecDex = true.
Proof.
  intros pf r m (C & PI & PF) H.
  assert (P : decParse pf r = Ok (DFloat r)) by (unfold decParse; rewrite PI, PF; reflexivity).
  assert (M : Forall (fun x => In x [45;48;49;50;51;52;53;54;55;56;57;112;101;105;110;102;97]) (map toB64 r)).
  { clear -C. induction C as [|x l Hx F IH]; [constructor|]. cbn [map]. constructor; [|exact IH]. unfold toB64. destruct (N.eqb_spec x 46); cbn; lia. }
  refine (decimer_ok pf r (DFloat r) m P eq_refl _ _ _ H).
  - unfold b64text. eapply Forall_impl; [|exact M]. intros x A. cbv beta in A. cbn in A. repeat (destruct A as [<-|A]; [discriminate|]). contradiction.
  - intros [A _]. destruct (map toB64 r) as [|x l]; [discriminate|]. apply Forall_inv in M. cbn in A. injection A as ->. cbn in M. repeat (destruct M as [M|M]; [discriminate|]). contradiction.
  - intros I1. rewrite Forall_forall in C. specialize (C _ I1). cbv beta in C. lia.
Qed.

(** ** Two maps with one said *)
Definition twin (q : bytes) (x : string) : sad := [(s2b "d", VStr q); (s2b "x", VStr (s2b x))].
Lemma twin_text : forall digest ser q x, digest_ok digest -> isDigestOf digest (s2b "E") ser q -> len q = 44 -> x = "MA+/"%string \/ x = "MA-_"%string ->
  exhale true [] (twin q x) = Ok (s2b "-IAO" ++ s2b "0J_d" ++ q ++ s2b "0J_xMA-_").
Proof.
  intros digest ser q x Hd (I1 & X & F) Lq Hx.
  assert (S1 : serText q = Ok q).
  { unfold serText. rewrite X, F. cbn [bind]. rewrite N.eqb_refl. cbn [negb m_code]. replace (memB (s2b "E") EscapeDex) with false by (vm_compute; reflexivity). reflexivity. }
  assert (S2 : serText (s2b x) = Ok (s2b "MA-_")) by (destruct Hx as [-> | ->]; vm_compute; reflexivity).
  assert (LD : serLabel true (s2b "d") = Ok (s2b "0J_d")) by (vm_compute; reflexivity).
  assert (LX : serLabel true (s2b "x") = Ok (s2b "0J_x")) by (vm_compute; reflexivity).
  unfold exhale, twin. cbn [exhaleFields]. rewrite LD, LX. cbn [bind memB existsb serialize catchIV]. rewrite S1, S2. cbn [bind].
  unfold catchIV. cbn [bind].   match goal with |- enclose _ _ ?b = _ => set (bdy := b); assert (EB : bdy = s2b "0J_d" ++ q ++ s2b "0J_xMA-_") by (unfold bdy; rewrite <- ?app_assoc; reflexivity); clearbody bdy; subst bdy; set (bdy := s2b "0J_d" ++ q ++ s2b "0J_xMA-_") end.
  assert (LB : len bdy = 56) by (unfold bdy; rewrite !len_app, Lq; reflexivity).
  unfold enclose. rewrite LB. change (negb (56 mod 4 =? 0)) with false. cbn iota.
  destruct (counter_of V20 (s2b "GenericMapGroup") (56 / 4)) as [c|] eqn:C; [|vm_compute in C; discriminate]. cbn [bind].
  replace (cinfil c) with (Ok (s2b "-IAO")) by (symmetry; vm_compute in C; apply ok_inj in C; subst c; vm_compute; reflexivity).
  change (vmajor V20 <? 2) with false. cbn [andb bind]. reflexivity.
Qed.
Theorem native_same_said : forall digest, digest_ok digest -> exists q,
  mapperVerify digest exhale true SaidsD (twin q "MA+/") = Ok tt /\ mapperVerify digest exhale true SaidsD (twin q "MA-_") = Ok tt /\ exhale true [] (twin q "MA+/") = exhale true [] (twin q "MA-_").
Proof.
  intros digest Hd.
  set (raw := s2b "-IAO0J_d############################################0J_xMA-_").
  assert (ME : In (s2b "E") DigDex) by (left; reflexivity).
  destruct (digerOf_ok digest (s2b "E") raw Hd ME ltac:(discriminate)) as (q & Q & D & Lq & _). change (if len (s2b "E") =? 1 then 44 else 88) with 44 in Lq.
  exists q.
  assert (V : forall x, x = "MA+/"%string \/ x = "MA-_"%string -> mapperVerify digest exhale true SaidsD (twin q x) = Ok tt).
  { intros x Hx. assert (MK : mapperMake digest exhale true SaidsD (twin [] x) = Ok (twin q x, SaidsD)).
    { unfold mapperMake. match goal with |- bind ?a _ = _ => assert (E1 : a = Ok ([(s2b "d", dummy 44); (s2b "x", VStr (s2b x))], SaidsD)) by reflexivity; rewrite E1 end. cbn [bind].
      match goal with |- bind ?a _ = _ => assert (E2 : a = Ok raw) by (destruct Hx as [-> | ->]; vm_compute; reflexivity); rewrite E2 end. cbn [bind].
      assert (E3 : fillMad digest SaidsD raw (twin [] x) = Ok (twin q x)) by (unfold SaidsD; cbn [fillMad]; change (hasKey (twin [] x) (s2b "d")) with true; cbn iota; rewrite Q; reflexivity). rewrite E3. cbn [bind].
      rewrite (twin_text digest raw q x Hd D Lq Hx). reflexivity. }
    refine (proj1 (make_verify digest exhale Hd (s2b "d") (s2b "E") true (twin [] x) _ _ _ MK)). discriminate. }
  split; [apply V; left; reflexivity|]. split; [apply V; right; reflexivity|]. rewrite !(twin_text digest raw q _ Hd D Lq) by tauto. reflexivity.
Qed.
