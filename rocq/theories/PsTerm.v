(** Termination of the parser on a complete buffer. *)
From Verif Require Import Prelude B64Model B64Proofs MatterModel MatterProofs IdxModel SubsModel VerModel VerThms CtrModel CtrProofs CtrThms KelModel PsModel PsSpec PsProofs.
Open Scope N_scope.
Ltac Zify.zify_post_hook ::= Z.div_mod_to_equations.

(** On buffers shorter than [k] the command comes to an end and does not lengthen the buffer. *)
Definition tame {A} (k : N) (c : com A) : Prop :=
  forall s, len (pb s) < k -> exists r s', resume c s = Done r s' /\ len (pb s') <= len (pb s).

Lemma tame_ret : forall {A} k (a : A), tame k (Ret a).
Proof. intros A k a s L. exists (Ok a), s. split; [reflexivity|lia]. Qed.
Lemma tame_raise : forall {A} k e, tame k (Raise e : com A).
Proof. intros A k e s L. exists (Err e), s. split; [reflexivity|lia]. Qed.
Lemma tame_lift : forall {A} k (r : res A), tame k (lift r).
Proof. intros A k r s L. exists r, s. split; [apply resume_lift|lia]. Qed.
Lemma tame_onres : forall {A B} k (c : com A) (h : res A -> com B), tame k c -> (forall r, tame k (h r)) -> tame k (onres c h).
Proof.
  intros A B k c h Hc Hh s L. destruct (Hc s L) as (r & s1 & R & L1). destruct (Hh r s1 ltac:(lia)) as (r2 & s2 & R2 & L2).
  exists r2, s2. split; [rewrite resume_onres, R; exact R2|lia].
Qed.
Lemma tame_bindc : forall {A B} k (c : com A) (h : A -> com B), tame k c -> (forall a, tame k (h a)) -> tame k (bindc c h).
Proof. intros A B k c h Hc Hh. apply tame_onres; [exact Hc|]. intros [a|e]; [apply Hh|apply tame_raise]. Qed.
Lemma tame_op : forall {B} k (f : pst -> option (res B * pst)),
  (forall s, len (pb s) < k -> exists r s', f s = Some (r, s') /\ len (pb s') <= len (pb s)) -> tame k (op f).
Proof. intros B k f H s L. destruct (H s L) as (r & s' & E & L'). exists r, s'. split; [rewrite resume_op, E; reflexivity|exact L']. Qed.
Ltac top := apply tame_op; intros s L; cbn.
Lemma tame_sniffOp : forall k, tame k sniffOp.
Proof. intros k. top. eexists _, _. split; [reflexivity|lia]. Qed.
Lemma tame_isEmpty : forall k, tame k isEmpty.
Proof. intros k. top. eexists _, _. split; [reflexivity|lia]. Qed.
Lemma tame_getV : forall k, tame k getV.
Proof. intros k. top. eexists _, _. split; [reflexivity|lia]. Qed.
Lemma tame_needSome : forall k, tame k (needSome true).
Proof. intros k. top. rewrite andb_false_r. eexists _, _. split; [reflexivity|lia]. Qed.
Lemma tame_consume : forall k n, tame k (consume n).
Proof. intros k n. top. eexists _, _. split; [reflexivity|]. cbn [pb]. rewrite len_ndrop. lia. Qed.
Lemma tame_setV : forall k v, tame k (setV v).
Proof.
  intros k v. top. destruct v as [v|]; [destruct (_ || _)|]; eexists _, _; (split; [reflexivity|cbn [pb]; lia]).
Qed.
Lemma tame_extractor : forall {X} k strip (get : CtrModel.versionage -> bytes -> res (X * bytes)),
  (forall v b x t, get v b = Ok (x, t) -> len t <= len b) -> tame k (extractor true strip get).
Proof.
  intros X k strip get H. top. destruct (get (pv s) (pb s)) as [[x t]|e] eqn:E.
  - eexists _, _. split; [reflexivity|]. apply H in E. destruct strip; cbn [pb]; lia.
  - destruct e; eexists _, _; (split; [reflexivity|lia]).
Qed.
Lemma tame_peek : forall k cl, tame k (peek cl true).
Proof.
  intros k cl. apply tame_extractor. intros v b x t H. destruct (counterAt_inv _ _ _ _ _ H) as (n & _ & _ & -> & _). rewrite len_ndrop. lia.
Qed.
Lemma tame_takeF : forall k n, tame k (takeF n true).
Proof. intros k n. top. rewrite andb_false_r. eexists _, _. split; [reflexivity|]. cbn [pb]. rewrite len_ndrop. lia. Qed.
Lemma tame_consumeCtr : forall k ct cl, tame k (consumeCtr ct cl).
Proof. intros k ct cl. apply tame_bindc; [apply tame_lift|]. intros n. apply tame_consume. Qed.
Lemma tame_inSub : forall {A} k sub (c : com A), len sub < k -> tame k c -> tame k (inSub sub c).
Proof.
  intros A k sub c Ls H. top. destruct (H (mkP (pv s) sub) Ls) as (r & s' & R & _). rewrite R. eexists _, _. split; [reflexivity|cbn [pb]; lia].
Qed.
Lemma tame_sized : forall {A} k enc (c : com A), tame k c -> tame k (sized enc c).
Proof. intros A k enc c H. apply tame_onres; [exact H|]. intros [a|e]; [apply tame_ret|]. destruct (isExtraction e && enc); apply tame_raise. Qed.
Lemma tame_restoring : forall {A} k vs (c : com A), tame k c -> tame k (restoring vs c).
Proof. intros A k vs c H. apply tame_onres; [exact H|]. intros r. apply tame_bindc; [apply tame_setV|]. intros []. apply tame_lift. Qed.
Lemma tame_takeX : forall k gs, tame k (op (fun s => if len (pb s) <? gs then if true then Some (Err ShortageError, s) else None
                        else Some (Ok (ntake gs (pb s)), mkP (pv s) (ndrop gs (pb s))))).
Proof. intros k gs. top. destruct (len (pb s) <? gs); eexists _, _; (split; [reflexivity|]); cbn [pb]; rewrite ?len_ndrop; lia. Qed.

(** a counter that was read is at least one byte long *)
Lemma counterAt_pos : forall cl v b ct t, counterAt cl v b = Ok (ct, t) ->
  exists n, byteSize ct cl = Ok n /\ 0 < n /\ n <= len b /\ t = ndrop n b.
Proof.
  intros cl v b ct t H. destruct (counterAt_inv _ _ _ _ _ H) as (n & B & L & E & V). exists n. split; [exact B|]. split; [|auto].
  assert (Z : exists sz, csize ct = Ok sz /\ 2 <= cfs sz /\ cfs sz mod 4 = 0).
  { unfold byteSize in B. apply bind_ok in B. destruct B as (sz & Z & _). exists sz. split; [exact Z|].
    unfold csize in Z. apply bind_ok in Z. destruct Z as ([codes sizes] & T & Z).
    destruct (dget sizes (c_code ct)) as [sz'|] eqn:D; [|discriminate]. apply ok_inj in Z. subst sz'.
    pose proof (csizes_wf _ _ _ _ _ T D) as [W1 W2 W3 W4 W5 W6 W7 W8]. lia. }
  destruct Z as (sz & Z & Z2 & Z4). unfold byteSize in B. rewrite Z in B. cbn [bind] in B.
  destruct cl; try discriminate; apply ok_inj in B; lia.
Qed.

(** matters and signatures do not lengthen; [shrinks]: they are at least one byte long *)
Lemma fullSize_pos : forall m f, fullSize m = Ok f -> 4 <= f.
Proof.
  intros m f H. unfold fullSize in H. destruct (dget Sizes (m_code m)) as [sz|] eqn:D; [|discriminate]. apply dget_In in D.
  assert (A : forallb (fun p => match fs (snd p) with Some f => 4 <=? f | None => 4 <=? hs (snd p) + ss (snd p) end) Sizes = true) by (vm_compute; reflexivity).
  rewrite forallb_forall in A. specialize (A _ D). cbn [snd] in A. destruct (fs sz) as [f'|].
  - apply ok_inj in H. lia.
  - destruct (m_soft m); [discriminate|]. apply bind_ok in H. destruct H as (i & _ & H). apply ok_inj in H. lia.
Qed.
Lemma exfil_nil : exfil [] = Err ShortageError. Proof. reflexivity. Qed.
Lemma bexfil_nil : bexfil [] = Err ShortageError. Proof. reflexivity. Qed.
Lemma ndrop_lt : forall n (b : bytes), 0 < n -> b <> [] -> len (ndrop n b) < len b.
Proof. intros n [|x b] H N; [congruence|]. rewrite len_ndrop. unfold len. cbn [List.length]. lia. Qed.
Lemma matAt_lt : forall kcheck k cl b m t, matAt kcheck k cl b = Ok (m, t) -> len t < len b.
Proof.
  intros kcheck k cl b m t H. unfold matAt in H. apply bind_ok in H. destruct H as ([m' t'] & H & H2).
  apply bind_ok in H2. destruct H2 as (u & _ & H2). apply ok_inj in H2. injection H2 as <- <-.
  destruct cl; try discriminate.
  - unfold matter_strip in H. apply bind_ok in H. destruct H as (m1 & E & H). apply bind_ok in H. destruct H as (f & F & H). apply ok_inj in H. injection H as _ <-.
    apply fullSize_pos in F. apply ndrop_lt; [lia|]. intros ->. discriminate E.
  - unfold matter_bstrip in H. apply bind_ok in H. destruct H as (m1 & E & H). apply bind_ok in H. destruct H as (f & F & H). apply ok_inj in H. injection H as _ <-.
    apply fullSize_pos in F. apply ndrop_lt; [lia|]. intros ->. discriminate E.
Qed.
Lemma iinfil_pos : forall x q, iinfil x = Ok q -> 0 < len q.
Proof.
  intros x q H. unfold iinfil in H. destruct (dget ISizes (i_code x)) as [sz|] eqn:D; [|discriminate]. apply dget_In in D.
  assert (A : forallb (fun p => 1 <=? len (fst p)) ISizes = true) by (vm_compute; reflexivity).
  rewrite forallb_forall in A. specialize (A _ D). cbn [fst] in A. apply bind_ok in H. destruct H as (f & _ & H).
  apply raise_if_ok in H. destruct H as [_ H]. apply raise_if_ok in H. destruct H as [_ H]. apply raise_if_ok in H. destruct H as [_ H].
  apply raise_if_ok in H. destruct H as [_ H]. apply raise_if_ok in H. destruct H as [_ H]. apply ok_inj in H. subst q. unfold iboth. rewrite !len_app. lia.
Qed.
Lemma ibinfil_pos : forall x q, ibinfil x = Ok q -> 0 < len q.
Proof.
  intros x q H. unfold ibinfil in H. destruct (dget ISizes (i_code x)) as [sz|] eqn:D; [|discriminate]. apply dget_In in D.
  assert (A : forallb (fun p => (1 <=? xhs (snd p))) ISizes = true) by (vm_compute; reflexivity).
  rewrite forallb_forall in A. specialize (A _ D). cbn [snd] in A.
  apply raise_if_ok in H. destruct H as [_ H]. apply raise_if_ok in H. destruct H as [_ H]. apply bind_ok in H. destruct H as (f & _ & H).
  apply raise_if_ok in H. destruct H as [_ H]. apply raise_if_ok in H. destruct H as [_ H]. apply bind_ok in H. destruct H as (bc & B & H).
  apply raise_if_ok in H. destruct H as [_ H]. apply ok_inj in H. subst q. apply bind_ok in B. destruct B as (i & _ & B). rewrite len_app.
  assert (0 < len bc); [|lia]. unfold int_to_bytes in B. destruct (_ <? _); [|discriminate]. apply ok_inj in B. subst bc.
  unfold len. rewrite to_digits_length. unfold sceil34. lia.
Qed.
Lemma sigAt_lt : forall cl b x t, sigAt cl b = Ok (x, t) -> len t < len b.
Proof.
  intros cl b x t H. destruct cl; try discriminate; cbn [sigAt] in H.
  - unfold siger_strip in H. apply bind_ok in H. destruct H as ([x1 t1] & H & H2). apply bind_ok in H2. destruct H2 as (x2 & _ & H2). apply ok_inj in H2. injection H2 as _ <-.
    unfold indexer_strip in H. apply bind_ok in H. destruct H as (x3 & E & H). apply bind_ok in H. destruct H as (q & Q & H). apply ok_inj in H. injection H as _ <-.
    apply iinfil_pos in Q. apply ndrop_lt; [exact Q|]. intros ->. discriminate E.
  - unfold siger_bstrip in H. apply bind_ok in H. destruct H as ([x1 t1] & H & H2). apply bind_ok in H2. destruct H2 as (x2 & _ & H2). apply ok_inj in H2. injection H2 as _ <-.
    unfold indexer_bstrip in H. apply bind_ok in H. destruct H as (x3 & E & H). apply bind_ok in H. destruct H as (q & Q & H). apply ok_inj in H. injection H as _ <-.
    apply ibinfil_pos in Q. apply ndrop_lt; [exact Q|]. intros ->. discriminate E.
Qed.

(** The fuel of [sigsAll] and [elemsP] does not matter: every primitive is at least one byte long. *)
Lemma sigsAll_fuel : forall cl n m b, (List.length b <= n)%nat -> (List.length b <= m)%nat -> sigsAll n cl b = sigsAll m cl b.
Proof.
  intros cl. induction n as [|n IH]; intros m b Hn Hm.
  - destruct b; [destruct m; reflexivity|cbn in Hn; lia].
  - destruct b as [|x b]; [destruct m; reflexivity|]. destruct m as [|m]; [cbn in Hm; lia|]. cbn [sigsAll].
    destruct (sigAt cl (x :: b)) as [[y t]|e] eqn:E; [|reflexivity]. cbn [bind]. apply sigAt_lt in E. unfold len in E. rewrite (IH m t) by lia. reflexivity.
Qed.
Definition shapeOk (sh : shape) : bool := match sh with SSig => true | SMat [] => false | SMat _ => true | SGrp _ => true end.
Lemma methods_shapeOk : forall ct, match methodOf ct with Some (M1 _ sh) | Some (M2 _ sh) => shapeOk sh = true | _ => True end.
Proof.
  assert (A : forallb (fun p => match snd p with M1 _ sh | M2 _ sh => shapeOk sh | MRaw _ => true end) (methods1 ++ methods2) = true) by (vm_compute; reflexivity).
  intros ct. rewrite forallb_forall in A. unfold methodOf.
  destruct (find _ _) as [[nm mt]|] eqn:F; [|exact Logic.I]. apply find_some in F. destruct F as [F _].
  assert (J : In (nm, mt) (methods1 ++ methods2)) by (apply in_or_app; destruct (_ =? 1); auto). specialize (A _ J). cbn [snd] in A. destruct mt; [exact A..|exact Logic.I].
Qed.
Lemma matsP_le : forall kcheck cl ks b ms t, matsP kcheck cl ks b = Ok (ms, t) -> len t <= len b /\ (ks <> [] -> len t < len b).
Proof.
  intros kcheck cl. induction ks as [|k ks IH]; intros b ms t H; cbn [matsP] in H.
  - apply ok_inj in H. injection H as _ <-. split; [lia|congruence].
  - apply bind_ok in H. destruct H as ([m b1] & M & H). apply bind_ok in H. destruct H as ([ms1 b2] & N1 & H). apply ok_inj in H. injection H as _ <-.
    apply matAt_lt in M. apply IH in N1. split; intros; lia.
Qed.
Lemma sigsN_le : forall cl n b xs t, sigsN cl n b = Ok (xs, t) -> len t <= len b.
Proof.
  intros cl. induction n as [|n IH]; intros b xs t H; cbn [sigsN] in H; [apply ok_inj in H; injection H as _ <-; lia|].
  apply bind_ok in H. destruct H as ([m b1] & M & H). apply bind_ok in H. destruct H as ([ms1 b2] & N1 & H). apply ok_inj in H. injection H as _ <-.
  apply sigAt_lt in M. apply IH in N1. lia.
Qed.
Lemma elemP_lt : forall kcheck v cl sh b x t, shapeOk sh = true -> elemP kcheck v cl sh b = Ok (x, t) -> len t < len b.
Proof.
  intros kcheck v cl sh b x t O1 H. destruct sh as [|ks|ks]; cbn [elemP] in H.
  - apply bind_ok in H. destruct H as ([m b1] & M & H). apply ok_inj in H. injection H as _ <-. exact (sigAt_lt _ _ _ _ M).
  - apply bind_ok in H. destruct H as ([m b1] & M & H). apply ok_inj in H. injection H as _ <-. apply matsP_le in M. apply M. intros ->. discriminate O1.
  - apply bind_ok in H. destruct H as ([m b1] & M & H). apply bind_ok in H. destruct H as ([xs b2] & G & H). apply ok_inj in H. injection H as _ <-. apply matsP_le in M.
    unfold groupSigs in G. apply bind_ok in G. destruct G as ([ct b3] & C & G). apply counterAt_pos in C. destruct C as (k & _ & P & Lk & ->).
    assert (D : len (ndrop k b1) < len b1) by (rewrite len_ndrop; lia).
    apply raise_if_ok in G. destruct G as [_ G]. destruct (_ =? 1); [apply sigsN_le in G; lia|].
    apply bind_ok in G. destruct G as (igs & _ & G). apply raise_if_ok in G. destruct G as [_ G]. apply bind_ok in G. destruct G as (ys & _ & G). apply ok_inj in G. injection G as _ <-.
    rewrite len_ndrop. lia.
Qed.
Lemma elemsP_fuel : forall kcheck v cl sh n m b, shapeOk sh = true -> (List.length b <= n)%nat -> (List.length b <= m)%nat -> elemsP kcheck n v cl sh b = elemsP kcheck m v cl sh b.
Proof.
  intros kcheck v cl sh n m b O1. revert m b. induction n as [|n IH]; intros m b Hn Hm.
  - destruct b; [destruct m; reflexivity|cbn in Hn; lia].
  - destruct b as [|x b]; [destruct m; reflexivity|]. destruct m as [|m]; [cbn in Hm; lia|]. cbn [elemsP].
    destruct (elemP kcheck v cl sh (x :: b)) as [[y t]|e] eqn:E; [|reflexivity]. cbn [bind]. apply elemP_lt in E; [|exact O1]. unfold len in E. rewrite (IH m t) by lia. reflexivity.
Qed.

Section Term.
Variable Ser : Type.
Variable sload : smellage -> bytes -> res Ser.
Variable nload : bool -> counter -> bytes -> res Ser.
Variable kcheck : klas -> matter -> res unit.
Local Notation exts := (exts Ser).
Local Notation reap := (reap Ser sload).
Local Notation reapOp := (reapOp Ser sload).
Local Notation attach := (attach Ser kcheck).
Local Notation attLoop := (attLoop Ser kcheck).
Local Notation attMethod := (attMethod Ser kcheck).
Local Notation body := (body Ser sload nload kcheck).
Local Notation msgP := (msgP Ser sload nload kcheck).
Local Notation frontC := (frontC Ser sload nload kcheck).
Local Notation groupStep := (groupStep Ser sload nload kcheck).

Lemma tame_matsC : forall k cl ks, tame k (matsC kcheck cl true ks).
Proof.
  intros k cl. induction ks as [|x ks IH]; cbn [matsC]; [apply tame_ret|].
  apply tame_bindc; [apply tame_extractor; intros v b y t H; apply matAt_lt in H; lia|]. intros m. apply tame_bindc; [exact IH|]. intros ms. apply tame_ret.
Qed.
Lemma tame_sigX : forall k cl, tame k (extractor true true (fun _ b => sigAt cl b)).
Proof. intros k cl. apply tame_extractor. intros v b y t H. apply sigAt_lt in H. lia. Qed.
Lemma tame_sigsC : forall k cl n, tame k (sigsC cl true n).
Proof.
  intros k cl. induction n as [|n IH]; cbn [sigsC]; [apply tame_ret|].
  apply tame_bindc; [apply tame_sigX|]. intros m. apply tame_bindc; [exact IH|]. intros ms. apply tame_ret.
Qed.
Lemma tame_elemsC : forall k cl sh n, tame k (elemsC kcheck cl true sh n).
Proof.
  intros k cl sh. induction n as [|n IH]; cbn [elemsC]; [apply tame_ret|]. apply tame_bindc.
  - destruct sh as [|ks|ks]; cbn [elemC].
    + apply tame_bindc; [apply tame_sigX|]. intros x. apply tame_ret.
    + apply tame_bindc; [apply tame_matsC|]. intros ms. apply tame_ret.
    + apply tame_bindc; [apply tame_matsC|]. intros ms. apply tame_bindc.
      { apply tame_extractor. intros v b y t H. apply counterAt_pos in H. destruct H as (m & _ & _ & _ & ->). rewrite len_ndrop. lia. }
      intros ct. destruct (negb (isIdxSigs ct)); [apply tame_raise|]. apply tame_bindc; [apply tame_sigsC|]. intros xs. apply tame_ret.
  - intros x. apply tame_bindc; [exact IH|]. intros xs. apply tame_ret.
Qed.
Lemma tame_attMethod : forall k ct cl e, tame k (attMethod ct cl true e).
Proof.
  intros k ct cl e. unfold PsModel.attMethod. destruct (methodOf ct) as [[f sh|f sh|f]|]; [| | |apply tame_raise].
  - apply tame_bindc; [apply tame_elemsC|]. intros xs. apply tame_ret.
  - apply tame_bindc; [apply tame_lift|]. intros gs. apply tame_bindc; [apply tame_takeX|]. intros g.
    apply tame_bindc; [apply tame_getV|]. intros v. apply tame_bindc; [apply tame_lift|]. intros xs. apply tame_ret.
  - apply tame_bindc; [apply tame_lift|]. intros gs. apply tame_bindc; [apply tame_takeX|]. intros g. apply tame_ret.
Qed.

(** [strict]: as [tame], and success shortens the buffer *)
Definition strict {A} (k : N) (c : com A) : Prop :=
  forall s, len (pb s) < k -> exists r s', resume c s = Done r s' /\ len (pb s') <= len (pb s) /\ (forall a, r = Ok a -> len (pb s') < len (pb s)).

Lemma peek_done : forall cl s, (exists ct n, resume (peek cl true) s = Done (Ok ct) s /\ byteSize ct cl = Ok n /\ 0 < n /\ n <= len (pb s) /\ counterAt cl (pv s) (pb s) = Ok (ct, ndrop n (pb s))) \/
  (exists e, resume (peek cl true) s = Done (Err e) s /\ counterAt cl (pv s) (pb s) = Err e).
Proof.
  intros cl s. rewrite resume_peek. destruct (counterAt cl (pv s) (pb s)) as [[ct t]|e] eqn:E.
  - left. destruct (counterAt_pos _ _ _ _ _ E) as (n & B & P & L & ->). exists ct, n. auto 6.
  - right. exists e. split; [destruct e; reflexivity|reflexivity].
Qed.

Lemma tame_attLoop : forall nest k, strict k (nest true) -> forall n cl enc e s, len (pb s) < k -> len (pb s) < N.of_nat n ->
  exists r s', resume (attLoop nest n cl true enc e) s = Done r s' /\ len (pb s') <= len (pb s).
Proof.
  intros nest k Hn. induction n as [|n IH]; intros cl enc e s Lk Ln; [lia|]. cbn [PsModel.attLoop]. rewrite orb_true_l, resume_bindc.
  assert (AG : forall e s1, len (pb s1) < len (pb s) -> exists r s', resume (emp <~ isEmpty ;;
        if emp then Ret e
        else if enc then attLoop nest n cl true enc e
        else cl' <~ sniffOp ;; match cl' with Cmsg => Ret e | _ => attLoop nest n cl' true enc e end) s1 = Done r s' /\ len (pb s') <= len (pb s1)).
  { intros e1 s1 L1. rewrite resume_bindc. unfold isEmpty. rewrite resume_op. destruct (isnil (pb s1)); [exists (Ok e1), s1; split; [reflexivity|lia]|].
    destruct enc; [apply IH; lia|]. rewrite resume_bindc, resume_sniff. destruct (sniff (pb s1)) as [cl'|x]; [|exists (Err x), s1; split; [reflexivity|lia]].
    destruct cl'; [exists (Ok e1), s1; split; [reflexivity|lia]| | |]; apply IH; lia. }
  destruct (peek_done cl s) as [(ct & m & P & B & Pm & Lm & C)|(x & P & C)]; rewrite P; [|exists (Err x), s; split; [reflexivity|lia]].
  destruct (isGenus ct || isGeneric ct || isOther ct).
  { destruct enc; eexists _, s; (split; [reflexivity|lia]). }
  destruct (isAttGroup ct).
  { rewrite B. rewrite resume_bindc. cbn [lift resume]. rewrite resume_bindc, resume_lift. destruct (byteCount ct cl) as [g|x]; [|exists (Err x), s; split; [reflexivity|lia]].
    rewrite resume_bindc. unfold takeF. rewrite resume_op, andb_false_r.
    destruct (AG e (mkP (pv s) (ndrop (m + g) (pb s)))) as (r & s' & R & L). { cbn [pb]. rewrite len_ndrop. lia. }
    exists r, s'. split; [exact R|]. cbn [pb] in L. rewrite len_ndrop in L. lia. }
  destruct (isBodyAtt ct || isBody ct).
  { destruct (negb enc); [exists (Ok e), s; split; [reflexivity|lia]|]. rewrite resume_bindc. destruct (Hn s Lk) as (r1 & s1 & R1 & L1 & St). rewrite R1.
    destruct r1 as [sub|x]; [|exists (Err x), s1; auto]. specialize (St sub eq_refl).
    destruct (AG (addNest Ser e sub) s1 St) as (r & s' & R & L). exists r, s'. split; [exact R|lia]. }
  rewrite resume_bindc, (resume_consumeCtr _ _ _ _ B), resume_bindc.
  destruct (tame_attMethod k ct cl e (mkP (pv s) (ndrop m (pb s)))) as (r1 & s1 & R1 & L1). { cbn [pb]. rewrite len_ndrop. lia. }
  rewrite R1. cbn [pb] in L1. rewrite len_ndrop in L1. destruct r1 as [e1|x]; [|exists (Err x), s1; split; [reflexivity|lia]].
  destruct (AG e1 s1 ltac:(lia)) as (r & s' & R & L). exists r, s'. split; [exact R|lia].
Qed.

Lemma tame_attach : forall nest k n enc vs e, strict k (nest true) -> k <= N.of_nat n -> tame k (attach nest n true enc vs e).
Proof.
  intros nest k n enc vs e Hn Kn. unfold PsModel.attach. apply tame_restoring, tame_sized. apply tame_bindc; [apply tame_needSome|]. intros [].
  apply tame_bindc; [apply tame_sniffOp|]. intros cl.
  assert (AL : forall cl enc e, tame k (attLoop nest n cl true enc e)) by (intros cl0 enc0 e0 s L; apply (tame_attLoop nest k Hn); lia).
  assert (X : tame k (ct <~ peek cl true ;;
        if isAttGroup ct then
          consumeCtr ct cl ;;;
          eags <~ lift (byteCount ct cl) ;;
          eims <~ takeF eags true ;;
          inSub eims (sized true (
            ct <~ peek cl true ;;
            if isGenus ct then
              consumeCtr ct cl ;;;
              v <~ getV ;;
              g <~ lift (genusOf ct) ;; 
              restoring (orOld vs v) (setV (Some g) ;;; attLoop nest n cl true true e)
            else attLoop nest n cl true true e))
        else attLoop nest n cl true enc e)).
  { apply tame_bindc; [apply tame_peek|]. intros ct. destruct (isAttGroup ct); [|apply AL]. apply tame_bindc; [apply tame_consumeCtr|]. intros [].
    apply tame_bindc; [apply tame_lift|]. intros eags s L. rewrite resume_bindc. unfold takeF. rewrite resume_op, andb_false_r.
    match goal with |- context [inSub ?b ?c] => pose proof (tame_inSub k b c) as T end.
    specialize (T ltac:(rewrite len_ntake; lia)).
    match type of T with ?P -> _ => assert (P) as Y end.
    { apply tame_sized, tame_bindc; [apply tame_peek|]. intros ct'. destruct (isGenus ct'); [|apply AL]. apply tame_bindc; [apply tame_consumeCtr|]. intros [].
      apply tame_bindc; [apply tame_getV|]. intros v. apply tame_bindc; [apply tame_lift|]. intros g. apply tame_restoring, tame_bindc; [apply tame_setV|]. intros []. apply AL. }
    destruct (T Y (mkP (pv s) (ndrop eags (pb s)))) as (r & s' & R & L'). { cbn [pb]. rewrite len_ndrop. lia. }
    exists r, s'. split; [exact R|]. cbn [pb] in L'. rewrite len_ndrop in L'. lia. }
  destruct cl; [apply tame_ret|exact X|exact X|exact X].
Qed.

Hypothesis Hempty : forall sm x, sload sm [] = Ok x -> False.
Hypothesis Htop : forall sm b, sload sm b = Err TopLevelStreamError -> False.

Lemma reap_lt : forall v b x t, reap v b = Ok (x, t) -> len t < len b.
Proof.
  intros v b x t H. unfold PsModel.reap in H. apply bind_ok in H. destruct H as (sm & _ & H). apply raise_if_ok in H. destruct H as [_ H].
  apply bind_ok in H. destruct H as (u & _ & H). apply raise_if_ok in H. destruct H as [_ H]. apply bind_ok in H. destruct H as (y & S1 & H). apply ok_inj in H. injection H as <- <-.
  assert (0 < s_size sm /\ b <> []) as [P N0].
  { split.
    - destruct (s_size sm) as [|p] eqn:E; [|lia]. exfalso. apply (Hempty sm y). rewrite <- S1. f_equal.
    - intros ->. apply (Hempty sm y). rewrite <- S1. f_equal. unfold ntake. destruct (N.to_nat (s_size sm)); reflexivity. }
  apply ndrop_lt; assumption.
Qed.

Lemma tame_body : forall k ct cl, tame k (body ct cl true).
Proof.
  intros k ct cl. unfold PsModel.body. destruct (isNonNative ct).
  - apply tame_bindc; [apply tame_consumeCtr|]. intros []. apply tame_bindc; [apply tame_extractor; intros v b y t H; apply matAt_lt in H; lia|].
    intros m. apply tame_bindc; [apply tame_getV|]. intros v. apply tame_bindc; [apply tame_lift|]. intros [x y]. apply tame_ret.
  - destruct (_ =? 1); [apply tame_raise|]. destruct (isFixBody ct || isMapBody ct); [|destruct (isGeneric ct); apply tame_raise].
    apply tame_bindc; [apply tame_lift|]. intros cbs. apply tame_bindc; [apply tame_lift|]. intros g. apply tame_bindc; [apply tame_takeF|]. intros b. apply tame_lift.
Qed.

(** the errors that say nothing about progress *)
Ltac errs := repeat match goal with
  | |- Ok _ = Err _ -> _ => discriminate
  | |- Err ?e = Err _ -> _ => injection 1 as <-; split; discriminate
  | |- context [match ?x with _ => _ end] => destruct x eqn:?
  end.
Definition plain (e : exn) : Prop := e <> TopLevelStreamError /\ e <> SizedGroupError.
Definition plainR {A} (r : res A) : Prop := forall e, r = Err e -> plain e.
Lemma plain_ok : forall {A} (a : A), plainR (Ok a).
Proof. intros A a e H. discriminate. Qed.
Lemma plain_bind : forall {A B} (r : res A) (f : A -> res B), plainR r -> (forall a, plainR (f a)) -> plainR (bind r f).
Proof. intros A B [a|e] f H K; [apply K|]. intros e' E. cbn in E. injection E as <-. apply H. reflexivity. Qed.
Lemma plain_if : forall {A} (b : bool) (x y : res A), plainR x -> plainR y -> plainR (if b then x else y).
Proof. intros A [] x y; auto. Qed.
Lemma plain_err : forall {A} e, plain e -> plainR (Err e : res A).
Proof. intros A e P e' E. injection E as <-. exact P. Qed.
Ltac pe := apply plain_err; split; discriminate.
Lemma plain_b64 : forall s, plainR (b64ToInt s).
Proof.
  intros s. unfold b64ToInt. destruct s; [pe|]. assert (X : forall l e i, plainR (b64ToInt_loop l e i)); [|apply X]. induction l as [|x l IH]; intros e i; cbn [b64ToInt_loop]; [apply plain_ok|].
  destruct (B64IdxByChr x); [apply IH|pe].
Qed.
Lemma plain_ascii : forall s, plainR (decode_ascii s).
Proof. intros s e H. unfold decode_ascii in H. destruct (forallb _ s); [discriminate|]. injection H as <-. split; discriminate. Qed.
Lemma plain_tables : forall v, plainR (ctables v).
Proof. intros v. unfold ctables. repeat (first [apply plain_if|apply plain_ok|pe]). Qed.
Lemma plain_name : forall c n, plainR (nameOf c n).
Proof. intros c n. unfold nameOf. match goal with |- context [find ?f ?l] => destruct (find f l) as [[]|] end; [apply plain_ok|pe]. Qed.
Lemma plain_csize : forall c, plainR (csize c).
Proof. intros c. unfold csize. apply plain_bind; [apply plain_tables|]. intros [a b]. destruct (dget b _); [apply plain_ok|pe]. Qed.
Lemma plain_b2 : forall b l, plainR (codeB2ToB64 b l).
Proof. intros b l. unfold codeB2ToB64. apply plain_if; [pe|apply plain_ok]. Qed.
Lemma plain_counterAt : forall cl v b, plainR (counterAt cl v b).
Proof.
  intros cl v b. destruct cl; try (cbn; pe); cbn [counterAt].
  - unfold counter_strip. apply plain_bind; [|intros c; apply plain_bind; [apply plain_csize|intros sz; apply plain_ok]].
    unfold cexfil. apply plain_bind; [apply plain_tables|]. intros [codes sizes]. apply plain_if; [pe|]. apply plain_bind; [apply plain_ascii|]. intros f.
    destruct (dget CHards f); [|apply plain_if; pe]. apply plain_if; [pe|]. apply plain_bind; [apply plain_ascii|]. intros h. destruct (dget sizes h); [|pe].
    apply plain_if; [pe|]. apply plain_bind; [apply plain_ascii|]. intros ?. apply plain_bind; [apply plain_b64|]. intros ?. apply plain_bind; [apply plain_name|]. intros. apply plain_ok.
  - unfold counter_bstrip. apply plain_bind; [|intros c; apply plain_bind; [apply plain_csize|intros sz; apply plain_ok]].
    unfold cbexfil. apply plain_bind; [apply plain_tables|]. intros [codes sizes]. apply plain_if; [pe|]. apply plain_bind; [unfold nabSextets; apply plain_if; [pe|]; unfold int_to_bytes; apply plain_if; [apply plain_ok|pe]|]. intros f.
    destruct (dget CBards f); [|pe]. apply plain_if; [pe|]. apply plain_bind; [apply plain_b2|]. intros h. destruct (dget sizes h); [|pe].
    apply plain_if; [pe|]. apply plain_bind; [apply plain_b2|]. intros ?. apply plain_bind; [apply plain_b64|]. intros ?. apply plain_bind; [apply plain_name|]. intros. apply plain_ok.
Qed.
Lemma plain_hex : forall s, plainR (hexint s).
Proof. intros s. unfold hexint. repeat (first [apply plain_ok|pe|apply plain_if|match goal with |- plainR (match ?x with _ => _ end) => destruct x end]). Qed.
Lemma plain_smell : forall b, plainR (smell b).
Proof.
  intros b. unfold smell. apply plain_if; [pe|]. destruct (search b 0) as [[st full]|]; [|pe]. apply plain_if; [pe|]. unfold rematch.
  repeat (first [apply plain_b64 | apply plain_hex | apply plain_ok | pe | apply plain_if | apply plain_bind; [|intros ?] ]).
Qed.
Lemma reap_top : forall v b, reap v b = Err TopLevelStreamError -> False.
Proof.
  intros v b H. unfold PsModel.reap in H. destruct (smell b) as [sm|e] eqn:S1; cbn [bind] in H.
  2:{ injection H as ->. destruct (plain_smell _ _ S1) as [P _]. congruence. }
  destruct (vmajor v <? fst (s_pvrsn sm)); [discriminate|].
  assert (Q : forall X : res unit, plainR X -> (_ <- X ;; (if len b <? s_size sm then Err ShortageError else x <- sload sm (ntake (s_size sm) b) ;; Ok (x, ndrop (s_size sm) b))) = Err TopLevelStreamError -> False).
  { clear H. intros X PX H. destruct X as [[]|e]; cbn [bind] in H; [|injection H as ->; destruct (PX _ eq_refl) as [P _]; congruence].
    destruct (len b <? s_size sm); [discriminate|]. destruct (sload sm (ntake (s_size sm) b)) as [x|e] eqn:L; [discriminate|]. cbn in H. injection H as ->. exact (Htop _ _ L). }
  refine (Q _ _ H). destruct (s_gvrsn sm); [|apply plain_ok]. repeat (first [apply plain_ok|pe|apply plain_if]).
Qed.

(** [c], started in [s], comes to an end with at most [L] bytes left, with fewer
    on success, and with fewer when it raises TopLevelStreamError unless [gen]. *)
Definition gd {A} (L : N) (gen : Prop) (c : com A) (s : pst) : Prop :=
  exists r s', resume c s = Done r s' /\ len (pb s') <= L /\ (forall a, r = Ok a -> len (pb s') < L) /\ (r = Err TopLevelStreamError -> len (pb s') < L \/ gen).
Lemma gd_tame : forall {A} k L gen (c : com A) s, tame k c -> len (pb s) < k -> len (pb s) < L -> gd L gen c s.
Proof. intros A k L gen c s T K Ls. destruct (T s K) as (r & s' & R & Le). exists r, s'. split; [exact R|]. split; [lia|]. split; [intros; lia|]. intros. left. lia. Qed.
Lemma gd_bind : forall {A B} L gen (c : com A) (h : A -> com B) s a s1, resume c s = Done (Ok a) s1 -> gd L gen (h a) s1 -> gd L gen (bindc c h) s.
Proof. intros A B L gen c h s a s1 R (r & s' & H & K). exists r, s'. rewrite resume_bindc, R. split; [exact H|exact K]. Qed.
Lemma gd_err : forall {A B} L gen (c : com A) (h : A -> com B) s e s1, resume c s = Done (Err e) s1 -> len (pb s1) <= L ->
  (e = TopLevelStreamError -> len (pb s1) < L \/ gen) -> gd L gen (bindc c h) s.
Proof.
  intros A B L gen c h s e s1 R Ls T. exists (Err e), s1. rewrite resume_bindc, R. split; [reflexivity|]. split; [exact Ls|]. split; [discriminate|].
  intros E. injection E as ->. apply T. reflexivity.
Qed.
Lemma gd_raise : forall {A} L gen e s, len (pb s) <= L -> (e = TopLevelStreamError -> len (pb s) < L \/ gen) -> gd L gen (Raise e : com A) s.
Proof. intros A L gen e s Ls T. exists (Err e), s. split; [reflexivity|]. split; [exact Ls|]. split; [discriminate|]. intros E. injection E as ->. apply T. reflexivity. Qed.
(** a command that ends with fewer bytes, followed by a tame one *)
Lemma gd_seq : forall {A B} k L gen (c : com A) (h : A -> com B) s, gd L gen c s -> (forall a, tame k (h a)) -> L <= k -> gd L gen (bindc c h) s.
Proof.
  intros A B k L gen c h s ([a|e] & s1 & R & Le & O1 & T1) Th K.
  - apply (gd_bind _ _ _ _ _ _ _ R). specialize (O1 a eq_refl). apply (gd_tame k); [apply Th|lia|lia].
  - apply (gd_err _ _ _ _ _ _ _ R); [exact Le|]. intros ->. apply T1. reflexivity.
Qed.

Definition genericFront (s : pst) : Prop :=
  exists cl ct t, sniff (pb s) = Ok cl /\ cl <> Cmsg /\ counterAt cl (pv s) (pb s) = Ok (ct, t) /\ isGeneric ct = true.

Lemma ndrop_le_lt : forall n (b : bytes), 0 < n -> n <= len b -> len (ndrop n b) < len b.
Proof. intros n b P L. rewrite len_ndrop. lia. Qed.
Lemma gd_body : forall ct cl n s, byteSize ct cl = Ok n -> 0 < n -> n <= len (pb s) -> gd (len (pb s)) (isGeneric ct = true) (body ct cl true) s.
Proof.
  intros ct cl n s B P L. unfold PsModel.body. pose proof (ndrop_le_lt n (pb s) P L) as Dn. destruct (isNonNative ct).
  - apply (gd_bind _ _ _ _ _ _ _ (resume_consumeCtr _ _ _ _ B)). apply (gd_tame (len (pb s))); [|cbn [pb]; lia|cbn [pb]; lia].
    apply tame_bindc; [apply tame_extractor; intros v b y t H; apply matAt_lt in H; lia|].
    intros m. apply tame_bindc; [apply tame_getV|]. intros v. apply tame_bindc; [apply tame_lift|]. intros [x y]. apply tame_ret.
  - destruct (_ =? 1); [apply gd_raise; [lia|discriminate]|]. destruct (isFixBody ct || isMapBody ct).
    + rewrite B. apply (gd_bind _ _ _ _ _ n s); [reflexivity|]. destruct (byteCount ct cl) as [g|e] eqn:C.
      * apply (gd_bind _ _ _ _ _ g s); [reflexivity|]. apply (gd_bind (len (pb s)) _ _ _ _ (ntake (n + g) (pb s)) (mkP (pv s) (ndrop (n + g) (pb s)))).
        { unfold takeF. rewrite resume_op, andb_false_r. reflexivity. }
        apply (gd_tame (len (pb s))); [apply tame_lift|cbn [pb]; rewrite len_ndrop; lia|cbn [pb]; rewrite len_ndrop; lia].
      * apply (gd_err _ _ _ _ _ e s); [reflexivity|lia|]. intros ->. destruct cl; discriminate C.
    + destruct (isGeneric ct); (apply gd_raise; [lia|]); [auto|discriminate].
Qed.
Lemma gd_weak : forall {A} L (g1 g2 : Prop) (c : com A) s, (g1 -> g2) -> gd L g1 c s -> gd L g2 c s.
Proof. intros A L g1 g2 c s W (r & s' & R & Le & O1 & T1). exists r, s'. split; [exact R|]. split; [exact Le|]. split; [exact O1|]. intros E. destruct (T1 E); auto. Qed.

Lemma gd_msgP : forall n s, len (pb s) < N.of_nat n -> gd (len (pb s)) (genericFront s) (msgP n true) s.
Proof.
  induction n as [|n IH]; intros s Ln; [lia|].
  assert (Nest : strict (N.of_nat n) (msgP n true)).
  { intros s1 L1. destruct (IH s1 L1) as (r & s' & R & Le & O1 & _). exists r, s'. auto. }
  cbn [PsModel.msgP]. set (L := len (pb s)) in *.
  assert (At : forall enc vs e, tame (N.of_nat n) (attach (msgP n) (S n) true enc vs e)) by (intros; apply (tame_attach (msgP n) _ _ _ _ _ Nest); lia).
  apply (gd_bind _ _ _ _ _ tt s). { unfold needSome. rewrite resume_op, andb_false_r. reflexivity. }
  destruct (sniff (pb s)) as [cl|e] eqn:Sn.
  2:{ apply (gd_err _ _ _ _ _ e s); [rewrite resume_sniff, Sn; reflexivity|unfold L; lia|]. intros ->. clear - Sn. unfold sniff in Sn. destruct (pb s); [discriminate|].
      repeat match type of Sn with (if ?x then _ else _) = _ => destruct x end; discriminate. }
  apply (gd_bind _ _ _ _ _ cl s); [rewrite resume_sniff, Sn; reflexivity|].
  (* what follows the optional genus version counter *)
  assert (Rest : forall s1, len (pb s1) < L -> gd L (genericFront s) (
     cl <~ sniffOp ;;
      match cl with
      | Cmsg => x <~ reapOp true ;; attach (msgP n) (S n) true false None (mkE Ser x [] [])
      | _ =>
          ct <~ peek cl true ;;
          if isBodyAtt ct then
            consumeCtr ct cl ;;;
            emgs <~ lift (byteCount ct cl) ;;
            eims <~ takeF emgs true ;;
            inSub eims (
              '(x, vs) <~ sized true (
                ct <~ peek cl true ;;
                if isGenus ct then
                  consumeCtr ct cl ;;;
                  v <~ getV ;;
                  g <~ lift (genusOf ct) ;; setV (Some g) ;;;
                  ct <~ peek cl true ;;
                  x <~ body ct cl true ;; Ret (x, Some v)
                else x <~ body ct cl true ;; Ret (x, None)) ;;
              attach (msgP n) (S n) true true vs (mkE Ser x [] []))
          else
            x <~ body ct cl true ;; attach (msgP n) (S n) true false None (mkE Ser x [] [])
      end) s1).
  { intros s1 L1. apply (gd_tame (N.of_nat n)); [|lia|exact L1]. apply tame_bindc; [apply tame_sniffOp|]. intros cl1.
    assert (X : tame (N.of_nat n) (ct <~ peek cl1 true ;;
          if isBodyAtt ct then
            consumeCtr ct cl1 ;;;
            emgs <~ lift (byteCount ct cl1) ;;
            eims <~ takeF emgs true ;;
            inSub eims (
              '(x, vs) <~ sized true (
                ct <~ peek cl1 true ;;
                if isGenus ct then
                  consumeCtr ct cl1 ;;;
                  v <~ getV ;;
                  g <~ lift (genusOf ct) ;; setV (Some g) ;;;
                  ct <~ peek cl1 true ;;
                  x <~ body ct cl1 true ;; Ret (x, Some v)
                else x <~ body ct cl1 true ;; Ret (x, None)) ;;
              attach (msgP n) (S n) true true vs (mkE Ser x [] []))
          else
            x <~ body ct cl1 true ;; attach (msgP n) (S n) true false None (mkE Ser x [] []))).
    { apply tame_bindc; [apply tame_peek|]. intros ct. destruct (isBodyAtt ct).
      - apply tame_bindc; [apply tame_consumeCtr|]. intros []. apply tame_bindc; [apply tame_lift|]. intros emgs s2 L2.
        rewrite resume_bindc. unfold takeF. rewrite resume_op, andb_false_r.
        match goal with |- context [inSub ?b ?c] => pose proof (tame_inSub (N.of_nat n) b c) as T end.
        specialize (T ltac:(rewrite len_ntake; lia)). match type of T with ?P -> _ => assert (P) as Y end.
        { apply tame_bindc; [apply tame_sized, tame_bindc; [apply tame_peek|]; intros ct'; destruct (isGenus ct')|].
          - apply tame_bindc; [apply tame_consumeCtr|]. intros []. apply tame_bindc; [apply tame_getV|]. intros v. apply tame_bindc; [apply tame_lift|]. intros g.
            apply tame_bindc; [apply tame_setV|]. intros []. apply tame_bindc; [apply tame_peek|]. intros ct2. apply tame_bindc; [apply tame_body|]. intros x. apply tame_ret.
          - apply tame_bindc; [apply tame_body|]. intros x. apply tame_ret.
          - intros [x vs]. apply At. }
        destruct (T Y (mkP (pv s2) (ndrop emgs (pb s2)))) as (r & s' & R & L'). { cbn [pb]. rewrite len_ndrop. lia. }
        exists r, s'. split; [exact R|]. cbn [pb] in L'. rewrite len_ndrop in L'. lia.
      - apply tame_bindc; [apply tame_body|]. intros x. apply At. }
    destruct cl1; [|exact X|exact X|exact X]. apply tame_bindc; [apply tame_extractor; intros v b y t H; apply reap_lt in H; lia|]. intros x. apply At. }
  assert (Main : gd L (genericFront s) (
     cl <~ sniffOp ;;
      match cl with
      | Cmsg => x <~ reapOp true ;; attach (msgP n) (S n) true false None (mkE Ser x [] [])
      | _ =>
          ct <~ peek cl true ;;
          if isBodyAtt ct then
            consumeCtr ct cl ;;;
            emgs <~ lift (byteCount ct cl) ;;
            eims <~ takeF emgs true ;;
            inSub eims (
              '(x, vs) <~ sized true (
                ct <~ peek cl true ;;
                if isGenus ct then
                  consumeCtr ct cl ;;;
                  v <~ getV ;;
                  g <~ lift (genusOf ct) ;; setV (Some g) ;;;
                  ct <~ peek cl true ;;
                  x <~ body ct cl true ;; Ret (x, Some v)
                else x <~ body ct cl true ;; Ret (x, None)) ;;
              attach (msgP n) (S n) true true vs (mkE Ser x [] []))
          else
            x <~ body ct cl true ;; attach (msgP n) (S n) true false None (mkE Ser x [] [])
      end) s).
  { apply (gd_bind _ _ _ _ _ cl s); [rewrite resume_sniff, Sn; reflexivity|].
    assert (X : cl <> Cmsg -> gd L (genericFront s) (ct <~ peek cl true ;;
          if isBodyAtt ct then
            consumeCtr ct cl ;;;
            emgs <~ lift (byteCount ct cl) ;;
            eims <~ takeF emgs true ;;
            inSub eims (
              '(x, vs) <~ sized true (
                ct <~ peek cl true ;;
                if isGenus ct then
                  consumeCtr ct cl ;;;
                  v <~ getV ;;
                  g <~ lift (genusOf ct) ;; setV (Some g) ;;;
                  ct <~ peek cl true ;;
                  x <~ body ct cl true ;; Ret (x, Some v)
                else x <~ body ct cl true ;; Ret (x, None)) ;;
              attach (msgP n) (S n) true true vs (mkE Ser x [] []))
          else
            x <~ body ct cl true ;; attach (msgP n) (S n) true false None (mkE Ser x [] [])) s).
    { intros Nm. destruct (peek_done cl s) as [(ct & m & Pk & B & Pm & Lm & C)|(e & Pk & C)].
      2:{ apply (gd_err _ _ _ _ _ _ _ Pk); [unfold L; lia|]. intros ->. destruct (plain_counterAt _ _ _ _ C). congruence. }
      apply (gd_bind _ _ _ _ _ _ _ Pk). destruct (isBodyAtt ct) eqn:Ba.
      - apply (gd_bind _ _ _ _ _ _ _ (resume_consumeCtr _ _ _ _ B)). pose proof (ndrop_le_lt m (pb s) Pm Lm) as Dn. fold L in Dn.
        apply (gd_tame (N.of_nat n)); [|cbn [pb]; lia|cbn [pb]; lia].
        apply tame_bindc; [apply tame_lift|]. intros emgs s2 L2.
        rewrite resume_bindc. unfold takeF. rewrite resume_op, andb_false_r.
        match goal with |- context [inSub ?b ?c] => pose proof (tame_inSub (N.of_nat n) b c) as T end.
        specialize (T ltac:(rewrite len_ntake; lia)). match type of T with ?P -> _ => assert (P) as Y end.
        { apply tame_bindc; [apply tame_sized, tame_bindc; [apply tame_peek|]; intros ct'; destruct (isGenus ct')|].
          - apply tame_bindc; [apply tame_consumeCtr|]. intros []. apply tame_bindc; [apply tame_getV|]. intros v. apply tame_bindc; [apply tame_lift|]. intros g.
            apply tame_bindc; [apply tame_setV|]. intros []. apply tame_bindc; [apply tame_peek|]. intros ct2. apply tame_bindc; [apply tame_body|]. intros x. apply tame_ret.
          - apply tame_bindc; [apply tame_body|]. intros x. apply tame_ret.
          - intros [x vs]. apply At. }
        destruct (T Y (mkP (pv s2) (ndrop emgs (pb s2)))) as (r & s' & R & L'). { cbn [pb]. rewrite len_ndrop. lia. }
        exists r, s'. split; [exact R|]. cbn [pb] in L'. rewrite len_ndrop in L'. lia.
      - assert (G : gd L (genericFront s) (body ct cl true) s).
        { apply (gd_weak _ (isGeneric ct = true)); [|apply (gd_body _ _ _ _ B Pm Lm)]. intros Hg. exists cl, ct, (ndrop m (pb s)). auto. }
        destruct G as ([x|e] & s1 & R & Le & O1 & T1).
        + apply (gd_bind _ _ _ _ _ _ _ R). specialize (O1 x eq_refl). apply (gd_tame (N.of_nat n)); [apply At|lia|lia].
        + apply (gd_err _ _ _ _ _ _ _ R); [exact Le|]. intros ->. apply T1. reflexivity. }
    destruct cl; [|apply X; discriminate..].
    destruct (reap (pv s) (pb s)) as [[x t]|e] eqn:R.
    - apply (gd_bind _ _ _ _ _ x (mkP (pv s) t)). { unfold PsModel.reapOp, extractor. rewrite resume_op, R. reflexivity. }
      apply reap_lt in R. fold L in R. apply (gd_tame (N.of_nat n)); [apply At|cbn [pb]; lia|cbn [pb]; lia].
    - apply (gd_err _ _ _ _ _ e s). { unfold PsModel.reapOp, extractor. rewrite resume_op, R. destruct e; reflexivity. } { unfold L; lia. }
      intros ->. exfalso. exact (reap_top _ _ R). }
  match type of Main with gd _ _ ?r _ => set (rest := r) in * end.
  assert (Gen : gd L (genericFront s) ((ct <~ peek cl true ;; if isGenus ct then consumeCtr ct cl ;;; g <~ lift (genusOf ct) ;; setV (Some g) else Ret tt) ;;; rest) s).
  { destruct (peek_done cl s) as [(ct & m & Pk & B & Pm & Lm & C)|(e & Pk & C)].
    - destruct (isGenus ct) eqn:Ig.
      + pose proof (ndrop_le_lt m (pb s) Pm Lm) as Dn. fold L in Dn.
        destruct (tame_bindc (N.of_nat n) (lift (genusOf ct)) (fun g => setV (Some g)) (tame_lift _ _) (fun g => tame_setV _ _) (mkP (pv s) (ndrop m (pb s))))
          as (r & s1 & R & Le); [cbn [pb]; lia|]. cbn [pb] in Le.
        assert (R' : resume (ct <~ peek cl true ;; if isGenus ct then consumeCtr ct cl ;;; g <~ lift (genusOf ct) ;; setV (Some g) else Ret tt) s = Done r s1).
        { rewrite resume_bindc, Pk, Ig, resume_bindc, (resume_consumeCtr _ _ _ _ B). exact R. }
        destruct r as [[]|e].
        * apply (gd_bind _ _ _ _ _ _ _ R'). apply Rest. lia.
        * apply (gd_err _ _ _ _ _ _ _ R'); [lia|]. intros _. left. lia.
      + apply (gd_bind _ _ _ _ _ tt s); [|exact Main]. rewrite resume_bindc, Pk, Ig. reflexivity.
    - apply (gd_err _ _ _ _ _ e s); [rewrite resume_bindc, Pk; reflexivity|unfold L; lia|]. intros ->. destruct (plain_counterAt _ _ _ _ C). congruence. }
  destruct cl; [apply (gd_bind _ _ _ _ _ tt s); [reflexivity|exact Main]|exact Gen..].
Qed.
Local Notation fresh := (fresh Ser sload nload kcheck).
Local Notation turn := (turn Ser sload nload kcheck).
Local Notation parseF := (parseF Ser sload nload kcheck).
Local Notation reaches := (reaches Ser sload nload kcheck).

Definition calm (e : exn) : Prop := isExtraction e = true /\ e <> SizedGroupError.

Lemma broken_peek : forall cl s e, sniff (pb s) = Ok cl -> counterAt cl (pv s) (pb s) = Err e -> calm e \/ brokenCounter (pv s) (pb s).
Proof.
  intros cl s e Sn C. destruct (plain_counterAt _ _ _ _ C) as [_ P]. destruct (isExtraction e) eqn:E; [left; split; [exact E|exact P]|].
  right. exists e. split; [exact E|]. destruct cl; cbn [counterAt] in C; [injection C as <-; discriminate E|auto..|injection C as <-; discriminate E].
Qed.

Lemma front_ok : forall n s, pb s <> [] -> len (pb s) < N.of_nat n ->
  exists r s', resume (frontC n true) s = Done r s' /\ len (pb s') <= len (pb s) /\
    match r with
    | Ok (FGroup _ eims _) => len (pb s') + len eims < len (pb s)
    | Ok _ => len (pb s') < len (pb s)
    | Err e => len (pb s') < len (pb s) \/ calm e \/ brokenCounter (pv s) (pb s)
    end.
Proof.
  intros n s Nb Ln.
  set (msg := onres (msgP n true) (fun r => match r with
                                             | Ok e => Ret (FMsg Ser e)
                                             | Err TopLevelStreamError => Ret (FTop Ser)
                                             | Err _ => Raise ExtractionError
                                             end)).
  assert (M : (genericFront s -> False) -> exists r s', resume msg s = Done r s' /\ len (pb s') <= len (pb s) /\
    match r with
    | Ok (FGroup _ eims _) => len (pb s') + len eims < len (pb s)
    | Ok _ => len (pb s') < len (pb s)
    | Err e => len (pb s') < len (pb s) \/ calm e \/ brokenCounter (pv s) (pb s)
    end).
  { intros Ng. destruct (gd_msgP n s Ln) as (r & s' & R & Le & O1 & T1). unfold msg. rewrite resume_onres, R. destruct r as [e|e].
    - exists (Ok (FMsg Ser e)), s'. split; [reflexivity|]. split; [exact Le|]. apply (O1 e eq_refl).
    - assert (K : (exists r s'', resume (match e with TopLevelStreamError => Ret (FTop Ser) | _ => Raise ExtractionError end) s' = Done r s'' /\ len (pb s'') <= len (pb s) /\
         match r with Ok (FGroup _ eims _) => len (pb s'') + len eims < len (pb s) | Ok _ => len (pb s'') < len (pb s) | Err e => len (pb s'') < len (pb s) \/ calm e \/ brokenCounter (pv s) (pb s) end)); [|exact K].
      assert (D : e = TopLevelStreamError \/ (match e with TopLevelStreamError => Ret (FTop Ser) | _ => Raise ExtractionError end) = Raise ExtractionError) by (destruct e; auto).
      destruct D as [-> | ->].
      + exists (Ok (FTop Ser)), s'. split; [reflexivity|]. split; [exact Le|]. destruct (T1 eq_refl) as [X|X]; [exact X|destruct (Ng X)].
      + exists (Err ExtractionError), s'. split; [reflexivity|]. split; [exact Le|]. right. left. split; [reflexivity|discriminate]. }
  unfold PsModel.frontC. cbv zeta. fold msg. rewrite resume_bindc, resume_sniff. destruct (sniff (pb s)) as [cl|e] eqn:Sn.
  2:{ exists (Err e), s. split; [reflexivity|]. split; [lia|]. right. left. unfold sniff in Sn. destruct (pb s); [congruence|].
      repeat match type of Sn with (if ?x then _ else _) = _ => destruct x end; try discriminate. injection Sn as <-. split; [reflexivity|discriminate]. }
  assert (X : cl <> Cmsg -> exists r s', resume (
     ct <~ peek cl true ;;
      if isGeneric ct then
        consumeCtr ct cl ;;;
        eggs <~ lift (byteCount ct cl) ;;
        eims <~ takeF eggs true ;;
        '(rest, sv) <~ sized true (inSub eims (
          ct <~ peek cl true ;;
          if isGenus ct then
            consumeCtr ct cl ;;;
            g <~ lift (genusOf ct) ;;
            rest <~ op (fun s => Some (Ok (pb s), s)) ;; Ret (rest, Some g)
          else Ret (eims, None))) ;;
        Ret (FGroup Ser rest sv)
      else msg) s = Done r s' /\ len (pb s') <= len (pb s) /\
    match r with
    | Ok (FGroup _ eims _) => len (pb s') + len eims < len (pb s)
    | Ok _ => len (pb s') < len (pb s)
    | Err e => len (pb s') < len (pb s) \/ calm e \/ brokenCounter (pv s) (pb s)
    end).
  { intros Nm. rewrite resume_bindc. destruct (peek_done cl s) as [(ct & m & Pk & B & Pm & Lm & C)|(e & Pk & C)]; rewrite Pk.
    2:{ exists (Err e), s. split; [reflexivity|]. split; [lia|]. right. exact (broken_peek _ _ _ Sn C). }
    destruct (isGeneric ct) eqn:Ig.
    2:{ apply M. intros (cl' & ct' & t & S' & _ & C' & G'). rewrite Sn in S'. injection S' as <-. rewrite C in C'. injection C' as <- _. congruence. }
    rewrite resume_bindc, (resume_consumeCtr _ _ _ _ B), resume_bindc, resume_lift. pose proof (ndrop_le_lt m (pb s) Pm Lm) as Dn.
    destruct (byteCount ct cl) as [eggs|e]; [|eexists (Err e), _; split; [reflexivity|]; cbn [pb]; split; [lia|left; lia]].
    rewrite resume_bindc. unfold takeF. rewrite resume_op, andb_false_r. cbn [pb pv]. set (b1 := ndrop m (pb s)) in *.
    rewrite resume_bindc. unfold sized. rewrite resume_onres. unfold inSub. rewrite resume_op. cbn [pb pv].
    rewrite resume_bindc. destruct (peek_done cl (mkP (pv s) (ntake eggs b1))) as [(c2 & m2 & Pk2 & B2 & Pm2 & Lm2 & C2)|(e & Pk2 & C2)]; rewrite Pk2.
    2:{ assert (Le : len (ndrop eggs b1) <= len b1) by (rewrite len_ndrop; lia). cbn [pv pb]. destruct (isExtraction e && true); eexists (Err _), _; (split; [reflexivity|]); cbn [pb]; (split; [lia|left; lia]). }
    assert (Le : len (ndrop eggs b1) + len (ntake eggs b1) <= len b1) by (rewrite len_ndrop, len_ntake; lia).
    destruct (isGenus c2).
    - rewrite resume_bindc, (resume_consumeCtr _ _ _ _ B2), resume_bindc, resume_lift. cbn [pb pv]. destruct (genusOf c2) as [gv|e].
      + rewrite resume_bindc, resume_op. cbn [resume pb pv]. eexists (Ok _), _. split; [reflexivity|]. cbn [pb]. assert (len (ndrop m2 (ntake eggs b1)) <= len (ntake eggs b1)) by (rewrite len_ndrop; lia). split; lia.
      + cbn [pv pb]. destruct (isExtraction e && true); eexists (Err _), _; (split; [reflexivity|]); cbn [pb]; (split; [lia|left; lia]).
    - cbn [resume pb pv]. eexists (Ok _), _. split; [reflexivity|]. cbn [pb]. split; lia. }
  destruct cl; [|apply X; discriminate..]. apply M. intros (cl' & ct' & t & S' & N' & _). rewrite Sn in S'. injection S' as <-. congruence.
Qed.

Definition sizeO (o : option bytes) : N := match o with None => 0 | Some b => len b end.
Definition sizeSt (st : list (CtrModel.versionage * option bytes)) : N := fold_right (fun p a => sizeO (snd p) + a) 0 st.
Definition weight (g : gst) (s : pst) : N := len (pb s) + sizeO (g_cur g) + sizeSt (g_stack g).
Lemma unnest_size : forall st sv cur sv' cur' st', unnest sv cur st = (sv', cur', st') -> sizeO cur' + sizeSt st' = sizeO cur + sizeSt st.
Proof.
  induction st as [|[v c] st IH]; intros sv cur sv' cur' st' H; cbn [unnest] in H.
  - destruct cur as [[|]|]; injection H as <- <- <-; reflexivity.
  - destruct cur as [[|x b]|]; [|injection H as <- <- <-; reflexivity..]. rewrite (IH _ _ _ _ _ H). cbn [sizeSt fold_right snd]. fold (sizeSt st). cbn. lia.
Qed.
Lemma resume_setV : forall v s, exists r v', resume (setV v) s = Done r (mkP v' (pb s)).
Proof.
  intros v [v0 b]. unfold setV. rewrite resume_op. destruct v as [v|]; [destruct (_ || _)|]; cbn [pv pb]; eexists _, _; reflexivity.
Qed.
Lemma resume_leaving : forall {A} st eggs e s, exists e' v', resume (leaving st eggs e : com A) s = Done (Err e') (mkP v' (pb s)).
Proof.
  intros A st eggs e s. unfold leaving. rewrite resume_bindc. match goal with |- context [setV ?v] => destruct (resume_setV v s) as (r & v' & R) end. rewrite R. destruct r as [[]|e'].
  - destruct (isExtraction e && eggs); eexists _, _; reflexivity.
  - eexists _, _; reflexivity.
Qed.

Lemma groupStep_ok : forall n g s, g_framed g = true -> weight g s < N.of_nat n ->
  exists r s', resume (groupStep n g) s = Done r s' /\ len (pb s') <= len (pb s) /\
    (forall g' m, r = Ok (GNext Ser g' m) -> g_framed g' = true /\ weight g' s' < weight g s).
Proof.
  intros n g s Fr Wn. unfold PsModel.groupStep. destruct (unnest None (g_cur g) (g_stack g)) as [[sv cur] st] eqn:U. apply unnest_size in U.
  rewrite resume_bindc. destruct (resume_setV sv s) as (r1 & v1 & R1). rewrite R1. destruct r1 as [[]|e1].
  2:{ eexists (Err _), _. split; [reflexivity|]. cbn [pb]. split; [lia|discriminate]. }
  rewrite Fr. unfold weight in *.
  set (svs := match sv with Some _ => sv | None => g_svrsn g end).
  assert (Tail : forall r cur' v' b', len b' <= len (pb s) ->
    match r with
    | Ok (FGroup _ eims _) => len b' + sizeO cur' + len eims < len (pb s) + sizeO cur
    | Ok _ => len b' + sizeO cur' < len (pb s) + sizeO cur
    | Err e => True
    end -> exists r2 s', resume (match r with
  | Ok (FMsg _ e) => Ret (GNext Ser (mkG cur' st svs (g_eggs g) true) (Some e))
  | Ok (FTop _) => Ret (GNext Ser (mkG cur' st svs (g_eggs g) true) None)
  | Ok (FGroup _ eims sv') =>
      let sv := match sv' with Some _ => sv' | None => svs end in
      v <~ getV ;;
      onres (setV sv) (fun r => match r with
                                | Ok _ => Ret (GNext Ser (mkG (Some eims) ((v, cur') :: st) sv true true) None)
                                | Err e => leaving ((v, cur') :: st) true e
                                end)
  | Err e => leaving st (g_eggs g) e
  end) (mkP v' b') = Done r2 s' /\ len (pb s') <= len (pb s) /\
    (forall g' m, r2 = Ok (GNext Ser g' m) -> g_framed g' = true /\ weight g' s' < len (pb s) + sizeO (g_cur g) + sizeSt (g_stack g))).
  { intros r cur' v' b' Lb W. destruct r as [[eims sv'|e|]|e].
    - cbv zeta. rewrite resume_bindc. unfold getV. rewrite resume_op. rewrite resume_onres.
      match goal with |- context [setV ?v] => destruct (resume_setV v (mkP v' b')) as (r2 & v2 & R2) end. rewrite R2. destruct r2 as [[]|e2].
      + eexists (Ok _), _. split; [reflexivity|]. cbn [pb]. split; [exact Lb|]. intros g' m E. injection E as <- _. split; [reflexivity|].
        unfold weight. cbn [g_cur g_stack pb sizeO sizeSt fold_right snd] in *. fold (sizeSt st). lia.
      + cbn [pb]. match goal with |- context [leaving ?a ?b ?c] => destruct (resume_leaving (A := gout Ser) a b c (mkP v2 b')) as (e3 & v3 & R3) end. rewrite R3.
        eexists _, _. split; [reflexivity|]. cbn [pb]. split; [exact Lb|discriminate].
    - eexists (Ok _), _. split; [reflexivity|]. cbn [pb]. split; [exact Lb|]. intros g' m E. injection E as <- _. split; [reflexivity|]. unfold weight. cbn [g_cur g_stack pb]. lia.
    - eexists (Ok _), _. split; [reflexivity|]. cbn [pb]. split; [exact Lb|]. intros g' m E. injection E as <- _. split; [reflexivity|]. unfold weight. cbn [g_cur g_stack pb]. lia.
    - destruct (resume_leaving (A := gout Ser) st (g_eggs g) e (mkP v' b')) as (e3 & v3 & R3). rewrite R3. eexists _, _. split; [reflexivity|]. cbn [pb]. split; [exact Lb|discriminate]. }
  rewrite resume_bindc. destruct cur as [b|].
  - cbn [resume pb]. destruct b as [|x b]; [eexists (Ok _), _; split; [reflexivity|]; cbn [pb]; split; [lia|discriminate]|]. cbn [isnil].
    rewrite resume_bindc. unfold onCur. rewrite resume_op. cbn [pv pb].
    destruct (front_ok n (mkP v1 (x :: b))) as (r & s' & R & Le & K); [discriminate|cbn [pb]; cbn [sizeO] in U; lia|]. rewrite R. cbn [pb] in *.
    apply (Tail r (Some (pb s'))); [lia|]. cbn [sizeO]. destruct r as [[eims sv'|e|]|e]; [lia..|exact Logic.I].
  - unfold isEmpty. rewrite resume_op. cbn [pb]. destruct (isnil (pb s)) eqn:En; [eexists (Ok _), _; split; [reflexivity|]; cbn [pb]; split; [lia|discriminate]|].
    assert (Nb : pb s <> []) by (intros E; rewrite E in En; discriminate).
    rewrite resume_bindc. unfold onCur. rewrite resume_onres.
    destruct (front_ok n (mkP v1 (pb s))) as (r & s' & R & Le & K); [exact Nb|cbn [pb]; lia|]. rewrite R. cbn [pb resume] in *. destruct s' as [v' b']. cbn [pb] in *.
    apply (Tail r None); [lia|]. cbn [sizeO]. destruct r as [[eims sv'|e|]|e]; [lia..|exact Logic.I].
Qed.

Lemma turn_ok : forall n m g s, g_framed g = true -> weight g s < N.of_nat n -> weight g s < N.of_nat m ->
  exists es s', turn n true m (groupStep n g, s) = Some (es, fresh n true s') /\ len (pb s') <= len (pb s).
Proof.
  intros n. induction m as [|m IH]; intros g s Fr Wn Wm; [lia|]. cbn [PsModel.turn fst snd].
  destruct (groupStep_ok n g s Fr Wn) as (r & s' & R & Le & K). rewrite R. destruct r as [[|g' e]|e].
  - exists [], s'. split; [reflexivity|exact Le].
  - destruct (K g' e eq_refl) as [Fr' W']. destruct (IH g' s' Fr') as (es & s2 & T & L2); [lia|lia|]. rewrite T.
    eexists _, s2. split; [reflexivity|lia].
  - exists [], (afterErr e s'). split; [reflexivity|]. unfold afterErr. destruct e; cbn [isExtraction pb]; cbn; try lia.
Qed.

Lemma first_turn : forall n m s, pb s <> [] -> len (pb s) < N.of_nat n -> len (pb s) < N.of_nat m -> ~ brokenCounter (pv s) (pb s) ->
  exists es s', turn n true m (fresh n true s) = Some (es, fresh n true s') /\ len (pb s') < len (pb s).
Proof.
  intros n [|m] s Nb Ln Lm Br; [lia|]. unfold PsModel.fresh at 1. cbn [PsModel.turn fst snd].
  assert (W0 : weight (g0 true) s < N.of_nat n) by (unfold weight; cbn; lia).
  destruct (groupStep_ok n (g0 true) s eq_refl W0) as (r & s' & R & Le & K).
  assert (F : exists r0 s0, resume (frontC n true) s = Done r0 s0 /\ 
    match r0 with
    | Ok (FGroup _ eims _) => len (pb s0) + len eims < len (pb s)
    | Ok _ => len (pb s0) < len (pb s)
    | Err e => len (pb s0) < len (pb s) \/ calm e \/ brokenCounter (pv s) (pb s)
    end /\ match r0 with
           | Ok _ => len (pb s') <= len (pb s0)
           | Err e => r = Err e /\ s' = s0
           end).
  { destruct (front_ok n s Nb Ln) as (r0 & s0 & R0 & _ & K0). exists r0, s0. split; [exact R0|]. split; [exact K0|].
    unfold PsModel.groupStep, g0 in R. cbn [g_cur g_stack unnest g_svrsn g_eggs g_framed] in R. rewrite resume_bindc in R. unfold setV at 1 in R. rewrite resume_op in R.
    rewrite resume_bindc in R. unfold isEmpty in R. rewrite resume_op in R. destruct (pb s) as [|x b] eqn:Eb; [congruence|]. cbn [isnil] in R.
    rewrite resume_bindc in R. unfold onCur in R. rewrite resume_onres, R0 in R. cbn [resume] in R. destruct r0 as [[eims sv'|e|]|e].
    - cbv zeta in R. rewrite resume_bindc in R. unfold getV in R. rewrite resume_op in R. rewrite resume_onres in R.
      match type of R with context [setV ?v] => destruct (resume_setV v s0) as (r2 & v2 & R2) end. rewrite R2 in R. destruct r2 as [[]|e2].
      + injection R as _ <-. cbn [pb]. lia.
      + match type of R with context [leaving ?a ?b ?c] => destruct (resume_leaving (A := gout Ser) a b c (mkP v2 (pb s0))) as (e3 & v3 & R3) end.
        rewrite R3 in R. injection R as _ <-. cbn [pb]. lia.
    - injection R as _ <-. lia.
    - injection R as _ <-. lia.
    - unfold leaving in R. cbn [rev] in R. rewrite resume_bindc in R. unfold setV in R. rewrite resume_op in R. cbn [resume] in R. rewrite andb_false_r in R.
      injection R as <- <-. auto. }
  rewrite R. destruct F as (r0 & s0 & R0 & K0 & K1). destruct r0 as [fr|e0].
  - assert (Lt : len (pb s') < len (pb s)) by (destruct fr; lia). destruct r as [[|g' e]|e].
    + exists [], s'. auto.
    + destruct (K g' e eq_refl) as [Fr' W']. destruct (turn_ok n m g' s' Fr') as (es & s2 & T & L2); [unfold weight in *; cbn in *; lia|unfold weight in *; cbn in *; lia|]. rewrite T.
      eexists _, s2. split; [reflexivity|lia].
    + exists [], (afterErr e s'). split; [reflexivity|]. unfold afterErr. destruct e; cbn [isExtraction pb]; cbn; lia.
  - destruct K1 as [-> ->]. exists [], (afterErr e0 s0). split; [reflexivity|].
    assert (P : 0 < len (pb s)) by (destruct (pb s); [congruence|unfold len; cbn; lia]).
    destruct K0 as [L0|[[C1 C2]|B]]; [|unfold afterErr; rewrite C1; destruct e0; try exact P; congruence|contradiction].
    unfold afterErr. destruct e0; cbn [isExtraction pb]; cbn; lia.
Qed.

Lemma broken_turn : forall n s, pb s <> [] -> brokenCounter (pv s) (pb s) -> forall m, turn n true (S m) (fresh n true s) = Some ([], fresh n true s).
Proof.
  intros n s Nb (e & E & H) m. cbn [PsModel.turn fst snd PsModel.fresh].
  assert (F : resume (frontC n true) s = Done (Err e) s).
  { unfold PsModel.frontC. cbv zeta. rewrite resume_bindc, resume_sniff. destruct H as [[Sn C]|[Sn C]]; rewrite Sn, resume_bindc, resume_peek; cbn [counterAt]; rewrite C; destruct e; reflexivity || discriminate E. }
  assert (R : resume (groupStep n (g0 true)) s = Done (Err e) s).
  { unfold PsModel.groupStep, g0. cbn [g_cur g_stack unnest g_svrsn g_eggs g_framed]. rewrite resume_bindc. unfold setV at 1. rewrite resume_op.
    rewrite resume_bindc. unfold isEmpty. rewrite resume_op. destruct (pb s) as [|x b] eqn:Eb; [congruence|]. cbn [isnil].
    rewrite resume_bindc. unfold onCur. rewrite resume_onres, F. cbn [resume]. unfold leaving. cbn [rev]. rewrite resume_bindc. unfold setV. rewrite resume_op. cbn [resume]. rewrite andb_false_r. reflexivity. }
  rewrite R. unfold afterErr. rewrite E. destruct e; reflexivity || discriminate E.
Qed.

Lemma fresh_inj : forall n s s', fresh n true s = fresh n true s' -> s = s'.
Proof. intros n s s' H. unfold PsModel.fresh in H. congruence. Qed.

Lemma parse_broken : forall n s, pb s <> [] -> brokenCounter (pv s) (pb s) -> forall m, parseF n true m s = None.
Proof.
  intros n s Nb Br. induction m as [|m IH]; [reflexivity|]. cbn [PsModel.parseF]. destruct (pb s) as [|x b] eqn:E; [congruence|]. cbn [isnil].
  destruct m as [|m]; [reflexivity|]. rewrite <- E in *. rewrite broken_turn by assumption. cbn [PsModel.fresh fst snd]. match goal with |- context [resume ?c s] => destruct (resume c s) end; [|reflexivity]. rewrite IH. reflexivity.
Qed.

Lemma parse_reaches_none : forall n s s', reaches n true s s' -> (forall m, parseF n true m s' = None) -> forall m, parseF n true m s = None.
Proof.
  intros n s s' H N0. induction H as [s|s m0 es s1 s2 Nb T _ IH]; [exact N0|]. specialize (IH N0). intros [|m]; [reflexivity|].
  cbn [PsModel.parseF]. destruct (pb s) as [|x b] eqn:E; [congruence|]. cbn [isnil]. destruct (turn n true m (fresh n true s)) as [[es' x']|] eqn:T'; [|reflexivity].
  pose proof (turn_det _ _ _ _ _ _ _ _ _ _ _ T T') as Q. injection Q as <- <-. cbn [PsModel.fresh fst snd]. match goal with |- context [resume ?c s1] => destruct (resume c s1) end; [|reflexivity]. rewrite IH. reflexivity.
Qed.

Lemma parse_ends : forall n k s, len (pb s) < N.of_nat n -> len (pb s) < N.of_nat k ->
  (forall m, (List.length (pb s) + 2 <= m)%nat -> exists es v, parseF n true m s = Some (es, mkP v [])) \/
  (exists s', reaches n true s s' /\ pb s' <> [] /\ brokenCounter (pv s') (pb s')).
Proof.
  intros n. induction k as [|k IH]; intros s Ln Lk; [lia|]. destruct (pb s) as [|x b] eqn:E.
  - left. intros [|m] Lm; [lia|]. exists [], (pv s). destruct s as [v0 b0]. cbn [pb] in E. subst b0. reflexivity.
  - rewrite <- E in *. assert (Nb : pb s <> []) by (rewrite E; discriminate).
    assert (Br : brokenCounter (pv s) (pb s) \/ ~ brokenCounter (pv s) (pb s)).
    { unfold brokenCounter. destruct (sniff (pb s)) as [[]|e0] eqn:Sn.
      - right. intros (e & _ & [[X _]|[X _]]); discriminate.
      - destruct (counter_strip (pv s) (pb s)) as [y|e] eqn:C; [right; intros (e' & _ & [[_ X]|[X _]]); discriminate|].
        destruct (isExtraction e) eqn:I1; [|left; exists e; auto]. right. intros (e' & I2 & [[_ X]|[X _]]); [|discriminate]. injection X as <-. congruence.
      - destruct (counter_bstrip (pv s) (pb s)) as [y|e] eqn:C; [right; intros (e' & _ & [[X _]|[_ X]]); discriminate|].
        destruct (isExtraction e) eqn:I1; [|left; exists e; auto]. right. intros (e' & I2 & [[X _]|[_ X]]); [discriminate|]. injection X as <-. congruence.
      - right. intros (e & _ & [[X _]|[X _]]); discriminate.
      - right. intros (e & _ & [[X _]|[X _]]); discriminate. }
    destruct Br as [Br|Br]; [right; exists s; split; [apply reaches_here|auto]|].
    destruct (first_turn n (S (List.length (pb s))) s Nb Ln) as (es & s1 & T & L1); [unfold len; lia|exact Br|].
    destruct (IH s1) as [Y|(s' & Rs & B)]; [lia|lia| |].
    + left. intros [|m] Lm; [lia|]. cbn [PsModel.parseF]. rewrite E. cbn [isnil].
      destruct (first_turn n m s Nb Ln) as (es' & s1' & T' & _); [unfold len; lia|exact Br|].
      pose proof (turn_det _ _ _ _ _ _ _ _ _ _ _ T T') as Q. assert (es = es' /\ s1 = s1') as [Q1 Q2] by (unfold PsModel.fresh in Q; split; congruence). subst es' s1'. rewrite T'. cbn [PsModel.fresh fst snd].
      destruct (groupStep_ok n (g0 true) s1 eq_refl) as (r & s2 & R & _); [unfold weight; cbn; lia|]. rewrite R.
      destruct (Y m) as (es2 & v & P); [unfold len in L1; lia|]. rewrite P. eexists _, v. reflexivity.
    + right. exists s'. split; [|exact B]. exact (reaches_turn _ _ _ _ _ _ _ _ _ _ _ Nb T Rs).
Qed.
End Term.
