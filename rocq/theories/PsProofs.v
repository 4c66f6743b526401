From Verif Require Import Prelude B64Model B64Proofs MatterModel MatterProofs IdxModel VerModel VerThms MatterInv MatterBinInv QualProofs IdxProofs CtrModel CtrProofs CtrThms KelModel PsModel PsSpec.
Open Scope N_scope.
Ltac Zify.zify_post_hook ::= Z.div_mod_to_equations.

(* ------------------------------------------------------------------ *)
(** More bytes do not change the answer of a counter or of a message header. *)

Definition ext {X} (r : res (X * bytes)) (m : bytes) : res (X * bytes) :=
  match r with Ok (x, t) => Ok (x, t ++ m) | Err e => Err e end.

Lemma ltb_app : forall (b m : bytes) n, len b <? n = false -> len (b ++ m) <? n = false.
Proof. intros b m n H. rewrite len_app. lia. Qed.

Lemma cexfil_ext : forall v b m, cexfil v b <> Err ShortageError -> cexfil v (b ++ m) = cexfil v b.
Proof.
  intros v b m H. unfold cexfil in *. destruct (ctables v) as [[codes sizes]|e] eqn:T; [|reflexivity]. cbn [bind] in *.
  destruct (len b <? 2) eqn:L; [congruence|]. rewrite (ltb_app _ _ _ L).
  rewrite ntake_app_le by lia. destruct (decode_ascii (ntake 2 b)) as [first|e]; [|reflexivity]. cbn [bind] in *.
  destruct (dget CHards first) as [h|] eqn:D; [|reflexivity].
  destruct (len b <? h) eqn:L2; [congruence|]. rewrite (ltb_app _ _ _ L2). rewrite ntake_app_le by lia.
  destruct (decode_ascii (ntake h b)) as [hard|e]; [|reflexivity]. cbn [bind] in *.
  destruct (dget sizes hard) as [sz|] eqn:Sz; [|reflexivity].
  destruct (len b <? cfs sz) eqn:L3; [congruence|]. rewrite (ltb_app _ _ _ L3).
  pose proof (csizes_wf _ _ _ _ _ T Sz) as W. destruct W.
  rewrite ndrop_app_le by lia. rewrite ntake_app_le by (rewrite len_ndrop; lia). reflexivity.
Qed.

Lemma codeB2_ext : forall b m l, sceil34 l <= len b -> codeB2ToB64 (b ++ m) l = codeB2ToB64 b l.
Proof.
  intros b m l H. unfold codeB2ToB64. cbv zeta. rewrite len_app.
  replace (len b + len m <? sceil34 l) with false by lia. replace (len b <? sceil34 l) with false by lia.
  rewrite ntake_app_le by exact H. reflexivity.
Qed.
Lemma nab_ext : forall b m l, sceil34 l <= len b -> nabSextets (b ++ m) l = nabSextets b l.
Proof.
  intros b m l H. unfold nabSextets. cbv zeta. rewrite len_app.
  replace (len b + len m <? sceil34 l) with false by lia. replace (len b <? sceil34 l) with false by lia.
  rewrite ntake_app_le by exact H. reflexivity.
Qed.

Lemma cbexfil_ext : forall v b m, cbexfil v b <> Err ShortageError -> cbexfil v (b ++ m) = cbexfil v b.
Proof.
  intros v b m H. unfold cbexfil in *. destruct (ctables v) as [[codes sizes]|e] eqn:T; [|reflexivity]. cbn [bind] in *.
  destruct (len b <? 2) eqn:L; [congruence|]. rewrite (ltb_app _ _ _ L).
  rewrite nab_ext by (change (sceil34 2) with 2; lia).
  destruct (nabSextets b 2) as [first|e]; [|reflexivity]. cbn [bind] in *.
  destruct (dget CBards first) as [h|] eqn:D; [|reflexivity].
  destruct (len b <? sceil34 h) eqn:L2; [congruence|]. rewrite (ltb_app _ _ _ L2).
  rewrite codeB2_ext by lia. destruct (codeB2ToB64 b h) as [hard|e]; [|reflexivity]. cbn [bind] in *.
  destruct (dget sizes hard) as [sz|] eqn:Sz; [|reflexivity].
  destruct (len b <? sceil34 (cfs sz)) eqn:L3; [congruence|]. rewrite (ltb_app _ _ _ L3).
  rewrite codeB2_ext by lia. reflexivity.
Qed.

Lemma cbexfil_inv : forall v q c, cbexfil v q = Ok c -> exists sz, csize c = Ok sz /\ sceil34 (cfs sz) <= len q /\ cfs sz mod 4 = 0
  /\ c_vrsn c = v.
Proof.
  intros v q c H. unfold cbexfil in H. apply bind_ok in H. destruct H as ([codes sizes] & Ht & H).
  apply raise_if_ok in H. destruct H as [H1 H]. apply bind_ok in H. destruct H as (first & Hf & H).
  destruct (dget CBards first) as [h|] eqn:Eh; [|discriminate].
  apply raise_if_ok in H. destruct H as [H2 H]. apply bind_ok in H. destruct H as (hard & Hh & H).
  destruct (dget sizes hard) as [sz|] eqn:Esz; [|discriminate]. apply raise_if_ok in H. destruct H as [H3 H].
  apply bind_ok in H. destruct H as (cnt & Hc & H).
  apply bind_ok in H. destruct H as (count & Hi & H). apply bind_ok in H. destruct H as (name & Hn & H).
  apply ok_inj in H. subst c. exists sz. unfold csize. cbn [c_vrsn c_code]. rewrite Ht. cbn [bind]. rewrite Esz.
  split; [reflexivity|]. split; [lia|]. split; [apply (cw_4 _ _ _ (csizes_wf _ _ _ _ _ Ht Esz))|reflexivity].
Qed.
Lemma cexfil_inv' : forall v q c, cexfil v q = Ok c -> exists sz, csize c = Ok sz /\ cfs sz <= len q /\ c_vrsn c = v.
Proof.
  intros v q c H. destruct (cexfil_inv _ _ _ H) as (codes & sizes & sz & K & Hv & _ & L).
  exists sz. split; [apply (csize_ok _ _ _ _ K)|]. auto.
Qed.

Lemma counterAt_ext : forall cl v b m, counterAt cl v b <> Err ShortageError -> counterAt cl v (b ++ m) = ext (counterAt cl v b) m.
Proof.
  intros cl v b m H. destruct cl; cbn [counterAt] in *; try reflexivity.
  - unfold counter_strip in *. destruct (cexfil v b) as [c|e] eqn:E.
    + rewrite cexfil_ext by congruence. rewrite E. cbn [bind] in *. destruct (cexfil_inv' _ _ _ E) as (sz & Z & L & _).
      rewrite Z. cbn [bind ext]. rewrite ndrop_app_le by exact L. reflexivity.
    + cbn [bind] in H. rewrite cexfil_ext by (intros F; rewrite ?E in F; injection F as ->; apply H; reflexivity). rewrite E. reflexivity.
  - unfold counter_bstrip in *. destruct (cbexfil v b) as [c|e] eqn:E.
    + rewrite cbexfil_ext by congruence. rewrite E. cbn [bind] in *. destruct (cbexfil_inv _ _ _ E) as (sz & Z & L & M4 & _).
      rewrite Z. cbn [bind ext]. unfold sceil34 in L. rewrite ndrop_app_le by lia. reflexivity.
    + cbn [bind] in H. rewrite cbexfil_ext by (intros F; rewrite ?E in F; injection F as ->; apply H; reflexivity). rewrite E. reflexivity.
Qed.

(** a counter that was read has been read from bytes that are there *)
Lemma counterAt_inv : forall cl v b ct t, counterAt cl v b = Ok (ct, t) ->
  exists n, byteSize ct cl = Ok n /\ n <= len b /\ t = ndrop n b /\ c_vrsn ct = v.
Proof.
  intros cl v b ct t H. destruct cl; try discriminate; cbn [counterAt] in H.
  - unfold counter_strip in H. apply bind_ok in H. destruct H as (c & E & H). destruct (cexfil_inv' _ _ _ E) as (sz & Z & L & V).
    rewrite Z in H. cbn [bind] in H. apply ok_inj in H. injection H as <- <-. exists (cfs sz). unfold byteSize. rewrite Z. cbn [bind]. auto.
  - unfold counter_bstrip in H. apply bind_ok in H. destruct H as (c & E & H). destruct (cbexfil_inv _ _ _ E) as (sz & Z & L & M4 & V).
    rewrite Z in H. cbn [bind] in H. apply ok_inj in H. injection H as <- <-. exists (cfs sz / 4 * 3). unfold byteSize. rewrite Z. cbn [bind].
    unfold sceil34 in L. split; [reflexivity|]. split; [lia|]. split; [|exact V]. f_equal. lia.
Qed.

(* ------------------------------------------------------------------ *)
(** Commands whose course more bytes do not change. *)

Definition more (s : pst) (m : bytes) : pst := mkP (pv s) (pb s ++ m).

Fixpoint stable {A} (c : com A) (s : pst) : Prop :=
  match c with
  | Ret _ => True
  | Raise _ => True
  | Op f k => match f s with
              | None => True
              | Some (r, s') => (forall m, f (more s m) = Some (r, more s' m)) /\ stable (k r) s'
              end
  end.

Lemma stable_done : forall {A} (c : com A) s r s', stable c s -> resume c s = Done r s' -> forall m, resume c (more s m) = Done r (more s' m).
Proof.
  induction c as [a|e|B f k IH]; intros s r s' St H m; cbn [resume] in *.
  - injection H as <- <-. reflexivity.
  - injection H as <- <-. reflexivity.
  - cbn [stable] in St. destruct (f s) as [[r1 s1]|]; [|discriminate]. destruct St as [F St]. rewrite F. apply (IH _ _ _ _ St H).
Qed.
Lemma stable_blocked : forall {A} (c : com A) s c' s', stable c s -> resume c s = Blocked c' s' -> forall m, resume c (more s m) = resume c' (more s' m).
Proof.
  induction c as [a|e|B f k IH]; intros s c' s' St H m; cbn [resume] in *; try discriminate.
  cbn [stable] in St. destruct (f s) as [[r1 s1]|] eqn:E; [|].
  - destruct St as [F St]. rewrite F. apply (IH _ _ _ _ St H).
  - injection H as <- <-. reflexivity.
Qed.

Lemma resume_onres : forall {A B} (c : com A) (h : res A -> com B) s,
  resume (onres c h) s = match resume c s with Done r s' => resume (h r) s' | Blocked c' s' => Blocked (onres c' h) s' end.
Proof.
  induction c as [a|e|T f k IH]; intros h s; cbn [onres resume]; try reflexivity.
  destruct (f s) as [[r1 s1]|]; [apply IH|reflexivity].
Qed.
Lemma resume_bindc : forall {A B} (c : com A) (h : A -> com B) s,
  resume (bindc c h) s = match resume c s with
                         | Done (Ok a) s' => resume (h a) s'
                         | Done (Err e) s' => Done (Err e) s'
                         | Blocked c' s' => Blocked (bindc c' h) s' end.
Proof. intros A B c h s. unfold bindc. rewrite resume_onres. destruct (resume c s) as [[a|e] s'|]; reflexivity. Qed.

Lemma stable_onres : forall {A B} (c : com A) (h : res A -> com B) s, stable c s ->
  (forall r s', resume c s = Done r s' -> stable (h r) s') -> stable (onres c h) s.
Proof.
  induction c as [a|e|T f k IH]; intros h s St H; cbn [onres stable resume] in *; auto.
  destruct (f s) as [[r1 s1]|]; [|exact Logic.I]. destruct St as [F St]. split; [exact F|]. apply IH; auto.
Qed.
Lemma stable_bindc : forall {A B} (c : com A) (h : A -> com B) s, stable c s ->
  (forall a s', resume c s = Done (Ok a) s' -> stable (h a) s') -> stable (bindc c h) s.
Proof. intros A B c h s St H. unfold bindc. apply stable_onres; [exact St|]. intros [a|e] s' E; [apply H, E|exact Logic.I]. Qed.

Lemma stable_op : forall {B} (f : pst -> option (res B * pst)) s,
  (forall r s', f s = Some (r, s') -> forall m, f (more s m) = Some (r, more s' m)) -> stable (op f) s.
Proof.
  intros B f s H. unfold op. cbn [stable]. destruct (f s) as [[r s']|]; [|exact Logic.I]. split; [apply H; reflexivity|]. destruct r; exact Logic.I.
Qed.
Lemma resume_op : forall {B} (f : pst -> option (res B * pst)) s,
  resume (op f) s = match f s with Some (r, s') => Done r s' | None => Blocked (op f) s end.
Proof. intros B f s. unfold op. cbn [resume]. destruct (f s) as [[r s']|]; [|reflexivity]. destruct r; reflexivity. Qed.

Lemma stable_lift : forall {A} (r : res A) s, stable (lift r) s.
Proof. intros A [a|e] s; exact Logic.I. Qed.
Lemma resume_lift : forall {A} (r : res A) s, resume (lift r) s = Done r s.
Proof. intros A [a|e] s; reflexivity. Qed.

Lemma stable_setV : forall v s, stable (setV v) s.
Proof.
  intros v s. apply stable_op. intros r s' H m. destruct v as [v|]; [|injection H as <- <-; reflexivity].
  destruct (_ || _); injection H as <- <-; reflexivity.
Qed.
Lemma stable_getV : forall s, stable getV s.
Proof. intros s. apply stable_op. intros r s' H m. injection H as <- <-. reflexivity. Qed.
Lemma stable_needSome : forall s, stable (needSome false) s.
Proof.
  intros s. apply stable_op. intros r s' H m. cbn in *. destruct (pb s) as [|x l] eqn:E; [discriminate|].
  injection H as <- <-. unfold more. cbn. rewrite E. reflexivity.
Qed.
Lemma stable_sniffOp : forall s, pb s <> [] -> stable sniffOp s.
Proof. intros s N. apply stable_op. intros r s' H m. injection H as <- <-. unfold more. cbn. destruct (pb s); [congruence|reflexivity]. Qed.
Lemma stable_isEmpty : forall s, pb s <> [] -> stable isEmpty s.
Proof. intros s N. apply stable_op. intros r s' H m. injection H as <- <-. unfold more. cbn. destruct (pb s); [congruence|reflexivity]. Qed.
Lemma stable_consume : forall n s, n <= len (pb s) -> stable (consume n) s.
Proof. intros n s L. apply stable_op. intros r s' H m. injection H as <- <-. unfold more. cbn. rewrite ndrop_app_le by exact L. reflexivity. Qed.
Lemma stable_takeF : forall n s, stable (takeF n false) s.
Proof.
  intros n s. apply stable_op. intros r s' H m. unfold more in *. cbn in *. rewrite len_app.
  destruct (len (pb s) <? n) eqn:L; [discriminate|]. injection H as <- <-. cbn.
  replace (len (pb s) + len m <? n) with false by lia. cbn. rewrite ntake_app_le, ndrop_app_le by lia. reflexivity.
Qed.
Lemma stable_extractor : forall {X} strip (get : CtrModel.versionage -> bytes -> res (X * bytes)) s,
  (get (pv s) (pb s) <> Err ShortageError -> forall m, get (pv s) (pb s ++ m) = ext (get (pv s) (pb s)) m) -> stable (extractor false strip get) s.
Proof.
  intros X strip get s G. apply stable_op. intros r s' H m. unfold more. cbn [pv pb].
  destruct (get (pv s) (pb s)) as [[x t]|e] eqn:E.
  - rewrite (G ltac:(congruence)). cbn [ext]. injection H as <- <-. destruct strip; reflexivity.
  - destruct e; try discriminate; rewrite (G ltac:(congruence)); cbn [ext]; injection H as <- <-; reflexivity.
Qed.
Lemma stable_peek : forall cl s, stable (peek cl false) s.
Proof. intros cl s. apply stable_extractor. intros H m. apply counterAt_ext. exact H. Qed.
Lemma stable_inSub : forall {A} sub (c : com A) s, stable (inSub sub c) s.
Proof.
  intros A sub c s. apply stable_op. intros r s' H m. unfold more. cbn [pv pb].
  destruct (resume c (mkP (pv s) sub)) as [r1 s1|]; [|discriminate]. injection H as <- <-. reflexivity.
Qed.

(* ------------------------------------------------------------------ *)
(** What an enclosing counter looks like to the reader. *)

Record framing (v : CtrModel.versionage) (cl : cold) (test : counter -> bool) (content g : bytes) : Prop := {
  fr_sniff : sniff g = Ok cl; fr_cl : cl <> Cmsg;
  fr_read : exists ct n, (forall t, counterAt cl v (g ++ t) = Ok (ct, content ++ t)) /\ byteSize ct cl = Ok n
            /\ byteCount ct cl = Ok (len content) /\ n + len content = len g /\ 0 < n /\ test ct = true /\ c_vrsn ct = v }.

Lemma counter_name : forall v name count c, counter_of v (s2b name) count = Ok c ->
  In name ["AttachmentGroup"; "BodyWithAttachmentGroup"; "GenericGroup"; "NonNativeBodyGroup"]%string ->
  isName [name; ("Big" ++ name)%string] c = true.
Proof.
  intros v name count c H I. destruct (counter_of_ok _ _ _ _ H) as (Hv & Hc & codes & sizes & sz & K & hard & hsz & L1 & L2 & L3).
  pose proof (co_tab _ _ _ _ K) as T. pose proof (co_name _ _ _ _ K) as Nm. rewrite Hv in T. clear - I L1 L3 T Nm.
  unfold ctables in T. unfold isName, existsb.
  destruct (vmajor v =? 1); [|destruct (vmajor v =? 2); [|discriminate]]; apply raise_if_ok in T; destruct T as [_ T];
   apply ok_inj in T; injection T as <- <-;
   destruct I as [<-|[<-|[<-|[<-|[]]]]]; vm_compute in L1; apply ok_inj in L1; injection L1 as <- _;
   (destruct L3 as [L3|(_ & _ & L3 & _)]; rewrite L3 in Nm;
    match type of Nm with nameOf ?a ?b = _ => let y := eval vm_compute in (nameOf a b) in
      assert (X : nameOf a b = y) by (vm_compute; reflexivity); rewrite X in Nm end;
    apply ok_inj in Nm; rewrite <- Nm; vm_compute; reflexivity).
Qed.

Lemma counter_code0 : forall c codes sizes sz, cok c codes sizes sz -> exists r, c_code c = 45 :: r.
Proof.
  intros c codes sizes sz K. pose proof (csizes_wf _ _ _ _ _ (co_tab _ _ _ _ K) (co_sz _ _ _ _ K)) as W.
  pose proof (cw_hard _ _ _ W) as D. apply dget_In in D.
  assert (A : forallb (fun p => match fst p with x :: _ => x =? 45 | [] => false end) CHards = true) by (vm_compute; reflexivity).
  rewrite forallb_forall in A. specialize (A _ D). cbn [fst] in A. destruct (c_code c) as [|x r]; [discriminate|].
  exists r. change (ntake 2 (x :: r)) with (x :: ntake 1 r) in A. apply N.eqb_eq in A. subst x. reflexivity.
Qed.

Lemma app_unit_inj : forall (a b : bytes), (forall t, a ++ t = b ++ t) -> a = b.
Proof. intros a b H. specialize (H []). rewrite !app_nil_r in H. exact H. Qed.

Lemma sniff45 : forall r, sniff (45 :: r) = Ok Ctxt.
Proof. reflexivity. Qed.

Lemma nab2 : forall x y r, x < 256 -> y < 256 -> nabSextets (x :: y :: r) 2 = Ok [x; y / 16 * 16].
Proof.
  intros x y r Hx Hy. unfold nabSextets. change (sceil34 2) with 2.
  replace (len (x :: y :: r) <? 2) with false by (unfold len; cbn [List.length]; lia).
  change (2 mod 4) with 2. rewrite shiftl_mul4, shiftr_div4. change (4 ^ 2) with 16.
  unfold ntake. change (N.to_nat 2) with 2%nat. cbn [firstn]. unfold int_from_bytes, of_digits. cbn [fold_left].
  unfold int_to_bytes. change (256 ^ 2) with 65536.
  replace ((0 * 256 + x) * 256 + y) with (x * 256 + y) by lia.
  replace ((x * 256 + y) / 16 * 16 <? 65536) with true by lia. change (N.to_nat 2) with 2%nat. cbn [to_digits app].
  f_equal. f_equal; [lia|]. f_equal. lia.
Qed.

Lemma sniff_bin : forall v b ct, octets b -> cbexfil v b = Ok ct -> sniff b = Ok Cbny.
Proof.
  intros v b ct O H. unfold cbexfil in H. apply bind_ok in H. destruct H as ([codes sizes] & Ht & H).
  apply raise_if_ok in H. destruct H as [H1 H]. apply bind_ok in H. destruct H as (first & Hf & H).
  destruct b as [|x [|y r]]; [discriminate|discriminate|].
  pose proof (Forall_inv O) as Ox. pose proof (Forall_inv (Forall_inv_tail O)) as Oy.
  rewrite nab2 in Hf by assumption. apply ok_inj in Hf. subst first.
  destruct (dget CBards [x; y / 16 * 16]) as [h|] eqn:Eh; [|discriminate]. apply dget_In in Eh. clear - Eh.
  assert (A : forallb (fun p => match fst p with x :: _ => N.shiftr x 5 =? 7 | [] => false end) CBards = true) by (vm_compute; reflexivity).
  rewrite forallb_forall in A. specialize (A _ Eh). cbn [fst] in A. apply N.eqb_eq in A.
  unfold sniff. cbv zeta. rewrite A. reflexivity.
Qed.

Lemma sniff_app : forall b t, b <> [] -> sniff (b ++ t) = sniff b.
Proof. intros [|x b] t N; [congruence|reflexivity]. Qed.

Lemma enclosed_framing : forall v name content g, enclosed v name content g ->
  In name ["AttachmentGroup"; "BodyWithAttachmentGroup"; "GenericGroup"; "NonNativeBodyGroup"]%string ->
  exists cl, framing v cl (isName [name; ("Big" ++ name)%string]) content g.
Proof.
  intros v name content g [H|H] I.
  - exists Ctxt. unfold enclose in H. apply raise_if_ok in H. destruct H as [H4 H].
    apply bind_ok in H. destruct H as (c & Hc & H). apply raise_if_ok in H. destruct H as [_ H].
    apply bind_ok in H. destruct H as (q & Hq & H). apply ok_inj in H. subst g.
    pose proof (counter_name _ _ _ _ Hc I) as Nm.
    destruct (counter_of_ok _ _ _ _ Hc) as (Hv & Hn & codes & sizes & sz & K & _).
    destruct (c39_text_round_trip _ _ _ _ Hc) as (_ & _ & q' & D & _ & _ & E). rewrite Hq in D. apply ok_inj in D. subst q'.
    pose proof (cinfil_ok _ _ _ _ K) as Q2. rewrite Hq in Q2. apply ok_inj in Q2.
    pose proof (cboth_len _ _ _ _ K) as QL. destruct (counter_code0 _ _ _ _ K) as (r & C0).
    pose proof (csizes_wf _ _ _ _ _ (co_tab _ _ _ _ K) (co_sz _ _ _ _ K)) as W. pose proof (cw_hs _ _ _ W). pose proof (cw_fs _ _ _ W).
    constructor.
    + rewrite Q2. unfold cboth. rewrite C0. reflexivity.
    + discriminate.
    + exists c, (cfs sz). cbn [counterAt]. split; [intros t; rewrite <- app_assoc; apply E|].
      unfold byteSize, byteCount. rewrite (csize_ok _ _ _ _ K). cbn [bind]. rewrite Hn.
      split; [reflexivity|]. split; [f_equal; lia|]. rewrite len_app, Q2, QL. split; [reflexivity|]. split; [lia|]. auto.
  - exists Cbny. unfold benclose in H. apply raise_if_ok in H. destruct H as [H4 H].
    apply bind_ok in H. destruct H as (c & Hc & H). apply raise_if_ok in H. destruct H as [_ H].
    apply bind_ok in H. destruct H as (q & Hq & H). apply ok_inj in H. subst g.
    pose proof (counter_name _ _ _ _ Hc I) as Nm.
    destruct (counter_of_ok _ _ _ _ Hc) as (Hv & Hn & codes & sizes & sz & K & _).
    destruct (c39_binary_round_trip _ _ _ _ Hc) as (q' & b & D & E & Ob & _ & _ & F). rewrite Hq in E. apply ok_inj in E. subst b.
    pose proof (cbinfil_ok _ _ _ _ K) as Q2. rewrite Hq in Q2. apply ok_inj in Q2.
    pose proof (qbin_len _ _ _ (cq _ _ _ _ K)) as QL. rewrite <- Q2 in QL.
    pose proof (csizes_wf _ _ _ _ _ (co_tab _ _ _ _ K) (co_sz _ _ _ _ K)) as W. pose proof (cw_hs _ _ _ W). pose proof (cw_fs _ _ _ W). pose proof (cw_4 _ _ _ W).
    assert (CB : cbexfil v q = Ok c).
    { specialize (F []). unfold counter_bstrip in F. rewrite app_nil_r in F. apply bind_ok in F. destruct F as (c' & F & G).
      apply bind_ok in G. destruct G as (sz' & _ & G). apply ok_inj in G. injection G as -> _. exact F. }
    assert (Sn : sniff q = Ok Cbny) by (apply (sniff_bin v q c); assumption).
    constructor.
    + rewrite sniff_app; [exact Sn|]. intros ->. discriminate Sn.
    + discriminate.
    + exists c, (cfs sz / 4 * 3). cbn [counterAt]. split; [intros t; rewrite <- app_assoc; apply F|].
      unfold byteSize, byteCount. rewrite (csize_ok _ _ _ _ K). cbn [bind]. rewrite Hn.
      split; [reflexivity|]. split; [f_equal; lia|]. rewrite len_app. split; [|split; [lia|auto]]. lia.
Qed.

Lemma isName_inv : forall l ct, isName l ct = true -> exists n, In n l /\ c_name ct = s2b n.
Proof. intros l ct H. unfold isName in H. apply existsb_exists in H. destruct H as (n & I & E). apply beq_eq in E. eauto. Qed.
Ltac names H := let n := fresh "n" in let I := fresh "I" in let E := fresh "E" in
  destruct (isName_inv _ _ H) as (n & I & E); cbn [In] in I;
  repeat (destruct I as [<-|I]; [|]); try contradiction I; unfold isGenus, isGeneric, isBodyAtt, isAttGroup, isNonNative, isFixBody, isMapBody, isOther, isName, existsb;
  rewrite E; vm_compute; reflexivity.
Lemma bodyAtt_not : forall ct, isBodyAtt ct = true -> isGenus ct = false /\ isGeneric ct = false.
Proof. intros ct H. split; names H. Qed.
Lemma attGroup_not : forall ct, isAttGroup ct = true -> isGenus ct = false /\ isGeneric ct = false /\ isBodyAtt ct = false.
Proof. intros ct H. split; [|split]; names H. Qed.

Lemma resume_peek : forall cl abort s, resume (peek cl abort) s =
  match counterAt cl (pv s) (pb s) with
  | Ok (ct, _) => Done (Ok ct) s
  | Err ShortageError => if abort then Done (Err ShortageError) s else Blocked (peek cl abort) s
  | Err e => Done (Err e) s
  end.
Proof.
  intros cl abort s. unfold peek, extractor. rewrite resume_op. destruct (counterAt cl (pv s) (pb s)) as [[ct t]|e]; [reflexivity|].
  destruct e; try reflexivity. destruct abort; reflexivity.
Qed.

Lemma exn_eq_dec : forall a b : exn, {a = b} + {a <> b}.
Proof. decide equality. Defined.

Lemma framing_peek : forall v cl test content g p m, framing v cl test content g -> g = p ++ m ->
  (exists c s, resume (peek cl false) (mkP v p) = Blocked c s) \/
  exists ct n, resume (peek cl false) (mkP v p) = Done (Ok ct) (mkP v p) /\ test ct = true /\ byteSize ct cl = Ok n
    /\ byteCount ct cl = Ok (len content) /\ n + len content = len g /\ n <= len p.
Proof.
  intros v cl test content g p m F E. destruct (fr_read _ _ _ _ _ F) as (ct & n & R & S & C & L & L0 & T & _).
  specialize (R []). rewrite !app_nil_r in R. subst g. rewrite resume_peek. cbn [pv pb].
  destruct (counterAt cl v p) as [[ct' t]|e] eqn:A.
  - pose proof (counterAt_ext cl v p m ltac:(congruence)) as X. rewrite R, A in X. cbn [ext] in X. injection X as <- X.
    destruct (counterAt_inv _ _ _ _ _ A) as (n' & S' & L' & _). rewrite S in S'. apply ok_inj in S'. subst n'.
    right. exists ct, n. auto 8.
  - destruct (exn_eq_dec e ShortageError) as [->|Ne]; [left; eauto|].
    pose proof (counterAt_ext cl v p m ltac:(congruence)) as X. rewrite R, A in X. discriminate X.
Qed.

Section Ps.
Variable Ser : Type.
Variable sload : smellage -> bytes -> res Ser.
Variable nload : bool -> counter -> bytes -> res Ser.
Variable kcheck : klas -> matter -> res unit.
Local Notation exts := (exts Ser).
Local Notation reap := (reap Ser sload).
Local Notation reapOp := (reapOp Ser sload).
Local Notation attach := (attach Ser kcheck).
Local Notation msgP := (msgP Ser sload nload kcheck).
Local Notation frontC := (frontC Ser sload nload kcheck).
Local Notation groupStep := (groupStep Ser sload nload kcheck).

Lemma reap_ext : forall v b m, reap v b <> Err ShortageError -> reap v (b ++ m) = ext (reap v b) m.
Proof.
  intros v b m H. unfold PsModel.reap in *.
  assert (S : smell b <> Err ShortageError) by (intros F; apply H; rewrite F; reflexivity).
  rewrite (c09_smell_stable b m S). destruct (smell b) as [sm|e]; [|reflexivity]. cbn [bind] in *.
  destruct (vmajor v <? fst (s_pvrsn sm)); [reflexivity|].
  match goal with |- bind ?x _ = _ => destruct x as [u|e] end; [|reflexivity]. cbn [bind] in *.
  destruct (len b <? s_size sm) eqn:L; [exfalso; apply H; reflexivity|]. rewrite (ltb_app _ _ _ L).
  rewrite ntake_app_le, ndrop_app_le by lia. destruct (sload sm (ntake (s_size sm) b)); reflexivity.
Qed.
Lemma stable_reapOp : forall s, stable (reapOp false) s.
Proof. intros s. apply stable_extractor. intros H m. apply reap_ext. exact H. Qed.

Lemma stable_sized : forall {A} enc (c : com A) s, stable c s -> stable (sized enc c) s.
Proof. intros A enc c s H. apply stable_onres; [exact H|]. intros [a|e] s' _; [exact Logic.I|]. destruct (isExtraction e && enc); exact Logic.I. Qed.
Lemma stable_restoring : forall {A} vs (c : com A) s, stable c s -> stable (restoring vs c) s.
Proof. intros A vs c s H. apply stable_onres; [exact H|]. intros r s' _. apply stable_bindc; [apply stable_setV|]. intros. apply stable_lift. Qed.

Lemma resume_sniff : forall s, resume sniffOp s = Done (sniff (pb s)) s.
Proof. intros s. unfold sniffOp. rewrite resume_op. reflexivity. Qed.

Lemma stable_consumeCtr : forall ct cl n s, byteSize ct cl = Ok n -> n <= len (pb s) -> stable (consumeCtr ct cl) s.
Proof.
  intros ct cl n s H L. unfold consumeCtr. rewrite H. apply stable_bindc; [exact Logic.I|].
  intros a s' E. cbn in E. injection E as <- <-. apply stable_consume. exact L.
Qed.
Lemma resume_consumeCtr : forall ct cl n s, byteSize ct cl = Ok n -> resume (consumeCtr ct cl) s = Done (Ok tt) (mkP (pv s) (ndrop n (pb s))).
Proof. intros ct cl n s H. unfold consumeCtr. rewrite H, resume_bindc. cbn [lift resume]. unfold consume. rewrite resume_op. reflexivity. Qed.

Lemma prefix_sniff : forall (p m : bytes) r, p <> [] -> sniff (p ++ m) = r -> sniff p = r.
Proof. intros p m r N H. rewrite sniff_app in H by exact N. exact H. Qed.

Lemma attach_stable : forall nest n v cl content g p m e, framing v cl isAttGroup content g -> g = p ++ m ->
  stable (attach nest n false false None e) (mkP v p).
Proof.
  intros nest n v cl content g p m e F E. unfold PsModel.attach. apply stable_restoring, stable_sized.
  apply stable_bindc; [apply stable_needSome|]. intros [] s' R.
  unfold needSome in R. rewrite resume_op in R. cbn [pb] in R. destruct p as [|x p']; [discriminate R|].
  cbn [isnil andb] in R. injection R as <-. remember (x :: p') as p eqn:Ep. assert (Np : p <> []) by congruence. clear x p' Ep.
  apply stable_bindc; [apply stable_sniffOp; exact Np|]. intros cl' s' R. rewrite resume_sniff in R. cbn [pb] in R.
  pose proof (fr_sniff _ _ _ _ _ F) as Sn. rewrite E in Sn. rewrite (prefix_sniff _ _ _ Np Sn) in R. injection R as <- <-.
  pose proof (fr_cl _ _ _ _ _ F) as Ncl.
  assert (X : stable (ct <~ peek cl false;;
    if isAttGroup ct then
      consumeCtr ct cl;;;
      eags <~ lift (byteCount ct cl);;
      eims <~ takeF eags false;;
      inSub eims (sized true (ct0 <~ peek cl true;;
         if isGenus ct0 then
           consumeCtr ct0 cl;;;
           v0 <~ getV;;
           g0 <~ lift (genusOf ct0);;
           restoring (orOld None v0) (setV (Some g0);;; attLoop Ser kcheck nest n cl false true e)
         else attLoop Ser kcheck nest n cl false true e))
    else attLoop Ser kcheck nest n cl false false e) (mkP v p)).
  { apply stable_bindc; [apply stable_peek|]. intros ct s' R.
    destruct (framing_peek _ _ _ _ _ _ _ F E) as [(c0 & s0 & B)|(ct' & k & B & T & Bs & Bc & L & Lp)]; rewrite B in R; [discriminate|].
    injection R as <- <-. rewrite T. apply stable_bindc; [apply (stable_consumeCtr _ _ k); [exact Bs|exact Lp]|].
    intros [] s' _. apply stable_bindc; [apply stable_lift|]. intros eags s2 _.
    apply stable_bindc; [apply stable_takeF|]. intros eims s3 _. apply stable_inSub. }
  destruct cl; [exact Logic.I|exact X|exact X|exact X].
Qed.

Lemma resume_needSome : forall v p, p <> [] -> resume (needSome false) (mkP v p) = Done (Ok tt) (mkP v p).
Proof. intros v [|x p] N; [congruence|]. unfold needSome. rewrite resume_op. reflexivity. Qed.

Lemma resume_needSome_ne : forall framed v p, p <> [] -> resume (needSome framed) (mkP v p) = Done (Ok tt) (mkP v p).
Proof. intros framed v [|x p] N; [congruence|]. unfold needSome. rewrite resume_op. reflexivity. Qed.

Lemma app_split : forall (p m b g : bytes), p ++ m = b ++ g -> len b <= len p -> exists g1, p = b ++ g1 /\ g = g1 ++ m.
Proof.
  intros p m b g E L. exists (ndrop (len b) p).
  assert (A : ntake (len b) p = b) by (rewrite <- (ntake_app_le _ (len b) p m L), E; apply ntake_len_app).
  split.
  - rewrite <- A at 1. symmetry. apply (ntake_ndrop _ (len b) p).
  - rewrite <- (ndrop_app_le _ (len b) p m L), E. symmetry. apply ndrop_len_app.
Qed.

Lemma reap_sized : forall b g p m v x t sm, smell b = Ok sm -> s_size sm = len b -> p ++ m = b ++ g -> reap v p = Ok (x, t) ->
  exists g1, p = b ++ g1 /\ g = g1 ++ m /\ t = g1.
Proof.
  intros b g p m v x t sm Sm Sz E R. unfold PsModel.reap in R. apply bind_ok in R. destruct R as (sm' & S' & R).
  apply raise_if_ok in R. destruct R as [_ R]. apply bind_ok in R. destruct R as (u & _ & R).
  apply raise_if_ok in R. destruct R as [L R]. apply bind_ok in R. destruct R as (y & _ & R). apply ok_inj in R. injection R as _ <-.
  assert (sm' = sm).
  { pose proof (c09_smell_stable p m ltac:(congruence)) as A. pose proof (c09_smell_stable b g ltac:(congruence)) as B. rewrite E in A. congruence. }
  subst sm'. rewrite Sz in L |- *. destruct (app_split _ _ _ _ E ltac:(lia)) as (g1 & P1 & P2). exists g1. split; [exact P1|]. split; [exact P2|].
  rewrite P1. apply ndrop_len_app.
Qed.

Lemma resume_reapOp : forall fr v p r s, resume (reapOp fr) (mkP v p) = Done (Ok r) s -> exists t, reap v p = Ok (r, t) /\ s = mkP v t.
Proof.
  intros fr v p r s H. unfold PsModel.reapOp, extractor in H. rewrite resume_op in H. cbn [pv pb] in H.
  destruct (PsModel.reap Ser sload v p) as [[x t]|e]; [|destruct e; try destruct fr; discriminate H].
  injection H as <- <-. eauto.
Qed.

Lemma msgP_stable_msg : forall n v b cl content g p m, sizedBody b -> framing v cl isAttGroup content g -> p ++ m = b ++ g -> p <> [] ->
  stable (msgP n false) (mkP v p).
Proof.
  intros n v b cl content g p m (Sn & sm & Sm & Sz) F E Np. destruct n as [|n]; [exact Logic.I|]. cbn [PsModel.msgP].
  assert (Nb : b <> []) by (intros ->; discriminate Sn).
  assert (Sp : sniff p = Ok Cmsg) by (apply (prefix_sniff p m); [exact Np|]; rewrite E, sniff_app by exact Nb; exact Sn).
  apply stable_bindc; [apply stable_needSome|]. intros [] s' R. rewrite resume_needSome in R by exact Np. injection R as <-.
  apply stable_bindc; [apply stable_sniffOp; exact Np|]. intros cl' s' R. rewrite resume_sniff in R. cbn [pb] in R. rewrite Sp in R. injection R as <- <-.
  apply stable_bindc; [exact Logic.I|]. intros [] s' R. cbn [resume] in R. injection R as <-.
  apply stable_bindc; [apply stable_sniffOp; exact Np|]. intros cl' s' R. rewrite resume_sniff in R. cbn [pb] in R. rewrite Sp in R. injection R as <- <-.
  apply stable_bindc; [apply stable_reapOp|]. intros x s' R. apply resume_reapOp in R. destruct R as (t & R & ->).
  destruct (reap_sized _ _ _ _ _ _ _ _ Sm Sz E R) as (g1 & P1 & P2 & ->). apply (attach_stable _ _ _ _ _ _ _ m _ F P2).
Qed.

Lemma msgP_stable_grp : forall n v cl content g p m, framing v cl isBodyAtt content g -> g = p ++ m -> p <> [] ->
  stable (msgP n false) (mkP v p).
Proof.
  intros n v cl content g p m F E Np. destruct n as [|n]; [exact Logic.I|]. cbn [PsModel.msgP].
  pose proof (fr_sniff _ _ _ _ _ F) as Sn. rewrite E in Sn. apply (prefix_sniff _ _ _ Np) in Sn. pose proof (fr_cl _ _ _ _ _ F) as Ncl.
  apply stable_bindc; [apply stable_needSome|]. intros [] s' R. rewrite resume_needSome in R by exact Np. injection R as <-.
  apply stable_bindc; [apply stable_sniffOp; exact Np|]. intros cl' s' R. rewrite resume_sniff in R. cbn [pb] in R. rewrite Sn in R. injection R as <- <-.
  assert (PK : forall ct s, resume (peek cl false) (mkP v p) = Done (Ok ct) s -> s = mkP v p /\ isBodyAtt ct = true /\ exists k, byteSize ct cl = Ok k /\ k <= len p).
  { intros ct s' R. destruct (framing_peek _ _ _ _ _ _ _ F E) as [(c0 & s0 & B)|(ct' & k & B & T & Bs & Bc & L & Lp)]; rewrite B in R; [discriminate|].
    injection R as <- <-. eauto. }
  apply (stable_bindc _ _ (mkP v p)).
  - destruct cl; try exact Logic.I; (apply stable_bindc; [apply stable_peek|]; intros ct s' R; destruct (PK _ _ R) as (-> & T & _);
     rewrite (proj1 (bodyAtt_not _ T)); exact Logic.I).
  - intros [] s' R.
    assert (s' = mkP v p) as ->.
    { destruct cl; try (injection R as <-; reflexivity);
       (rewrite resume_bindc in R; match type of R with context [resume (peek ?c false) ?s] => destruct (resume (peek c false) s) as [[ct|e] s1|] eqn:PE; try discriminate R end;
        destruct (PK _ _ eq_refl) as (-> & T & _); rewrite (proj1 (bodyAtt_not _ T)) in R; injection R as <-; reflexivity). }
    clear R. apply stable_bindc; [apply stable_sniffOp; exact Np|]. intros cl' s' R. rewrite resume_sniff in R. cbn [pb] in R. rewrite Sn in R. injection R as <- <-.
    destruct cl; [congruence|..];
     (apply stable_bindc; [apply stable_peek|]; intros ct s' R; destruct (PK _ _ R) as (-> & T & k & Bs & Lp); rewrite T;
      apply stable_bindc; [apply (stable_consumeCtr _ _ k); [exact Bs|exact Lp]|]; intros [] s' _;
      apply stable_bindc; [apply stable_lift|]; intros emgs s2 _; apply stable_bindc; [apply stable_takeF|]; intros eims s3 _; apply stable_inSub).
Qed.

Lemma frontC_stable : forall n v f p m, delimited v f -> f = p ++ m -> p <> [] -> stable (frontC n false) (mkP v p).
Proof.
  intros n v f p m D E Np.
  assert (M : stable (msgP n false) (mkP v p) -> stable (onres (msgP n false) (fun r => match r with
     | Ok e => Ret (FMsg Ser e) | Err TopLevelStreamError => Ret (FTop Ser) | Err _ => Raise ExtractionError end)) (mkP v p)).
  { intros M. apply stable_onres; [exact M|]. intros [e|e] s' _; [exact Logic.I|]. destruct e; exact Logic.I. }
  destruct D as [b content g Sb En|content g En].
  - destruct (enclosed_framing _ _ _ _ En) as (cl & F); [left; reflexivity|].
    assert (Sp : sniff p = Ok Cmsg).
    { destruct Sb as (Sn & _). apply (prefix_sniff p m); [exact Np|]. rewrite <- E, sniff_app; [exact Sn|]. intros ->. discriminate Sn. }
    unfold PsModel.frontC. cbv zeta.
    apply stable_bindc; [apply stable_sniffOp; exact Np|]. intros cl' s' R. rewrite resume_sniff in R. cbn [pb] in R. rewrite Sp in R. injection R as <- <-.
    apply M. eapply msgP_stable_msg; [exact Sb|exact F|symmetry; exact E|exact Np].
  - destruct (enclosed_framing _ _ _ _ En) as (cl & F); [right; left; reflexivity|].
    pose proof (fr_sniff _ _ _ _ _ F) as Sn. rewrite E in Sn. apply (prefix_sniff _ _ _ Np) in Sn. pose proof (fr_cl _ _ _ _ _ F) as Ncl.
    pose proof (M (msgP_stable_grp _ _ _ _ _ _ _ F E Np)) as M2. unfold PsModel.frontC. cbv zeta.
    apply stable_bindc; [apply stable_sniffOp; exact Np|]. intros cl' s' R. rewrite resume_sniff in R. cbn [pb] in R. rewrite Sn in R. injection R as <- <-.
    destruct cl; [congruence|..];
     (apply stable_bindc; [apply stable_peek|]; intros ct s' R;
      destruct (framing_peek _ _ _ _ _ _ _ F E) as [(c0 & s0 & B)|(ct' & k & B & T & _)]; rewrite B in R; [discriminate|];
      injection R as <- <-; rewrite (proj2 (bodyAtt_not _ T)); exact M2).
Qed.

Lemma groupStep_stable : forall n v f p m, delimited v f -> f = p ++ m -> p <> [] -> stable (groupStep n (g0 false)) (mkP v p).
Proof.
  intros n v f p m D E Np. unfold PsModel.groupStep, g0. cbn [unnest g_cur g_stack g_svrsn g_eggs g_framed].
  apply stable_bindc; [apply stable_setV|]. intros [] s' R. unfold setV in R. rewrite resume_op in R. injection R as <-.
  apply stable_bindc; [apply stable_isEmpty; exact Np|]. intros emp s' R. unfold isEmpty in R. rewrite resume_op in R. injection R as <- <-.
  destruct p as [|x p']; [congruence|]. cbn [pb isnil]. remember (x :: p') as p eqn:Ep. clear x p' Ep.
  apply stable_bindc.
  - unfold onCur. apply stable_onres; [eapply frontC_stable; eauto|]. intros r s' _. exact Logic.I.
  - intros [r cur] s' _. destruct r as [[eims sv'|e|]|e]; try exact Logic.I.
    + apply stable_bindc; [apply stable_getV|]. intros v' s2 _. apply stable_onres; [apply stable_setV|].
      intros [u|e] s3 _; [exact Logic.I|]. unfold leaving. apply stable_bindc; [apply stable_setV|]. intros [] s4 _. destruct (isExtraction e && true); exact Logic.I.
    + unfold leaving. apply stable_bindc; [apply stable_setV|]. intros [] s4 _. cbn [andb]. destruct (isExtraction e && false); exact Logic.I.
Qed.

(* ------------------------------------------------------------------ *)
(** A whole message at the front, and nothing else. *)

Lemma noTop_sized : forall {A} (c : com A) s r s', resume (sized true c) s = Done r s' -> r <> Err TopLevelStreamError.
Proof.
  intros A c s r s' H. unfold sized in H. rewrite resume_onres in H. destruct (resume c s) as [[a|e] s1|]; [| |discriminate].
  - injection H as <- <-. discriminate.
  - destruct (isExtraction e) eqn:X; cbn [andb resume] in H; injection H as <- <-; [discriminate|]. intros Y. injection Y as ->. discriminate X.
Qed.
Lemma noTop_restoring : forall {A} vs (c : com A), (forall s r s', resume c s = Done r s' -> r <> Err TopLevelStreamError) ->
  forall s r s', resume (restoring vs c) s = Done r s' -> r <> Err TopLevelStreamError.
Proof.
  intros A vs c Hc s r s' H. unfold restoring in H. rewrite resume_onres in H. destruct (resume c s) as [r1 s1|] eqn:E; [|discriminate].
  rewrite resume_bindc in H. unfold setV in H. rewrite resume_op in H. destruct vs as [v|].
  - destruct (_ || _).
    + injection H as <- _. discriminate.
    + rewrite resume_lift in H. injection H as <- _. apply (Hc _ _ _ E).
  - rewrite resume_lift in H. injection H as <- _. apply (Hc _ _ _ E).
Qed.
Lemma resume_inSub : forall {A} sub (c : com A) s r s', resume (inSub sub c) s = Done r s' ->
  pb s' = pb s /\ exists s1, resume c (mkP (pv s) sub) = Done r s1.
Proof.
  intros A sub c s r s' H. unfold inSub in H. rewrite resume_op in H.
  destruct (resume c (mkP (pv s) sub)) as [r1 s1|]; [|discriminate]. injection H as <- <-. split; [reflexivity|]. eauto.
Qed.
Lemma resume_takeF : forall n v b framed, n <= len b -> resume (takeF n framed) (mkP v b) = Done (Ok (ntake n b)) (mkP v (ndrop n b)).
Proof. intros n v b framed L. unfold takeF. rewrite resume_op. cbn [pb pv]. replace (len b <? n) with false by lia. reflexivity. Qed.
Lemma len0 : forall b : bytes, len b = 0 -> b = [].
Proof. intros [|x b] H; [reflexivity|]. unfold len in H. cbn [List.length] in H. lia. Qed.

Lemma framing_whole : forall fr v cl test content g, framing v cl test content g ->
  g <> [] /\ exists ct n, resume (peek cl fr) (mkP v g) = Done (Ok ct) (mkP v g) /\ test ct = true /\
   forall A (k : N -> bytes -> com A) (u : com A),
     resume (consumeCtr ct cl ;;; c <~ lift (byteCount ct cl) ;; b <~ takeF c fr ;; k n b) (mkP v g) = resume (k n content) (mkP v []).
Proof.
  intros fr v cl test content g F. destruct (fr_read _ _ _ _ _ F) as (ct & n & R & S & C & L & L0 & T & _).
  split; [intros ->; discriminate (fr_sniff _ _ _ _ _ F)|]. exists ct, n. specialize (R []). rewrite !app_nil_r in R.
  split; [rewrite resume_peek; cbn [pv pb]; rewrite R; reflexivity|]. split; [exact T|]. intros A k _.
  destruct (counterAt_inv _ _ _ _ _ R) as (n' & S' & L' & E & _). rewrite S in S'. apply ok_inj in S'. subst n'.
  rewrite resume_bindc, (resume_consumeCtr _ _ _ _ S). cbn [pv pb]. rewrite resume_bindc, resume_lift, C.
  rewrite resume_bindc, <- E, resume_takeF by lia. f_equal; [f_equal; apply ntake_all; lia|]. f_equal. apply len0. rewrite len_ndrop. lia.
Qed.

Lemma attach_whole : forall fr nest n v cl content g e r s, framing v cl isAttGroup content g ->
  resume (attach nest n fr false None e) (mkP v g) = Done r s -> pb s = [] /\ r <> Err TopLevelStreamError.
Proof.
  intros fr nest n v cl content g e r s F H. destruct (framing_whole fr _ _ _ _ _ F) as (Ng & ct & k & P & T & K).
  unfold PsModel.attach, restoring in H. rewrite resume_onres in H. unfold sized at 1 in H. rewrite resume_onres in H.
  rewrite resume_bindc, resume_needSome_ne in H by exact Ng. rewrite resume_bindc, resume_sniff in H. cbn [pb] in H. rewrite (fr_sniff _ _ _ _ _ F) in H.
  pose proof (fr_cl _ _ _ _ _ F) as Ncl.
  assert (X : forall c1 c2 : com exts, (forall s r s', resume c1 s = Done r s' -> r <> Err TopLevelStreamError) ->
     match match resume (ct <~ peek cl fr;;
       if isAttGroup ct then consumeCtr ct cl;;; eags <~ lift (byteCount ct cl);; eims <~ takeF eags fr;; inSub eims c1 else c2) (mkP v g) with
     | Done r s' => resume (match r with Ok a => Ret a | Err e => if isExtraction e && false then Raise SizedGroupError else Raise e end) s'
     | Blocked c' s' => Blocked (onres c' (fun r => match r with Ok a => Ret a | Err e => if isExtraction e && false then Raise SizedGroupError else Raise e end)) s'
     end with
     | Done r s' => resume (setV None;;; lift r) s'
     | Blocked c' s' => Blocked (onres c' (fun r => setV None;;; lift r)) s'
     end = Done r s -> pb s = [] /\ r <> Err TopLevelStreamError).
  { clear H. intros c1 c2 N1 H. rewrite resume_bindc, P, T in H. rewrite (K exts (fun _ b => inSub b c1) c2) in H.
    destruct (resume (inSub content c1) (mkP v [])) as [r1 s1|] eqn:I; [|discriminate]. apply resume_inSub in I. cbn [pb pv] in I. destruct I as (Pb & s2 & I).
    assert (Y : resume (setV None;;; lift r1) s1 = Done r s).
    { destruct r1 as [a|x]; [exact H|]. rewrite andb_false_r in H. exact H. }
    rewrite resume_bindc in Y. unfold setV in Y. rewrite resume_op, resume_lift in Y. injection Y as <- <-. split; [exact Pb|]. apply (N1 _ _ _ I). }
  destruct cl; [congruence|..|discriminate P]; (eapply X; [|exact H]; intros s0 r0 s0' R0; exact (noTop_sized _ _ _ _ R0)).
Qed.

Lemma reapOp_err : forall fr v p e s, resume (reapOp fr) (mkP v p) = Done (Err e) s -> s = mkP v p.
Proof.
  intros fr v p e s H. unfold PsModel.reapOp, extractor in H. rewrite resume_op in H. cbn [pv pb] in H.
  destruct (PsModel.reap Ser sload v p) as [[x t]|x]; [discriminate|]. destruct x; try destruct fr; try discriminate; injection H as _ <-; reflexivity.
Qed.

Lemma noTop_attach : forall nest n fr vs e s r s', resume (attach nest n fr true vs e) s = Done r s' -> r <> Err TopLevelStreamError.
Proof. intros nest n fr vs e. apply noTop_restoring. intros s r s' R0. exact (noTop_sized _ _ _ _ R0). Qed.

Lemma msgP_whole : forall fr n v f r s, delimited v f -> resume (msgP n fr) (mkP v f) = Done r s ->
  match r with Ok _ => pb s = [] | Err TopLevelStreamError => s = mkP v f | Err _ => True end.
Proof.
  intros fr n v f r s D H. destruct n as [|n]; [discriminate H|]. cbn [PsModel.msgP] in H.
  destruct D as [b content g Sb En|content g En].
  - destruct (enclosed_framing _ _ _ _ En) as (cl & F); [left; reflexivity|]. destruct Sb as (Sn & sm & Sm & Sz).
    assert (Nb : b <> []) by (intros ->; discriminate Sn).
    assert (Np : b ++ g <> []) by (destruct b; [congruence|discriminate]).
    assert (Sp : sniff (b ++ g) = Ok Cmsg) by (rewrite sniff_app by exact Nb; exact Sn).
    rewrite resume_bindc, resume_needSome_ne in H by exact Np. rewrite resume_bindc, resume_sniff in H. cbn [pb] in H. rewrite Sp in H.
    rewrite resume_bindc in H. cbn [resume] in H. rewrite resume_bindc, resume_sniff in H. cbn [pb] in H. rewrite Sp in H.
    rewrite resume_bindc in H. destruct (resume (reapOp fr) (mkP v (b ++ g))) as [[x|e] s1|] eqn:R; [| |discriminate].
    + apply resume_reapOp in R. destruct R as (t & R & ->). destruct (reap_sized b g (b ++ g) [] _ _ _ _ Sm Sz ltac:(apply app_nil_r) R) as (g1 & P1 & P2 & ->).
      rewrite app_nil_r in P2. subst g1. destruct (attach_whole _ _ _ _ _ _ _ _ _ _ F H) as [A B]. destruct r as [a|e]; [exact A|]. destruct e; try exact Logic.I. congruence.
    + injection H as <- <-. apply reapOp_err in R. subst s1. destruct e; try exact Logic.I. reflexivity.
  - destruct (enclosed_framing _ _ _ _ En) as (cl & F); [right; left; reflexivity|].
    destruct (framing_whole fr _ _ _ _ _ F) as (Ng & ct & k & P & T & K). pose proof (fr_cl _ _ _ _ _ F) as Ncl. destruct (bodyAtt_not _ T) as [T1 T2]. change (isBodyAtt ct = true) in T.
    rewrite resume_bindc, resume_needSome_ne in H by exact Ng. rewrite resume_bindc, resume_sniff in H. cbn [pb] in H. rewrite (fr_sniff _ _ _ _ _ F) in H.
    rewrite resume_bindc in H.
    assert (X : forall c1 : com exts, (forall s r s', resume c1 s = Done r s' -> r <> Err TopLevelStreamError) -> forall (h : bytes -> com exts),
      (h content = inSub content c1) -> resume (consumeCtr ct cl ;;; c <~ lift (byteCount ct cl) ;; b <~ takeF c fr ;; h b) (mkP v g) = Done r s ->
      match r with Ok _ => pb s = [] | Err TopLevelStreamError => s = mkP v g | Err _ => True end).
    { clear H. intros c1 N1 h Eh H. rewrite (K exts (fun _ b => h b) (stuck)), Eh in H. apply resume_inSub in H. cbn [pb pv] in H. destruct H as (Pb & s2 & I).
      destruct r as [a|e]; [exact Pb|]. destruct e; try exact Logic.I. exfalso. apply (N1 _ _ _ I). reflexivity. }
    destruct cl; [congruence|..|discriminate P];
     (rewrite resume_bindc, P, T1 in H; cbn [resume] in H; rewrite resume_bindc, resume_sniff in H; cbn [pb] in H; rewrite (fr_sniff _ _ _ _ _ F) in H;
      rewrite resume_bindc, P, T in H; refine (X _ _ (fun b => inSub b _) eq_refl H);
      intros s0 r0 s0' R; rewrite resume_bindc in R;
      match type of R with match resume ?c ?s with _ => _ end = _ => destruct (resume c s) as [[[x vs]|e] s1|] eqn:R1; [| |discriminate] end;
      [apply (noTop_attach _ _ _ _ _ _ _ _ R) | injection R as <- <-; intros Y; injection Y as ->; apply (noTop_sized _ _ _ _ R1); reflexivity]).
Qed.

Lemma frontC_whole : forall fr n v f r s, delimited v f -> resume (frontC n fr) (mkP v f) = Done r s ->
  match r with Ok (FMsg _ _) => pb s = [] | Ok (FTop _) => s = mkP v f | Ok (FGroup _ _ _) => False | Err _ => True end.
Proof.
  intros fr n v f r s D H.
  assert (M : resume (onres (msgP n fr) (fun r => match r with
     | Ok e => Ret (FMsg Ser e) | Err TopLevelStreamError => Ret (FTop Ser) | Err _ => Raise ExtractionError end)) (mkP v f) = Done r s ->
     match r with Ok (FMsg _ _) => pb s = [] | Ok (FTop _) => s = mkP v f | Ok (FGroup _ _ _) => False | Err _ => True end).
  { clear H. intros H. rewrite resume_onres in H. destruct (resume (msgP n fr) (mkP v f)) as [r1 s1|] eqn:R; [|discriminate].
    pose proof (msgP_whole _ _ _ _ _ _ D R) as W. destruct r1 as [e|e].
    - injection H as <- <-. exact W.
    - destruct e; injection H as <- <-; try exact Logic.I. exact W. }
  unfold PsModel.frontC in H. cbv zeta in H. rewrite resume_bindc, resume_sniff in H. cbn [pb] in H. destruct D as [b content g Sb En|content g En].
  - assert (Sp : sniff (b ++ g) = Ok Cmsg).
    { destruct Sb as (Sn & _). rewrite sniff_app; [exact Sn|]. intros ->. discriminate Sn. }
    rewrite Sp in H. apply M. exact H.
  - destruct (enclosed_framing _ _ _ _ En) as (cl & F); [right; left; reflexivity|].
    destruct (framing_whole fr _ _ _ _ _ F) as (Ng & ct & k & P & T & _). pose proof (fr_cl _ _ _ _ _ F) as Ncl. destruct (bodyAtt_not _ T) as [T1 T2].
    rewrite (fr_sniff _ _ _ _ _ F) in H. destruct cl; [congruence|..]; (rewrite resume_bindc, P, T2 in H; apply M; exact H).
Qed.

Lemma groupStep_whole : forall fr n v f r s, delimited v f -> resume (groupStep n (g0 fr)) (mkP v f) = Done (Ok r) s ->
  match r with GBreak _ => False | GNext _ g (Some _) => g = g0 fr /\ pb s = [] | GNext _ g None => g = g0 fr /\ s = mkP v f end.
Proof.
  intros fr n v f r s D H. assert (Nf : f <> []).
  { destruct D as [b content g (Sn & _) En|content g En]; [intros E; apply app_eq_nil in E; destruct E as [-> _]; discriminate Sn|].
    destruct (enclosed_framing _ _ _ _ En) as (cl & F); [right; left; reflexivity|]. apply (framing_whole fr _ _ _ _ _ F). }
  unfold PsModel.groupStep, g0 in H. cbn [unnest g_cur g_stack g_svrsn g_eggs g_framed] in H.
  rewrite resume_bindc in H. unfold setV at 1 in H. rewrite resume_op in H. rewrite resume_bindc in H. unfold isEmpty in H. rewrite resume_op in H. cbn [pb] in H.
  destruct (isnil f) eqn:Ni; [destruct f; [congruence|discriminate]|]. rewrite resume_bindc in H. unfold onCur in H. rewrite resume_onres in H.
  destruct (resume (frontC n fr) (mkP v f)) as [r1 s1|] eqn:R; [|discriminate]. pose proof (frontC_whole _ _ _ _ _ _ D R) as W. cbn [resume] in H.
  destruct r1 as [[eims sv|e|]|e].
  - contradiction.
  - injection H as <- <-. auto.
  - injection H as <- <-. auto.
  - unfold leaving in H. rewrite resume_bindc in H. cbn [rev] in H. unfold setV in H. rewrite resume_op in H. destruct (isExtraction e && false); discriminate H.
Qed.

(* ------------------------------------------------------------------ *)
(** The stream in chunks. *)
Local Notation turn := (turn Ser sload nload kcheck).
Local Notation fresh := (fresh Ser sload nload kcheck).
Local Notation feed := (feed Ser).
Local Notation session := (session Ser sload nload kcheck).
Local Notation alone := (alone Ser sload nload kcheck).
Local Notation begun := (begun Ser sload nload kcheck).

Lemma resume_fresh_nil : forall n v framed, resume (groupStep n (g0 framed)) (mkP v []) = Done (Ok (GBreak Ser)) (mkP v []).
Proof. intros n v framed. unfold PsModel.groupStep, g0. cbn [unnest g_cur g_stack g_svrsn]. rewrite resume_bindc. unfold setV. rewrite resume_op, resume_bindc. unfold isEmpty. rewrite resume_op. reflexivity. Qed.

Lemma alone_step : forall fr n v f e, delimited v f -> alone n fr v f e ->
  resume (groupStep n (g0 fr)) (mkP v f) = Done (Ok (GNext Ser (g0 fr) (Some e))) (mkP v []).
Proof.
  intros fr n v f e D (m & H). revert H. unfold PsModel.feed, PsModel.fresh. cbn [fst snd pv pb app].
  induction m as [|m IH]; intros H; [discriminate H|]. cbn [PsModel.turn fst snd] in H.
  destruct (resume (groupStep n (g0 fr)) (mkP v f)) as [[r|x] s|c s] eqn:R; [| |discriminate H].
  - pose proof (groupStep_whole _ _ _ _ _ _ D R) as W. destruct r as [|g [e'|]].
    + contradiction.
    + destruct W as [-> Pb]. destruct s as [v' b]. cbn [pb] in Pb. subst b. destruct m as [|m]; [discriminate H|]. cbn [PsModel.turn fst snd] in H.
      rewrite resume_fresh_nil in H. unfold PsModel.fresh in H. injection H as <- <-. reflexivity.
    + destruct W as [-> ->]. apply IH. destruct (turn n fr m (groupStep n (g0 fr), mkP v f)) as [[es x']|]; [|discriminate H]. exact H.
  - discriminate H.
Qed.

Lemma step_more : forall n v f e t, delimited v f -> alone n false v f e ->
  resume (groupStep n (g0 false)) (mkP v (f ++ t)) = Done (Ok (GNext Ser (g0 false) (Some e))) (mkP v t).
Proof.
  intros n v f e t D A. pose proof (alone_step _ _ _ _ _ D A) as R.
  assert (Nf : f <> []) by (intros ->; rewrite resume_fresh_nil in R; discriminate R).
  pose proof (groupStep_stable n v f f [] D ltac:(rewrite app_nil_r; reflexivity) Nf) as St.
  apply (stable_done _ _ _ _ St R t).
Qed.
Lemma step_begun : forall n v f e p q, delimited v f -> alone n false v f e -> f = p ++ q -> q <> [] -> p <> [] ->
  exists c s, resume (groupStep n (g0 false)) (mkP v p) = Blocked c s.
Proof.
  intros n v f e p q D A E Nq Np. pose proof (groupStep_stable n v f p q D E Np) as St.
  destruct (resume (groupStep n (g0 false)) (mkP v p)) as [r s|c s] eqn:R; [|eauto].
  pose proof (stable_done _ _ _ _ St R q) as X. unfold more in X. cbn [pv pb] in X. rewrite <- E, (alone_step _ _ _ _ _ D A) in X.
  injection X as _ _ X. destruct (pb s); [|discriminate X]. cbn [app] in X. congruence.
Qed.

(** the generator after it has read the beginning [p] of a message *)
Definition at_ (n : nat) (v : CtrModel.versionage) (p : bytes) (x : gen Ser) : Prop :=
  (p = [] /\ x = fresh n false (mkP v [])) \/ (p <> [] /\ begun n v p /\ resume (groupStep n (g0 false)) (mkP v p) = Blocked (fst x) (snd x)).

Lemma at_feed : forall n v p x b, at_ n v p x -> resume (fst (feed x b)) (snd (feed x b)) = resume (groupStep n (g0 false)) (mkP v (p ++ b)).
Proof.
  intros n v p x b [[-> ->]|(Np & Bg & R)]; [reflexivity|]. destruct Bg as [E|(f & e & q & D & A & E & Nq)]; [congruence|].
  pose proof (groupStep_stable n v f p q D E Np) as St. symmetry. apply (stable_blocked _ _ _ _ St R b).
Qed.

Lemma turn_eq : forall n m x y, resume (fst x) (snd x) = resume (fst y) (snd y) -> turn n false m x = turn n false m y.
Proof. intros n [|m] x y H; [reflexivity|]. cbn [PsModel.turn]. rewrite H. reflexivity. Qed.

Lemma turn_frames : forall n v fs es p, Forall2 (fun f e => delimited v f /\ alone n false v f e) fs es -> begun n v p ->
  exists x', at_ n v p x' /\ (exists M, turn n false M (groupStep n (g0 false), mkP v (List.concat fs ++ p)) = Some (es, x')) /\
  forall m es' x'', turn n false m (groupStep n (g0 false), mkP v (List.concat fs ++ p)) = Some (es', x'') -> es' = es /\ x'' = x'.
Proof.
  intros n v fs es p H Bg. induction H as [|f e fs es [D A] H IH]; cbn [List.concat].
  - cbn [app]. destruct p as [|y p'].
    + exists (fresh n false (mkP v [])). split; [left; auto|]. split.
      * exists 1%nat. cbn [PsModel.turn fst snd]. rewrite resume_fresh_nil. reflexivity.
      * intros [|m] es' x'' T; [discriminate T|]. cbn [PsModel.turn fst snd] in T. rewrite resume_fresh_nil in T. injection T as <- <-. auto.
    + remember (y :: p') as p eqn:Ep. assert (Np : p <> []) by congruence. pose proof Bg as Bg'.
      destruct Bg as [E|(f & e & q & D & A & E & Nq)]; [congruence|]. destruct (step_begun _ _ _ _ _ _ D A E Nq Np) as (c & s & R).
      exists (c, s). split; [right; auto|]. split.
      * exists 1%nat. cbn [PsModel.turn fst snd]. rewrite R. reflexivity.
      * intros [|m] es' x'' T; [discriminate T|]. cbn [PsModel.turn fst snd] in T. rewrite R in T. injection T as <- <-. auto.
  - destruct IH as (x' & At & (M & TM) & U). exists x'. split; [exact At|]. rewrite <- app_assoc. split.
    + exists (S M). cbn [PsModel.turn fst snd]. rewrite (step_more _ _ _ _ _ D A), TM. reflexivity.
    + intros [|m] es' x'' T; [discriminate T|]. cbn [PsModel.turn fst snd] in T. rewrite (step_more _ _ _ _ _ D A) in T.
      destruct (turn n false m (groupStep n (g0 false), mkP v (List.concat fs ++ p))) as [[es2 x2]|] eqn:T2; [|discriminate T].
      injection T as <- <-. destruct (U _ _ _ T2) as [-> ->]. auto.
Qed.

Lemma prefix_split : forall n v fs es p b r, Forall2 (fun f e => delimited v f /\ alone n false v f e) fs es -> begun n v p -> b ++ r = List.concat fs ++ p ->
  exists fa fb ea eb p', fs = fa ++ fb /\ es = ea ++ eb /\ b = List.concat fa ++ p' /\ p' ++ r = List.concat fb ++ p /\ begun n v p' /\
   Forall2 (fun f e => delimited v f /\ alone n false v f e) fa ea /\ Forall2 (fun f e => delimited v f /\ alone n false v f e) fb eb.
Proof.
  intros n v fs es p b r H Bg. revert b. induction H as [|f e fs es [D A] H IH]; intros b E; cbn [List.concat] in E.
  - exists [], [], [], [], b. cbn [List.concat app] in *. repeat (split; [solve [auto]|]). split; [|auto].
    destruct Bg as [->|(f & e & q & D & A & Ef & Nq)].
    + left. apply app_eq_nil in E. apply E.
    + right. exists f, e, (r ++ q). split; [exact D|]. split; [exact A|]. split; [rewrite app_assoc, E; exact Ef|]. intros X. apply app_eq_nil in X. apply Nq, X.
  - rewrite <- app_assoc in E. destruct (N.le_gt_cases (len f) (len b)) as [L|L].
    + destruct (app_split _ _ _ _ E L) as (b' & -> & E2). destruct (IH _ (eq_sym E2)) as (fa & fb & ea & eb & p' & -> & -> & -> & E3 & Bg' & F1 & F2).
      exists (f :: fa), fb, (e :: ea), eb, p'. cbn [List.concat app]. rewrite <- app_assoc. repeat (split; [solve [auto]|]). exact F2.
    + symmetry in E. destruct (app_split _ _ _ _ E ltac:(lia)) as (q & -> & E2).
      exists [], ((b ++ q) :: fs), [], (e :: es), b. cbn [List.concat app]. repeat (split; [solve [auto]|]).
      split; [rewrite E2, <- !app_assoc; reflexivity|]. split; [|split; [constructor|constructor; auto]].
      right. exists (b ++ q), e, q. split; [exact D|]. split; [exact A|]. split; [reflexivity|]. intros ->. rewrite app_nil_r in L. lia.
Qed.

Theorem chunks : forall n v cs fs es p, Forall2 (fun f e => delimited v f /\ alone n false v f e) fs es -> begun n v p ->
  List.concat cs = List.concat fs ++ p ->
  (exists x, session n false (fresh n false (mkP v [])) cs es x) /\
  (forall es' x, session n false (fresh n false (mkP v [])) cs es' x -> es' = es).
Proof.
  intros n v cs0 fs es p.
  assert (G : forall cs x p0 fs es, Forall2 (fun f e => delimited v f /\ alone n false v f e) fs es -> begun n v p -> at_ n v p0 x ->
    p0 ++ List.concat cs = List.concat fs ++ p ->
    (exists x', session n false x cs es x') /\ (forall es' x', session n false x cs es' x' -> es' = es)).
  { clear fs es. induction cs as [|c cs' IH]; intros x p0 fs es H Bg At E.
    - assert (E' : p0 = List.concat fs ++ p) by (rewrite <- E; symmetry; apply app_nil_r). clear E. rename E' into E.
      assert (Z : fs = []).
      { destruct H as [|f e fs es [D A] H]; [reflexivity|]. exfalso. cbn [List.concat] in E. rewrite <- app_assoc in E.
        pose proof (step_more n v f e (List.concat fs ++ p) D A) as R1. rewrite <- E in R1.
        destruct At as [[-> _]|(Np & _ & R2)]; [rewrite resume_fresh_nil in R1; discriminate R1|rewrite R2 in R1; discriminate R1]. }
      subst fs. inversion H. subst es. split; [exists x; constructor|]. intros es' x' S. inversion S. reflexivity.
    - cbn [List.concat] in E. rewrite app_assoc in E.
      destruct (prefix_split _ _ _ _ _ _ _ H Bg E) as (fa & fb & ea & eb & p' & -> & -> & E1 & E2 & Bg' & F1 & F2).
      destruct (turn_frames n v fa ea p' F1 Bg') as (x1 & At1 & (M & TM) & U).
      assert (TE : forall m, turn n false m (feed x c) = turn n false m (groupStep n (g0 false), mkP v (List.concat fa ++ p'))).
      { intros m. apply turn_eq. rewrite (at_feed _ _ _ _ c At), E1. reflexivity. }
      destruct (IH x1 p' fb eb F2 Bg At1 E2) as ((x' & S1) & S2). split.
      + exists x'. eapply session_cons; [rewrite TE; exact TM|exact S1].
      + intros es' x'' S. inversion S as [|? ? ? m e1 e2 x2 ? T S' ]. subst. rewrite TE in T. destruct (U _ _ _ T) as [-> ->].
        f_equal. apply (S2 _ _ S'). }
  intros H Bg E. apply (G cs0 (fresh n false (mkP v [])) [] fs es H Bg); [left; auto|exact E].
Qed.

(* ------------------------------------------------------------------ *)
(** Whole messages at a framed parser. *)

Lemma stable_peek_ok : forall cl abort v b ct t, counterAt cl v b = Ok (ct, t) -> stable (peek cl abort) (mkP v b).
Proof.
  intros cl abort v b ct t H. apply stable_op. intros r s' R m. unfold more. cbn [pv pb] in *.
  rewrite H in R. rewrite (counterAt_ext cl v b m) by congruence. rewrite H. cbn [ext]. injection R as <- <-. reflexivity.
Qed.
Lemma stable_takeF_le : forall n framed s, n <= len (pb s) -> stable (takeF n framed) s.
Proof.
  intros n framed s L. apply stable_op. intros r s' H m. unfold more in *. cbn in *. rewrite len_app.
  replace (len (pb s) <? n) with false in H by lia. injection H as <- <-. cbn.
  replace (len (pb s) + len m <? n) with false by lia. cbn. rewrite ntake_app_le, ndrop_app_le by lia. reflexivity.
Qed.
Lemma stable_needSome_ne : forall framed s, pb s <> [] -> stable (needSome framed) s.
Proof.
  intros framed s N. apply stable_op. intros r s' H m. cbn in *. destruct (pb s) as [|x l] eqn:E; [congruence|].
  injection H as <- <-. unfold more. cbn. rewrite E. reflexivity.
Qed.

Lemma whole_counter : forall v cl test content g, framing v cl test content g ->
  exists ct n, counterAt cl v g = Ok (ct, content) /\ test ct = true /\ byteSize ct cl = Ok n /\ byteCount ct cl = Ok (len content) /\ n + len content = len g.
Proof.
  intros v cl test content g F. destruct (fr_read _ _ _ _ _ F) as (ct & n & R & S & C & L & L0 & T & _).
  exists ct, n. specialize (R []). rewrite !app_nil_r in R. auto.
Qed.
Lemma resume_peek_ok : forall cl abort v b ct t, counterAt cl v b = Ok (ct, t) -> resume (peek cl abort) (mkP v b) = Done (Ok ct) (mkP v b).
Proof. intros cl abort v b ct t H. rewrite resume_peek. cbn [pv pb]. rewrite H. reflexivity. Qed.

Lemma attach_stable_whole : forall fr nest n v cl content g e, framing v cl isAttGroup content g ->
  stable (attach nest n fr false None e) (mkP v g).
Proof.
  intros fr nest n v cl content g e F. destruct (whole_counter _ _ _ _ _ F) as (ct & k & R & T & Bs & Bc & L).
  pose proof (fr_sniff _ _ _ _ _ F) as Sn. pose proof (fr_cl _ _ _ _ _ F) as Ncl.
  assert (Ng : g <> []) by (intros ->; discriminate Sn).
  unfold PsModel.attach. apply stable_restoring, stable_sized.
  apply stable_bindc; [apply stable_needSome_ne; exact Ng|]. intros [] s' X. rewrite resume_needSome_ne in X by exact Ng. injection X as <-.
  apply stable_bindc; [apply stable_sniffOp; exact Ng|]. intros cl' s' X. rewrite resume_sniff in X. cbn [pb] in X. rewrite Sn in X. injection X as <- <-.
  destruct cl; [congruence|..];
   (apply stable_bindc; [apply (stable_peek_ok _ _ _ _ _ _ R)|]; intros ct' s' X; rewrite (resume_peek_ok _ _ _ _ _ _ R) in X; injection X as <- <-; rewrite T;
    apply stable_bindc; [apply (stable_consumeCtr _ _ k); [exact Bs|cbn [pb]; lia]|]; intros [] s' X; rewrite (resume_consumeCtr _ _ _ _ Bs) in X; injection X as <-;
    rewrite Bc; apply stable_bindc; [apply stable_lift|]; intros eags s' X; cbn [lift resume] in X; injection X as <- <-;
    apply stable_bindc; [apply stable_takeF_le; cbn [pb]; rewrite len_ndrop; lia|]; intros eims s' _; apply stable_inSub).
Qed.

Lemma reap_sized_ext : forall v b g sm m, smell b = Ok sm -> s_size sm = len b -> reap v (b ++ g ++ m) = ext (reap v (b ++ g)) m.
Proof.
  intros v b g sm m Sm Sz. unfold PsModel.reap. rewrite !(c09_smell_stable b) by congruence. rewrite Sm. cbn [bind].
  destruct (vmajor v <? fst (s_pvrsn sm)); [reflexivity|].
  match goal with |- bind ?x _ = _ => destruct x as [u|e] end; [|reflexivity]. cbn [bind]. rewrite Sz.
  replace (len (b ++ g ++ m) <? len b) with false by (rewrite len_app; lia). replace (len (b ++ g) <? len b) with false by (rewrite len_app; lia).
  rewrite !ntake_len_app, !ndrop_len_app. destruct (sload sm b); reflexivity.
Qed.

Lemma msgP_stable_whole : forall fr n v f, delimited v f -> stable (msgP n fr) (mkP v f).
Proof.
  intros fr n v f D. destruct n as [|n]; [exact Logic.I|]. cbn [PsModel.msgP]. destruct D as [b content g Sb En|content g En].
  - destruct (enclosed_framing _ _ _ _ En) as (cl & F); [left; reflexivity|]. destruct Sb as (Sn & sm & Sm & Sz).
    assert (Nb : b <> []) by (intros ->; discriminate Sn).
    assert (Np : b ++ g <> []) by (destruct b; [congruence|discriminate]).
    assert (Sp : sniff (b ++ g) = Ok Cmsg) by (rewrite sniff_app by exact Nb; exact Sn).
    apply stable_bindc; [apply stable_needSome_ne; exact Np|]. intros [] s' R. rewrite resume_needSome_ne in R by exact Np. injection R as <-.
    apply stable_bindc; [apply stable_sniffOp; exact Np|]. intros cl' s' R. rewrite resume_sniff in R. cbn [pb] in R. rewrite Sp in R. injection R as <- <-.
    apply stable_bindc; [exact Logic.I|]. intros [] s' R. cbn [resume] in R. injection R as <-.
    apply stable_bindc; [apply stable_sniffOp; exact Np|]. intros cl' s' R. rewrite resume_sniff in R. cbn [pb] in R. rewrite Sp in R. injection R as <- <-.
    apply stable_bindc.
    + apply stable_op. intros r s' R m. unfold more. cbn [pv pb] in *. rewrite <- app_assoc, (reap_sized_ext _ _ _ _ _ Sm Sz).
      destruct (PsModel.reap Ser sload v (b ++ g)) as [[x t]|e]; cbn [ext]; [injection R as <- <-; reflexivity|].
      destruct e; try destruct fr; try discriminate; injection R as <- <-; cbn [pv pb]; rewrite <- ?app_assoc; reflexivity.
    + intros x s' R. apply resume_reapOp in R. destruct R as (t & R & ->).
      destruct (reap_sized b g (b ++ g) [] _ _ _ _ Sm Sz ltac:(apply app_nil_r) R) as (g1 & P1 & P2 & ->). rewrite app_nil_r in P2. subst g1.
      apply (attach_stable_whole _ _ _ _ _ _ _ _ F).
  - destruct (enclosed_framing _ _ _ _ En) as (cl & F); [right; left; reflexivity|].
    destruct (whole_counter _ _ _ _ _ F) as (ct & k & R & T & Bs & Bc & L). change (isBodyAtt ct = true) in T.
    pose proof (fr_sniff _ _ _ _ _ F) as Sn. pose proof (fr_cl _ _ _ _ _ F) as Ncl. destruct (bodyAtt_not _ T) as [T1 T2].
    assert (Ng : g <> []) by (intros ->; discriminate Sn).
    apply stable_bindc; [apply stable_needSome_ne; exact Ng|]. intros [] s' X. rewrite resume_needSome_ne in X by exact Ng. injection X as <-.
    apply stable_bindc; [apply stable_sniffOp; exact Ng|]. intros cl' s' X. rewrite resume_sniff in X. cbn [pb] in X. rewrite Sn in X. injection X as <- <-.
    apply (stable_bindc _ _ (mkP v g)).
    + destruct cl; try exact Logic.I; (apply stable_bindc; [apply (stable_peek_ok _ _ _ _ _ _ R)|]; intros ct' s' X; rewrite (resume_peek_ok _ _ _ _ _ _ R) in X; injection X as <- <-; rewrite T1; exact Logic.I).
    + intros [] s' X.
      assert (s' = mkP v g) as ->.
      { destruct cl; [congruence|..]; (rewrite resume_bindc, (resume_peek_ok _ _ _ _ _ _ R), T1 in X; injection X as <-; reflexivity). }
      clear X. apply stable_bindc; [apply stable_sniffOp; exact Ng|]. intros cl' s' X. rewrite resume_sniff in X. cbn [pb] in X. rewrite Sn in X. injection X as <- <-.
      destruct cl; [congruence|..];
       (apply stable_bindc; [apply (stable_peek_ok _ _ _ _ _ _ R)|]; intros ct' s' X; rewrite (resume_peek_ok _ _ _ _ _ _ R) in X; injection X as <- <-; rewrite T;
        apply stable_bindc; [apply (stable_consumeCtr _ _ k); [exact Bs|cbn [pb]; lia]|]; intros [] s' X; rewrite (resume_consumeCtr _ _ _ _ Bs) in X; injection X as <-;
        rewrite Bc; apply stable_bindc; [apply stable_lift|]; intros eags s' X; cbn [lift resume] in X; injection X as <- <-;
        apply stable_bindc; [apply stable_takeF_le; cbn [pb]; rewrite len_ndrop; lia|]; intros eims s' _; apply stable_inSub).
Qed.

Lemma groupStep_stable_whole : forall fr n v f, delimited v f -> stable (groupStep n (g0 fr)) (mkP v f).
Proof.
  intros fr n v f D. pose proof (msgP_stable_whole fr n v f D) as M0.
  assert (M : stable (onres (msgP n fr) (fun r => match r with
     | Ok e => Ret (FMsg Ser e) | Err TopLevelStreamError => Ret (FTop Ser) | Err _ => Raise ExtractionError end)) (mkP v f)).
  { apply stable_onres; [exact M0|]. intros [e|e] s' _; [exact Logic.I|]. destruct e; exact Logic.I. }
  assert (Fr : f <> [] /\ stable (frontC n fr) (mkP v f)).
  { destruct D as [b content g Sb En|content g En].
    - assert (Sp : sniff (b ++ g) = Ok Cmsg).
      { destruct Sb as (Sn & _). rewrite sniff_app; [exact Sn|]. intros ->. discriminate Sn. }
      split; [intros E; rewrite E in Sp; discriminate Sp|]. unfold PsModel.frontC. cbv zeta.
      apply stable_bindc; [apply stable_sniffOp; intros E; cbn [pb] in E; rewrite E in Sp; discriminate Sp|].
      intros cl' s' R. rewrite resume_sniff in R. cbn [pb] in R. rewrite Sp in R. injection R as <- <-. exact M.
    - destruct (enclosed_framing _ _ _ _ En) as (cl & F); [right; left; reflexivity|].
      destruct (whole_counter _ _ _ _ _ F) as (ct & k & R & T & _). pose proof (fr_sniff _ _ _ _ _ F) as Sn. pose proof (fr_cl _ _ _ _ _ F) as Ncl.
      assert (Ng : g <> []) by (intros ->; discriminate Sn). split; [exact Ng|]. unfold PsModel.frontC. cbv zeta.
      apply stable_bindc; [apply stable_sniffOp; exact Ng|]. intros cl' s' X. rewrite resume_sniff in X. cbn [pb] in X. rewrite Sn in X. injection X as <- <-.
      destruct cl; [congruence|..];
       (apply stable_bindc; [apply (stable_peek_ok _ _ _ _ _ _ R)|]; intros ct' s' X; rewrite (resume_peek_ok _ _ _ _ _ _ R) in X; injection X as <- <-;
        rewrite (proj2 (bodyAtt_not _ T)); exact M). }
  destruct Fr as [Nf St]. unfold PsModel.groupStep, g0. cbn [unnest g_cur g_stack g_svrsn g_eggs g_framed].
  apply stable_bindc; [apply stable_setV|]. intros [] s' R. unfold setV in R. rewrite resume_op in R. injection R as <-.
  apply stable_bindc; [apply stable_isEmpty; exact Nf|]. intros emp s' R. unfold isEmpty in R. rewrite resume_op in R. injection R as <- <-.
  cbn [pb]. destruct (isnil f) eqn:Ni; [exact Logic.I|].
  apply stable_bindc.
  - unfold onCur. apply stable_onres; [exact St|]. intros r s' _. exact Logic.I.
  - intros [r cur] s' _. destruct r as [[eims sv'|e|]|e]; try exact Logic.I.
    + apply stable_bindc; [apply stable_getV|]. intros v' s2 _. apply stable_onres; [apply stable_setV|].
      intros [u|e] s3 _; [exact Logic.I|]. unfold leaving. apply stable_bindc; [apply stable_setV|]. intros [] s4 _. destruct (isExtraction e && true); exact Logic.I.
    + unfold leaving. apply stable_bindc; [apply stable_setV|]. intros [] s4 _. cbn [andb]. destruct (isExtraction e && false); exact Logic.I.
Qed.

Lemma turn_whole : forall fr n v fs es, Forall2 (fun f e => delimited v f /\ alone n fr v f e) fs es ->
  (exists M, turn n fr M (fresh n fr (mkP v (List.concat fs))) = Some (es, fresh n fr (mkP v []))) /\
  forall m es' x, turn n fr m (fresh n fr (mkP v (List.concat fs))) = Some (es', x) -> es' = es /\ x = fresh n fr (mkP v []).
Proof.
  intros fr n v fs es H. induction H as [|f e fs es [D A] H ((M & TM) & U)]; cbn [List.concat].
  - split.
    + exists 1%nat. cbn [PsModel.turn PsModel.fresh fst snd]. rewrite resume_fresh_nil. reflexivity.
    + intros [|m] es' x T; [discriminate T|]. cbn [PsModel.turn PsModel.fresh fst snd] in T. rewrite resume_fresh_nil in T. injection T as <- <-. auto.
  - pose proof (alone_step _ _ _ _ _ D A) as R. pose proof (stable_done _ _ _ _ (groupStep_stable_whole fr n v f D) R (List.concat fs)) as R2.
    unfold more in R2. cbn [pv pb app] in R2. split.
    + exists (S M). cbn [PsModel.turn PsModel.fresh fst snd]. rewrite R2. unfold PsModel.fresh in TM. rewrite TM. reflexivity.
    + intros [|m] es' x T; [discriminate T|]. cbn [PsModel.turn PsModel.fresh fst snd] in T. rewrite R2 in T.
      destruct (turn n fr m (groupStep n (g0 fr), mkP v (List.concat fs))) as [[es2 x2]|] eqn:T2; [|discriminate T].
      injection T as <- <-. destruct (U _ _ _ T2) as [-> ->]. auto.
Qed.

Theorem whole_chunks : forall fr n v fss es, Forall2 (fun f e => delimited v f /\ alone n fr v f e) (List.concat fss) es ->
  (exists x, session n fr (fresh n fr (mkP v [])) (map (@List.concat N) fss) es x) /\
  (forall es' x, session n fr (fresh n fr (mkP v [])) (map (@List.concat N) fss) es' x -> es' = es).
Proof.
  intros fr n v fss. induction fss as [|fs fss IH]; intros es H; cbn [List.concat map] in *.
  - inversion H. subst es. split; [eexists; constructor|]. intros es' x S. inversion S. reflexivity.
  - apply Forall2_app_inv_l in H. destruct H as (e1 & e2 & H1 & H2 & ->). destruct (turn_whole _ _ _ _ _ H1) as ((M & TM) & U).
    destruct (IH _ H2) as ((x & S1) & S2). split.
    + exists x. eapply session_cons; [exact TM|exact S1].
    + intros es' x' S. inversion S as [|? ? ? m a1 a2 x2 ? T S']. subst. destruct (U _ _ _ T) as [-> ->]. f_equal. apply (S2 _ _ S').
Qed.

(* ------------------------------------------------------------------ *)
(** Running concrete sessions. *)
Fixpoint run (n : nat) (framed : bool) (m : nat) (x : gen Ser) (cs : list bytes) : option (list exts * gen Ser) :=
  match cs with
  | [] => Some ([], x)
  | c :: cs => match turn n framed m (feed x c) with
               | None => None
               | Some (es, x') => match run n framed m x' cs with Some (es', x'') => Some (es ++ es', x'') | None => None end
               end
  end.
Lemma run_session : forall n framed m cs x es, option_map fst (run n framed m x cs) = Some es -> exists x', session n framed x cs es x'.
Proof.
  intros n framed m. induction cs as [|c cs IH]; intros x es H; cbn [run option_map] in H.
  - injection H as <-. eexists. constructor.
  - destruct (turn n framed m (feed x c)) as [[e1 x1]|] eqn:T; [|discriminate]. destruct (run n framed m x1 cs) as [[e2 x2]|] eqn:R; [|discriminate].
    injection H as <-. destruct (IH x1 e2) as (x' & S); [rewrite R; reflexivity|]. exists x'. eapply session_cons; [exact T|exact S].
Qed.
Lemma turn_mono : forall n framed m x r, turn n framed m x = Some r -> forall k, turn n framed (m + k) x = Some r.
Proof.
  intros n framed. induction m as [|m IH]; intros x r H k; [discriminate|]. cbn [PsModel.turn Nat.add] in *.
  destruct (resume (fst x) (snd x)) as [[[|g e]|e] s|c s]; try exact H.
  destruct (turn n framed m (groupStep n g, s)) as [[es x']|] eqn:T; [|discriminate]. rewrite (IH _ _ T). exact H.
Qed.
Lemma turn_det : forall n framed m m' x r r', turn n framed m x = Some r -> turn n framed m' x = Some r' -> r = r'.
Proof.
  intros n framed m m' x r r' H H'. pose proof (turn_mono _ _ _ _ _ H m') as A. pose proof (turn_mono _ _ _ _ _ H' m) as B.
  rewrite Nat.add_comm in B. congruence.
Qed.
Lemma session_det : forall n framed cs x es x1 es' x2, session n framed x cs es x1 -> session n framed x cs es' x2 -> es = es' /\ x1 = x2.
Proof.
  intros n framed. induction cs as [|c cs IH]; intros x es x1 es' x2 H H'.
  - inversion H. inversion H'. subst. auto.
  - inversion H as [|? ? ? m a1 a2 y1 ? T S]. inversion H' as [|? ? ? m' b1 b2 y2 ? T' S']. subst.
    pose proof (turn_det _ _ _ _ _ _ _ T T') as E. injection E as <- <-. destruct (IH _ _ _ _ _ S S') as [-> ->]. auto.
Qed.
Lemma alone_intro : forall fr n v f e, resume (groupStep n (g0 fr)) (mkP v f) = Done (Ok (GNext Ser (g0 fr) (Some e))) (mkP v []) -> alone n fr v f e.
Proof.
  intros fr n v f e H. exists 2%nat. unfold PsModel.feed, PsModel.fresh. cbn [PsModel.turn fst snd pv pb app]. rewrite H.
  cbn [PsModel.turn fst snd]. rewrite resume_fresh_nil. reflexivity.
Qed.
End Ps.
