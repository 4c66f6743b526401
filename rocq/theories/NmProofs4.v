(** Reading a native field map ends: its result does not depend on the bound on the number of calls. *)
From Verif Require Import Prelude B64Model B64Proofs MatterModel MatterProofs MatterInv MatterSpec MatterThms SubsModel SubsProofs SubsThms CtrModel CtrProofs CtrThms ThModel ThProofs JsonModel JsonProofs SerProofs PsProofs PsTerm NmModel NmSpec NmProofs NmProofs2.
Open Scope N_scope.
Notation val := JsonModel.val.
Ltac Zify.zify_post_hook ::= Z.div_mod_to_equations.

Lemma strip_shorter : forall s m r, matter_strip s = Ok (m, r) -> (List.length r < List.length s)%nat.
Proof.
  intros s m r H. unfold matter_strip in H. apply bind_ok in H. destruct H as (m' & X & H). apply bind_ok in H. destruct H as (f & F & H). apply ok_inj in H. injection H as -> <-.
  pose proof (fullSize_pos _ _ F) as P. unfold ndrop. rewrite skipn_length. destruct s; [discriminate|]. cbn [List.length]. lia.
Qed.
Lemma cstrip_shorter : forall s c r, counter_strip V20 s = Ok (c, r) -> (List.length r < List.length s)%nat.
Proof.
  intros s c r H. unfold counter_strip in H. apply bind_ok in H. destruct H as (c' & X & H). apply bind_ok in H. destruct H as (sz & F & H). apply ok_inj in H. injection H as -> <-.
  destruct (cexfil_inv _ _ _ X) as (codes & sizes & sz' & K & _ & _ & L). rewrite (csize_ok _ _ _ _ K) in F. apply ok_inj in F. subst sz'.
  pose proof (csizes_wf _ _ _ _ _ (co_tab _ _ _ _ K) (co_sz _ _ _ _ K)) as W. pose proof (cw_hs _ _ _ W). pose proof (cw_fs _ _ _ W). unfold ndrop. rewrite skipn_length. unfold len in L. lia.
Qed.
Lemma label_shorter : forall strict s l r, readLabel strict s = Ok (l, r) -> (List.length r < List.length s)%nat.
Proof.
  intros strict s l r H. unfold readLabel in H. apply bind_ok in H. destruct H as ([m r'] & S1 & H). apply bind_ok in H. destruct H as (m' & _ & H). apply bind_ok in H. destruct H as (l' & _ & H). apply ok_inj in H. injection H as -> ->. exact (strip_shorter _ _ _ S1).
Qed.
Lemma des_shorter : forall n strict s v r, deserialize n strict s = Ok (v, r) -> (List.length r < List.length s)%nat.
Proof.
  intros n strict s v r H. destruct n as [|n]; [discriminate|]. destruct s as [|x s]; [discriminate|]. cbn [deserialize] in H. destruct (x =? 45).
  - apply bind_ok in H. destruct H as ([c r1] & S1 & H). apply cstrip_shorter in S1. cbv zeta in H.
    assert (G : (List.length (ndrop (byteCount_txt c) r1) < List.length (x :: s))%nat) by (unfold ndrop; rewrite skipn_length; lia).
    destruct (isList (c_name c)); [apply bind_ok in H; destruct H as (l & _ & H); apply ok_inj in H; injection H as _ <-; exact G|].
    destruct (isMapName (c_name c)); [|discriminate]. apply bind_ok in H; destruct H as (l & _ & H); apply ok_inj in H; injection H as _ <-; exact G.
  - apply bind_ok in H. destruct H as ([m r1] & S1 & H). apply strip_shorter in S1. destruct (beq (m_code m) Escape).
    + apply bind_ok in H. destruct H as ([p r2] & S2 & H). apply strip_shorter in S2. apply bind_ok in H. destruct H as (q & _ & H). apply ok_inj in H. injection H as _ <-. lia.
    + apply bind_ok in H. destruct H as (w & _ & H). apply ok_inj in H. injection H as _ <-. exact S1.
Qed.
Lemma des_step : forall n strict s, deserialize (S n) strict s =
  match s with
  | [] => Err IndexError
  | x :: _ =>
      if x =? 45 then
        '(ctr, r) <- counter_strip V20 s ;;
        let k := byteCount_txt ctr in
        if isList (c_name ctr) then l <- desElems n strict (ntake k r) ;; Ok (VList l, ndrop k r)
        else if isMapName (c_name ctr) then m <- desFields n strict (ntake k r) [] ;; Ok (VMap m, ndrop k r)
        else Err DeserializeError
      else
        '(m, r) <- matter_strip s ;;
        if beq (m_code m) Escape then '(p, r') <- matter_strip r ;; q <- infil p ;; Ok (VStr q, r')
        else v <- primValue m ;; Ok (v, r)
  end.
Proof. reflexivity. Qed.
Lemma des_stable : forall strict n,
  (forall s k, (2 * List.length s <= n)%nat -> (1 <= n)%nat -> deserialize (k + n) strict s = deserialize n strict s) /\
  (forall s k, (2 * List.length s + 1 <= n)%nat -> desElems (k + n) strict s = desElems n strict s) /\
  (forall s k d, (2 * List.length s + 1 <= n)%nat -> desFields (k + n) strict s d = desFields n strict s d).
Proof.
  intros strict. induction n as [|n (IH1 & IH2 & IH3)]; [split; [|split]; intros; lia|].
  assert (NT : forall k (r : bytes), (List.length (ntake k r) <= List.length r)%nat) by (intros; unfold ntake; rewrite firstn_length; lia).
  split; [|split].
  - intros s k L _. rewrite Nat.add_succ_r, !des_step. destruct s as [|x s]; [reflexivity|]. destruct (x =? 45); [|reflexivity].
    destruct (counter_strip V20 (x :: s)) as [[c r]|] eqn:S1; [|reflexivity]. cbn [bind]. apply cstrip_shorter in S1. cbv zeta. pose proof (NT (byteCount_txt c) r).
    rewrite IH2 by lia. rewrite IH3 by lia. reflexivity.
  - intros s k L. rewrite Nat.add_succ_r. destruct s as [|x s]; [reflexivity|]. rewrite !des_elems_eq by discriminate. rewrite IH1 by (cbn [List.length] in *; lia).
    destruct (deserialize n strict (x :: s)) as [[v r]|] eqn:D; [|reflexivity]. cbn [bind]. apply des_shorter in D. rewrite IH2 by lia. reflexivity.
  - intros s k d L. rewrite Nat.add_succ_r. destruct s as [|x s]; [reflexivity|]. rewrite !des_fields_eq by discriminate. destruct (readLabel strict (x :: s)) as [[l r]|] eqn:R; [|reflexivity]. cbn [bind]. apply label_shorter in R.
    rewrite IH1 by (cbn [List.length] in *; lia). destruct (deserialize n strict r) as [[v r']|] eqn:D; [|reflexivity]. cbn [bind]. apply des_shorter in D. rewrite IH3 by lia. reflexivity.
Qed.
Lemma inhale_stable : forall strict s n, (2 * List.length s + 1 <= n)%nat -> inhaleN n strict s = inhale strict s.
Proof.
  intros strict s n L. unfold inhaleN, inhale. destruct (counter_strip V20 s) as [[c r]|] eqn:S1; [|reflexivity]. cbn [bind]. apply cstrip_shorter in S1.
  destruct (des_stable strict (2 * List.length r + 1)) as (_ & _ & F). specialize (F r (n - (2 * List.length r + 1))%nat [] ltac:(lia)). replace (n - (2 * List.length r + 1) + (2 * List.length r + 1))%nat with n in F by lia. rewrite F. reflexivity.
Qed.

(** ** The calls are never used up *)
Definition nov {A} (r : res A) : Prop := r <> Err OverflowError.
Lemma nov_ok : forall {A} (a : A), nov (Ok a). Proof. intros A a H. discriminate. Qed.
Lemma nov_bind : forall {A B} (r : res A) (f : A -> res B), nov r -> (forall a, r = Ok a -> nov (f a)) -> nov (bind r f).
Proof. intros A B r f R F H. destruct r as [a|e]; [exact (F a eq_refl H)|]. cbn in H. apply R. injection H as ->. reflexivity. Qed.
Lemma nov_if : forall {A} (b : bool) (x y : res A), nov x -> nov y -> nov (if b then x else y).
Proof. intros A [] x y X Y; assumption. Qed.
Lemma nov_raise : forall {A} e (k : res A), e <> OverflowError -> nov (Err e : res A).
Proof. intros A e k N H. injection H as ->. congruence. Qed.
Ltac novs := repeat match goal with
  | |- nov (Ok _) => apply nov_ok
  | |- nov (Err _) => discriminate
  | |- nov (bind _ _) => apply nov_bind; [|intros]
  | |- nov (if _ then _ else _) => apply nov_if
  | |- nov (match ?x with _ => _ end) => destruct x
  | |- nov (let _ := _ in _) => cbv zeta
  end.
Lemma b64ToInt_nov : forall s, nov (b64ToInt s).
Proof. intros s. unfold b64ToInt. destruct s as [|x s]; [discriminate|]. generalize 0 at 1. generalize 0. induction (rev (x :: s)) as [|y r IH]; intros i e; cbn [b64ToInt_loop]; [apply nov_ok|]. destruct (B64IdxByChr y); [apply IH|discriminate]. Qed.
Lemma decodeB64_nov : forall s, nov (decodeB64 s).
Proof.
  intros s. unfold decodeB64. generalize (@nil N). generalize 0 at 3. generalize 0 at 2. generalize 0.
  induction s as [|x s IH]; intros q p l acc; cbn [decodeB64_loop]; [destruct (q =? 0); discriminate|].
  apply nov_if; [apply nov_if; [apply nov_ok|apply IH]|]. destruct (a2bIdx x); [|apply IH]. repeat (apply nov_if; [apply IH|]). apply IH.
Qed.
Lemma decode_ascii_nov : forall s, nov (decode_ascii s). Proof. intros s. unfold decode_ascii. novs. Qed.
Lemma exfil_nov : forall s, nov (exfil s).
Proof. intros s. unfold exfil. destruct s; [discriminate|]. novs; first [apply decode_ascii_nov|apply b64ToInt_nov|apply decodeB64_nov]. Qed.
Lemma fullSize_nov : forall m, nov (MatterModel.fullSize m). Proof. intros m. unfold MatterModel.fullSize. novs; apply b64ToInt_nov. Qed.
Lemma infil_nov : forall m, nov (infil m). Proof. intros m. unfold infil. novs. Qed.
Lemma matter_strip_nov : forall s, nov (matter_strip s).
Proof. intros s. unfold matter_strip. novs; [apply exfil_nov|apply fullSize_nov]. Qed.
Lemma nameOf_nov : forall c k, nov (nameOf c k). Proof. intros c k. unfold nameOf. novs. Qed.
Lemma ctables_nov : forall v, nov (ctables v). Proof. intros v. unfold ctables. novs. Qed.
Lemma csize_nov : forall c, nov (CtrModel.csize c). Proof. intros c. unfold CtrModel.csize. novs; try apply ctables_nov. Qed.
Lemma cexfil_nov : forall v s, nov (cexfil v s).
Proof. intros v s. unfold cexfil. novs; first [apply ctables_nov|apply decode_ascii_nov|apply b64ToInt_nov|apply nameOf_nov]. Qed.
Lemma counter_strip_nov : forall v s, nov (counter_strip v s).
Proof. intros v s. unfold counter_strip. novs; [apply cexfil_nov|apply csize_nov]. Qed.
Lemma derawify_nov : forall r k e, nov (derawify r k e). Proof. intros r k e. unfold derawify. destruct (dget Sizes k); discriminate. Qed.
Lemma textOf_nov : forall m, nov (textOf m). Proof. intros m. unfold textOf, decode. novs; apply derawify_nov. Qed.
Lemma decimal_nov : forall pf m, nov (decimal pf m). Proof. intros pf m. unfold decimal, dnsOf, decParse. novs; apply derawify_nov. Qed.
Lemma primValue_nov : forall m, nov (primValue m).
Proof. intros m. unfold primValue. novs; first [apply infil_nov|apply exfil_nov|apply textOf_nov|apply decimal_nov]. Qed.
Lemma readLabel_nov : forall strict s, nov (readLabel strict s).
Proof. intros strict s. unfold readLabel, inLabelDex, labelOf. novs; first [apply matter_strip_nov|apply textOf_nov]. Qed.
Lemma des_nov : forall strict n,
  (forall s, (2 * List.length s <= n)%nat -> (1 <= n)%nat -> nov (deserialize n strict s)) /\
  (forall s, (2 * List.length s + 1 <= n)%nat -> nov (desElems n strict s)) /\
  (forall s d, (2 * List.length s + 1 <= n)%nat -> nov (desFields n strict s d)).
Proof.
  intros strict. induction n as [|n (IH1 & IH2 & IH3)]; [split; [|split]; intros; lia|].
  assert (NT : forall k (r : bytes), (List.length (ntake k r) <= List.length r)%nat) by (intros; unfold ntake; rewrite firstn_length; lia).
  split; [|split].
  - intros s L _. rewrite des_step. destruct s as [|x s]; [discriminate|]. apply nov_if.
    + apply nov_bind; [apply counter_strip_nov|]. intros [c r] S1. apply cstrip_shorter in S1. cbv zeta. pose proof (NT (byteCount_txt c) r). apply nov_if; [|apply nov_if; [|discriminate]]; (apply nov_bind; [|intros; apply nov_ok]); [apply IH2|apply IH3]; lia.
    + apply nov_bind; [apply matter_strip_nov|]. intros [m r] _. novs; first [apply matter_strip_nov|apply infil_nov|apply primValue_nov].
  - intros s L. destruct s as [|x s]; [discriminate|]. rewrite des_elems_eq by discriminate. apply nov_bind; [apply IH1; cbn [List.length] in *; lia|]. intros [v r] D. apply des_shorter in D. apply nov_bind; [apply IH2; lia|]. intros; apply nov_ok.
  - intros s d L. destruct s as [|x s]; [discriminate|]. rewrite des_fields_eq by discriminate. apply nov_bind; [apply readLabel_nov|]. intros [l r] R. apply label_shorter in R. apply nov_bind; [apply IH1; cbn [List.length] in *; lia|]. intros [v r'] D. apply des_shorter in D. apply IH3. lia.
Qed.
Lemma inhale_nov : forall strict s, nov (inhale strict s).
Proof.
  intros strict s. unfold inhale. apply nov_bind; [apply counter_strip_nov|]. intros [c r] _. repeat (apply nov_if; [discriminate|]).
  pose proof (proj2 (proj2 (des_nov strict (2 * List.length r + 1))) r [] ltac:(lia)) as N. unfold catchIV. destruct (desFields _ _ _ _) as [m|e]; [exact N|]. destruct e; try exact N; discriminate.
Qed.
Lemma read_nov : forall strict s, nov (mapperRead strict s).
Proof. intros strict s. unfold mapperRead. novs; first [apply cexfil_nov|apply csize_nov|apply inhale_nov]. Qed.
Lemma codeB2_nov : forall b l, nov (codeB2ToB64 b l). Proof. intros b l. unfold codeB2ToB64. novs. Qed.
Lemma nab_nov : forall s, octets s -> len s <? 2 = false -> nov (nabSextets s 2).
Proof. intros s O8 L. destruct s as [|x [|y r]]; [discriminate|discriminate|]. inversion O8 as [|? ? X O9]; subst. inversion O9; subst. rewrite nab2 by assumption. apply nov_ok. Qed.
Lemma cbexfil_nov : forall v s, octets s -> nov (cbexfil v s).
Proof. intros v s O8. unfold cbexfil. destruct (len s <? 2) eqn:L; novs; first [apply ctables_nov|apply codeB2_nov|apply b64ToInt_nov|apply nameOf_nov|apply nab_nov; assumption]. Qed.
Lemma readB_nov : forall strict s, octets s -> nov (mapperReadB strict s).
Proof. intros strict s O8. unfold mapperReadB. novs; first [apply cbexfil_nov; exact O8|apply csize_nov|apply inhale_nov]. Qed.
