(** Shared vocabulary: Python exceptions as values, byte strings as lists of N,
    big endian positional numerals. *)
From Coq Require Export List NArith ZArith Bool Lia Ascii String.
From Coq Require Export ZifyBool ZifyNat ZifyN.
Export ListNotations.
Open Scope N_scope.
Open Scope list_scope.

(** Python exceptions that the modelled functions can raise.  One flat type:
    the class hierarchy of kering.py is not needed, callers that catch a base
    class list the members they catch. *)
Inductive exn : Set :=
| ShortageError | UnexpectedCodeError | UnexpectedCountCodeError
| UnexpectedOpCodeError | ConversionError | InvalidCodeSizeError
| InvalidCodeError | InvalidVarRawSizeError | InvalidVarIndexError
| InvalidSoftError | SoftMaterialError | RawMaterialError | EmptyMaterialError
| InvalidVarSizeError | InvalidSizeError | InvalidValueError
| ValidationError | VersionError | ProtocolError | KindError
| MissingFieldError | DerivationError
| ValueError | KeyError | TypeError | AttributeError | OverflowError
| IndexError | UnicodeError | BinasciiError | ZeroDivisionError
| InvalidVersionError | InvalidTypeError | SerializeError | DeserializeError
| ExtraFieldError | AlternateFieldError | IlkError | ColdStartError
| SizedGroupError | TopLevelStreamError | FieldError
| ClosedError | AuthError | DecryptError | MissingEntryError
| MissingSignatureError | MissingWitnessSignatureError | MissingDelegationError
| OutOfOrderError | LikelyDuplicitousError | UnverifiedWitnessReceiptError
| UnverifiedReceiptError | UnverifiedTransferableReceiptError
| UnverifiedReplyError | EmptyListError | MissingAnchorError
| MissingRegistryError | MisfitEventSourceError | MissingDelegableApprovalError
| OutOfOrderKeyStateError | QueryNotFoundError | KramError
| MissingDestinationError | ConfigurationError | ExtractionError.

Inductive res (A : Type) : Type :=
| Ok (a : A)
| Err (e : exn).
Arguments Ok {A} a.
Arguments Err {A} e.

Definition bind {A B} (r : res A) (f : A -> res B) : res B :=
  match r with Ok a => f a | Err e => Err e end.
Notation "x <- e ;; f" := (bind e (fun x => f))
  (at level 61, e at next level, right associativity).
Notation "' p <- e ;; f" := (bind e (fun p => f))
  (at level 61, p pattern, e at next level, right associativity).

(** [raise_if b e k]: Python [if b: raise e] followed by [k]. *)
Notation raise_if b e k := (if b then Err e else k) (only parsing).

(** Byte strings and texts are both lists of N (octets or code points). *)
Definition bytes := list N.
Definition c (a : ascii) : N := N_of_ascii a.
Definition s2b (s : string) : bytes := map N_of_ascii (list_ascii_of_string s).

Definition is_byte (x : N) : Prop := x < 256.
Definition octets (l : bytes) : Prop := Forall is_byte l.

Definition len {A} (l : list A) : N := N.of_nat (List.length l).

(** Python slices s[:n] and s[n:]. *)
Definition ntake {A} (n : N) (l : list A) : list A := firstn (N.to_nat n) l.
Definition ndrop {A} (n : N) (l : list A) : list A := skipn (N.to_nat n) l.

Fixpoint beq (a b : list N) : bool :=
  match a, b with
  | [], [] => true
  | x :: a', y :: b' => (x =? y) && beq a' b'
  | _, _ => false
  end.

Lemma beq_eq : forall a b, beq a b = true <-> a = b.
Proof.
  induction a as [|x a IH]; destruct b as [|y b]; cbn; try (split; [discriminate|discriminate]); try tauto.
  rewrite andb_true_iff, N.eqb_eq, IH. split; [intros [-> ->]; reflexivity|].
  intros H; inversion H; auto.
Qed.

Lemma beq_refl : forall a, beq a a = true.
Proof. intros; apply beq_eq; reflexivity. Qed.

Lemma beq_neq : forall a b, beq a b = false <-> a <> b.
Proof.
  intros a b. rewrite <- (beq_eq a b). destruct (beq a b); split; intros; congruence.
Qed.

Definition list_N_dec : forall a b : list N, {a = b} + {a <> b} :=
  list_eq_dec N.eq_dec.

Definition beq_spec a b : reflect (a = b) (beq a b).
Proof.
  destruct (beq a b) eqn:E; constructor.
  - apply beq_eq; exact E.
  - apply beq_neq; exact E.
Qed.

(** Association list lookup: Python dict with bytes/str keys. *)
Fixpoint dget {V} (d : list (bytes * V)) (k : bytes) : option V :=
  match d with
  | [] => None
  | (k', v) :: d' => if beq k k' then Some v else dget d' k
  end.

Definition zeros (n : nat) : bytes := repeat 0 n.

(** Big endian positional numerals in base [b]. *)
Definition of_digits (b : N) (l : list N) : N := fold_left (fun a d => a * b + d) l 0.

Fixpoint to_digits (b : N) (n : nat) (v : N) : list N :=
  match n with
  | O => []
  | S n' => to_digits b n' (v / b) ++ [v mod b]
  end.

(** int.from_bytes(x, 'big') *)
Definition int_from_bytes (x : bytes) : N := of_digits 256 x.
(** i.to_bytes(n, 'big'): raises OverflowError when i does not fit. *)
Definition int_to_bytes (n : N) (i : N) : res bytes :=
  if i <? 256 ^ n then Ok (to_digits 256 (N.to_nat n) i) else Err OverflowError.

(* ------------------------------------------------------------------ *)
(** Lemmas on numerals. *)

Lemma of_digits_app : forall b l1 l2,
  of_digits b (l1 ++ l2) = of_digits b l1 * b ^ len l2 + of_digits b l2.
Proof.
  intros b l1 l2. unfold of_digits, len. rewrite fold_left_app.
  generalize (fold_left (fun a d => a * b + d) l1 0) as v.
  induction l2 as [|x l2 IH] using rev_ind; intros v.
  - cbn. lia.
  - rewrite !fold_left_app, app_length. cbn [fold_left List.length].
    rewrite IH. replace (N.of_nat (List.length l2 + 1)) with (N.succ (N.of_nat (List.length l2))) by lia.
    rewrite N.pow_succ_r'. lia.
Qed.

Lemma of_digits_snoc : forall b l x, of_digits b (l ++ [x]) = of_digits b l * b + x.
Proof. intros. unfold of_digits. rewrite fold_left_app. reflexivity. Qed.

Lemma of_digits_cons : forall b x l, of_digits b (x :: l) = x * b ^ len l + of_digits b l.
Proof. intros. change (x :: l) with ([x] ++ l). rewrite of_digits_app. f_equal. Qed.

Lemma of_digits_bound : forall b l, 0 < b -> Forall (fun d => d < b) l -> of_digits b l < b ^ len l.
Proof.
  intros b l Hb H. induction l as [|x l IH] using rev_ind.
  - cbn. lia.
  - apply Forall_app in H. destruct H as [Hl Hx]. inversion Hx; subst.
    specialize (IH Hl). rewrite of_digits_snoc. unfold len in *.
    rewrite app_length. cbn [List.length].
    replace (N.of_nat (List.length l + 1)) with (N.succ (N.of_nat (List.length l))) by lia.
    rewrite N.pow_succ_r'. nia.
Qed.

Lemma to_digits_length : forall b n v, List.length (to_digits b n v) = n.
Proof. induction n; intros; cbn; [reflexivity|]. rewrite app_length, IHn. cbn. lia. Qed.

Lemma to_digits_bound : forall b n v, 0 < b -> Forall (fun d => d < b) (to_digits b n v).
Proof.
  induction n; intros v Hb; cbn; [constructor|].
  apply Forall_app; split; [apply IHn; exact Hb|].
  constructor; [apply N.mod_lt; lia|constructor].
Qed.

Lemma of_to_digits : forall b n v, 1 < b -> v < b ^ N.of_nat n -> of_digits b (to_digits b n v) = v.
Proof.
  induction n; intros v Hb Hv.
  - cbn in *. lia.
  - cbn [to_digits]. rewrite of_digits_snoc.
    replace (N.of_nat (S n)) with (N.succ (N.of_nat n)) in Hv by lia.
    rewrite N.pow_succ_r' in Hv.
    rewrite IHn; [| exact Hb |].
    + rewrite (N.div_mod v b) at 3 by lia. lia.
    + apply N.div_lt_upper_bound; lia.
Qed.

Lemma to_of_digits : forall b l, 1 < b -> Forall (fun d => d < b) l ->
  to_digits b (List.length l) (of_digits b l) = l.
Proof.
  intros b l Hb. induction l as [|x l IH] using rev_ind; intros H; [reflexivity|].
  apply Forall_app in H. destruct H as [Hl Hx]. inversion Hx; subst.
  rewrite app_length. cbn [List.length]. replace (List.length l + 1)%nat with (S (List.length l)) by lia.
  cbn [to_digits]. rewrite of_digits_snoc.
  replace ((of_digits b l * b + x) / b) with (of_digits b l).
  - rewrite IH by exact Hl. f_equal. f_equal.
    rewrite N.add_comm, N.mod_add by lia. apply N.mod_small; assumption.
  - rewrite N.div_add_l by lia. rewrite N.div_small by assumption. lia.
Qed.

Lemma of_digits_inj : forall b l1 l2, 1 < b ->
  Forall (fun d => d < b) l1 -> Forall (fun d => d < b) l2 ->
  List.length l1 = List.length l2 -> of_digits b l1 = of_digits b l2 -> l1 = l2.
Proof.
  intros b l1 l2 Hb H1 H2 HL HE.
  rewrite <- (to_of_digits b l1 Hb H1), <- (to_of_digits b l2 Hb H2), HL, HE. reflexivity.
Qed.

Lemma of_digits_repeat0 : forall b n, of_digits b (repeat 0 n) = 0.
Proof.
  intros b n. induction n; [reflexivity|].
  cbn [repeat]. rewrite of_digits_cons, IHn. lia.
Qed.

Lemma of_digits_zero_inv : forall b l, 0 < b -> of_digits b l = 0 -> l = repeat 0 (List.length l).
Proof.
  intros b l Hb. induction l as [|x l IH]; intros H; [reflexivity|].
  rewrite of_digits_cons in H. cbn [List.length repeat].
  assert (0 < b ^ len l) by (apply N.neq_0_lt_0; apply N.pow_nonzero; lia).
  f_equal; [|apply IH]; nia.
Qed.

Lemma to_digits_app : forall b n m v, 0 < b ->
  to_digits b (n + m) v = to_digits b n (v / b ^ N.of_nat m) ++ to_digits b m v.
Proof.
  intros b n m. revert n. induction m; intros n v Hb.
  - cbn [to_digits]. rewrite app_nil_r, Nat.add_0_r. change (N.of_nat 0) with 0.
    rewrite N.pow_0_r, N.div_1_r. reflexivity.
  - rewrite Nat.add_succ_r. cbn [to_digits]. rewrite IHm by exact Hb.
    rewrite app_assoc. f_equal. f_equal. f_equal.
    rewrite N.div_div by (try apply N.pow_nonzero; lia).
    f_equal. replace (N.of_nat (S m)) with (N.succ (N.of_nat m)) by lia.
    rewrite N.pow_succ_r'. reflexivity.
Qed.

Lemma octets_repeat0 : forall n, octets (repeat 0 n).
Proof. intros; apply Forall_forall; intros x Hx; apply repeat_spec in Hx; subst; red; lia. Qed.

Lemma len_app : forall A (l1 l2 : list A), len (l1 ++ l2) = len l1 + len l2.
Proof. intros. unfold len. rewrite app_length. lia. Qed.

Lemma ntake_len_app : forall A (l1 l2 : list A), ntake (len l1) (l1 ++ l2) = l1.
Proof.
  intros. unfold ntake, len. rewrite Nat2N.id, firstn_app, Nat.sub_diag. cbn.
  rewrite firstn_all, app_nil_r. reflexivity.
Qed.

Lemma ndrop_len_app : forall A (l1 l2 : list A), ndrop (len l1) (l1 ++ l2) = l2.
Proof.
  intros. unfold ndrop, len. rewrite Nat2N.id, skipn_app, Nat.sub_diag, skipn_all. reflexivity.
Qed.

Lemma ntake_ndrop : forall A n (l : list A), ntake n l ++ ndrop n l = l.
Proof. intros. apply firstn_skipn. Qed.

Lemma len_ntake : forall A n (l : list A), len (ntake n l) = N.min n (len l).
Proof. intros. unfold len, ntake. rewrite firstn_length. lia. Qed.

Lemma len_ndrop : forall A n (l : list A), len (ndrop n l) = len l - n.
Proof. intros. unfold len, ndrop. rewrite skipn_length. lia. Qed.

Lemma Forall_firstn : forall A (P : A -> Prop) n l, Forall P l -> Forall P (firstn n l).
Proof. induction n; destruct l; intros H; cbn; try constructor; inversion H; subst; auto. Qed.

Lemma Forall_skipn : forall A (P : A -> Prop) n l, Forall P l -> Forall P (skipn n l).
Proof. induction n; destruct l; intros H; cbn; auto; inversion H; subst; auto. Qed.

Lemma skipn_skipn : forall A n m (l : list A), skipn n (skipn m l) = skipn (n + m) l.
Proof.
  intros A n m. revert n. induction m; intros n l; cbn [skipn].
  - rewrite Nat.add_0_r. reflexivity.
  - destruct l; [rewrite !skipn_nil; reflexivity|]. rewrite Nat.add_succ_r. cbn [skipn]. apply IHm.
Qed.

Lemma ndrop_ndrop : forall A n m (l : list A), ndrop n (ndrop m l) = ndrop (m + n) l.
Proof. intros. unfold ndrop. rewrite skipn_skipn. f_equal. lia. Qed.

Lemma firstn_add : forall A n m (l : list A), firstn (n + m) l = firstn n l ++ firstn m (skipn n l).
Proof.
  induction n; intros m l; [reflexivity|]. destruct l; cbn; [rewrite firstn_nil; reflexivity|].
  rewrite IHn. reflexivity.
Qed.

Lemma ntake_add : forall A n m (l : list A), ntake (n + m) l = ntake n l ++ ntake m (ndrop n l).
Proof. intros. unfold ntake, ndrop. rewrite N2Nat.inj_add. apply firstn_add. Qed.

Lemma ok_inj : forall A (a b : A), Ok a = Ok b -> a = b.
Proof. intros A a b H; inversion H; reflexivity. Qed.

(** Inversion of a bind that returned Ok. *)
Lemma bind_ok : forall A B (r : res A) (f : A -> res B) b,
  bind r f = Ok b -> exists a, r = Ok a /\ f a = Ok b.
Proof. intros A B [a|e] f b H; cbn in H; [eauto|discriminate]. Qed.

Lemma raise_if_ok : forall A (b : bool) e (k : res A) a,
  (if b then Err e else k) = Ok a -> b = false /\ k = Ok a.
Proof. intros A [] e k a H; cbn in H; [discriminate|auto]. Qed.

Ltac inv H := inversion H; subst; clear H.
