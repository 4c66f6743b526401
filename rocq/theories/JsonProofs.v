(** A reader for the JSON text of JsonModel and the proof that it inverts [json]; injectivity of [json]. *)
From Verif Require Import Prelude B64Model B64Proofs SubsModel SubsProofs ThModel ThProofs JsonModel.
Open Scope N_scope.
Ltac Zify.zify_post_hook ::= Z.div_mod_to_equations.

Definition isDigit (x : N) : bool := (48 <=? x) && (x <=? 57).
Fixpoint span (p : N -> bool) (s : bytes) : bytes * bytes :=
  match s with
  | [] => ([], [])
  | x :: r => if p x then let '(a, b) := span p r in (x :: a, b) else ([], s)
  end.

(** one character of a text: the closing quote gives None *)
Definition jdec (s : bytes) : option (N * bytes) :=
  match s with
  | 92 :: 92 :: r => Some (92, r)
  | 92 :: 34 :: r => Some (34, r)
  | 92 :: 110 :: r => Some (10, r)
  | 92 :: 114 :: r => Some (13, r)
  | 92 :: 116 :: r => Some (9, r)
  | 92 :: 102 :: r => Some (12, r)
  | 92 :: 98 :: r => Some (8, r)
  | 92 :: 117 :: _ :: _ :: a :: b :: r => match hexint [a; b] with Ok v => Some (v, r) | Err _ => None end
  | x :: r => if x =? 34 then None else Some (x, r)
  | [] => None
  end.
Fixpoint jtext (n : nat) (s : bytes) : option (bytes * bytes) :=
  match n with
  | O => None
  | S n' =>
      match jdec s with
      | Some (x, r) => match jtext n' r with Some (a, b) => Some (x :: a, b) | None => None end
      | None => match s with x :: r => if x =? 34 then Some ([], r) else None | [] => None end
      end
  end.
Definition jnum (s : bytes) : option (val * bytes) :=
  match s with
  | 45 :: r => let '(a, b) := span isDigit r in match decint a with Some v => Some (VInt (- Z.of_N v), b) | None => None end
  | _ => let '(a, b) := span isDigit s in match decint a with Some v => Some (VInt (Z.of_N v), b) | None => None end
  end.
Fixpoint jp (n : nat) (s : bytes) : option (val * bytes) :=
  match n with
  | O => None
  | S n' =>
      match s with
      | 110 :: _ => Some (VNull, skipn 4 s)
      | 116 :: _ => Some (VBool true, skipn 4 s)
      | 102 :: _ => Some (VBool false, skipn 5 s)
      | 34 :: r => match jtext (List.length r) r with Some (a, b) => Some (VStr a, b) | None => None end
      | 91 :: 93 :: r => Some (VList [], r)
      | 91 :: r => match jl n' r with Some (l, b) => Some (VList l, b) | None => None end
      | 123 :: 125 :: r => Some (VMap [], r)
      | 123 :: r => match jm n' r with Some (l, b) => Some (VMap l, b) | None => None end
      | _ => jnum s
      end
  end
with jl (n : nat) (s : bytes) : option (list val * bytes) :=
  match n with
  | O => None
  | S n' =>
      match jp n' s with
      | Some (v, 44 :: r) => match jl n' r with Some (l, b) => Some (v :: l, b) | None => None end
      | Some (v, 93 :: r) => Some ([v], r)
      | _ => None
      end
  end
with jm (n : nat) (s : bytes) : option (list (bytes * val) * bytes) :=
  match n with
  | O => None
  | S n' =>
      match s with
      | 34 :: r =>
        match jtext (List.length r) r with
        | Some (k, 58 :: r1) =>
            match jp n' r1 with
            | Some (v, 44 :: r2) => match jm n' r2 with Some (l, b) => Some ((k, v) :: l, b) | None => None end
            | Some (v, 125 :: r2) => Some ([(k, v)], r2)
            | _ => None
            end
        | _ => None
        end
      | _ => None
      end
  end.

Fixpoint vsize (v : val) : nat :=
  match v with
  | VList l => S (S (fold_right (fun x a => S (vsize x + a)) 0 l))%nat
  | VMap m => S (S (fold_right (fun x a => S (vsize (snd x) + a)) 0 m))%nat
  | _ => 1%nat
  end.

Section ValInd.
  Variable P : val -> Prop.
  Hypothesis Hnull : P VNull.
  Hypothesis Hbool : forall b, P (VBool b).
  Hypothesis Hint : forall z, P (VInt z).
  Hypothesis Hstr : forall s, P (VStr s).
  Hypothesis Hlist : forall l, Forall P l -> P (VList l).
  Hypothesis Hmap : forall m, Forall (fun kv => P (snd kv)) m -> P (VMap m).
  Fixpoint val_ind' (v : val) : P v :=
    match v with
    | VNull => Hnull | VBool b => Hbool b | VInt z => Hint z | VStr s => Hstr s
    | VList l => Hlist l ((fix go l : Forall P l := match l with [] => Forall_nil _ | x :: r => Forall_cons _ (val_ind' x) (go r) end) l)
    | VMap m => Hmap m ((fix go m : Forall (fun kv => P (snd kv)) m :=
                           match m with [] => Forall_nil _ | x :: r => Forall_cons _ (val_ind' (snd x)) (go r) end) m)
    end.
End ValInd.

Lemma jdec_jchar : forall ch r, jdec (jchar ch ++ r) = Some (ch, r).
Proof.
  intros ch r. unfold jchar.
  destruct (N.eqb_spec ch 92) as [->|N92]; [reflexivity|]. destruct (N.eqb_spec ch 34) as [->|N34]; [reflexivity|].
  destruct (N.eqb_spec ch 10) as [->|]; [reflexivity|]. destruct (N.eqb_spec ch 13) as [->|]; [reflexivity|].
  destruct (N.eqb_spec ch 9) as [->|]; [reflexivity|]. destruct (N.eqb_spec ch 12) as [->|]; [reflexivity|].
  destruct (N.eqb_spec ch 8) as [->|]; [reflexivity|]. destruct (N.ltb_spec ch 32) as [L|L].
  - assert (A : In ch (map N.of_nat (seq 0 32))). { apply in_map_iff. exists (N.to_nat ch). split; [lia|]. apply in_seq. lia. }
    cbn in A. repeat (destruct A as [<-|A]; [reflexivity|]). contradiction.
  - cbn [app jdec]. assert (ch =? 34 = false) as E by (apply N.eqb_neq; exact N34).
    destruct ch as [|p]; [lia|]. repeat (destruct p as [p|p|]; try reflexivity; try congruence; try (exfalso; lia)).
    all: cbn; try reflexivity; try (rewrite E; reflexivity).
Qed.
Lemma jdec_quote : forall r, jdec (34 :: r) = None. Proof. reflexivity. Qed.
Lemma jtext_jstr : forall s n t, (List.length s < n)%nat -> jtext n (List.concat (map jchar s) ++ 34 :: t) = Some (s, t).
Proof.
  induction s as [|x s IH]; intros [|n] t L; cbn [List.length] in L; try lia; cbn [map List.concat jtext].
  - reflexivity.
  - rewrite <- app_assoc, jdec_jchar, IH by lia. reflexivity.
Qed.
Lemma jchar_len : forall ch, (1 <= List.length (jchar ch))%nat.
Proof. intros ch. unfold jchar. repeat match goal with |- context[if ?b then _ else _] => destruct b end; cbn; lia. Qed.
Lemma concat_len : forall s, (List.length s <= List.length (List.concat (map jchar s)))%nat.
Proof. induction s as [|x s IH]; cbn [map List.concat List.length]; [lia|]. rewrite app_length. pose proof (jchar_len x). lia. Qed.
Lemma jtext_ok : forall s t, jtext (List.length (List.concat (map jchar s) ++ 34 :: t)) (List.concat (map jchar s) ++ 34 :: t) = Some (s, t).
Proof. intros s t. apply jtext_jstr. rewrite app_length. pose proof (concat_len s). cbn [List.length]. lia. Qed.

(** what may follow a value *)
Definition delim (t : bytes) : Prop := match t with [] => True | x :: _ => x = 44 \/ x = 93 \/ x = 125 end.
Lemma span_all : forall p a t, Forall (fun x => p x = true) a -> match t with [] => True | x :: _ => p x = false end -> span p (a ++ t) = (a, t).
Proof.
  intros p a t F N. induction F as [|x a Hx F IH]; cbn [app span].
  - destruct t as [|x t]; [reflexivity|]. cbn [span]. rewrite N. reflexivity.
  - rewrite Hx, IH. reflexivity.
Qed.

Lemma digits_first : forall v, exists x r, decstr v = x :: r /\ 48 <= x <= 57.
Proof.
  intros v. pose proof (decstr_dig v) as D. pose proof (decstr_ne v) as E. destruct (decstr v) as [|x r]; [congruence|]. inversion D; subst.
  exists x, r. split; [reflexivity|]. unfold digchr in *. lia.
Qed.
Lemma delim_digit : forall t, delim t -> match t with [] => True | x :: _ => isDigit x = false end.
Proof. intros [|x t] D; [exact I|]. cbn in D. destruct D as [->|[->| ->]]; reflexivity. Qed.
Lemma span_dec : forall v t, delim t -> span isDigit (decstr v ++ t) = (decstr v, t).
Proof.
  intros v t D. apply span_all; [|apply delim_digit; exact D]. eapply Forall_impl; [|apply decstr_dig]. intros x Hx. unfold digchr, isDigit in *.
  apply andb_true_intro. split; apply N.leb_le; lia.
Qed.
Lemma jnum_nondash : forall x r, 48 <= x <= 57 -> jnum (x :: r) = let '(a, b) := span isDigit (x :: r) in match decint a with Some v => Some (VInt (Z.of_N v), b) | None => None end.
Proof.
  intros x r B. assert (A : In x [48;49;50;51;52;53;54;55;56;57]) by (cbn; lia). cbn in A.
  repeat (destruct A as [<-|A]; [reflexivity|]). contradiction.
Qed.
Lemma jp_num : forall n x r, x = 45 \/ 48 <= x <= 57 -> jp (S n) (x :: r) = jnum (x :: r).
Proof.
  intros n x r B. assert (A : In x [45;48;49;50;51;52;53;54;55;56;57]) by (cbn; lia). cbn in A.
  repeat (destruct A as [<-|A]; [reflexivity|]). contradiction.
Qed.
Lemma jp_int : forall z t n, delim t -> jp (S n) (jint z ++ t) = Some (VInt z, t).
Proof.
  intros z t n D. unfold jint. destruct z as [|p|p].
  - destruct (digits_first (Z.to_N 0)) as (x & r & E & B). rewrite E. cbn [app]. rewrite jp_num by lia. rewrite jnum_nondash by lia.
    change (x :: r ++ t) with ((x :: r) ++ t). rewrite <- E. rewrite span_dec by exact D. rewrite decint_decstr. reflexivity.
  - destruct (digits_first (Z.to_N (Z.pos p))) as (x & r & E & B). rewrite E. cbn [app]. rewrite jp_num by lia. rewrite jnum_nondash by lia.
    change (x :: r ++ t) with ((x :: r) ++ t). rewrite <- E. rewrite span_dec by exact D. rewrite decint_decstr. reflexivity.
  - cbn [app]. rewrite jp_num by lia. cbn [jnum]. rewrite span_dec by exact D. rewrite decint_decstr. reflexivity.
Qed.

Definition jitem (kv : bytes * val) : bytes := jstr (fst kv) ++ 58 :: json (snd kv).
Lemma jitem_app : forall k v u, jitem (k, v) ++ u = 34 :: List.concat (map jchar k) ++ 34 :: 58 :: json v ++ u.
Proof. intros k v u. unfold jitem, jstr. cbn [fst snd]. rewrite <- app_assoc. cbn [app]. rewrite <- app_assoc. reflexivity. Qed.
Lemma joinb_cons : forall sep x y l, joinb sep (x :: y :: l) = x ++ sep :: joinb sep (y :: l).
Proof. reflexivity. Qed.
Lemma json_first : forall v, exists x r, json v = x :: r /\ x <> 93 /\ x <> 44 /\ x <> 125.
Proof.
  destruct v as [|[|]|z|s|l|m]; cbn [json]; try (eexists _, _; split; [reflexivity|]; repeat split; discriminate).
  unfold jint. destruct z; try (destruct (digits_first (Z.to_N 0)) as (x & r & -> & B)); try (destruct (digits_first (Z.to_N (Z.pos p))) as (x & r & -> & B));
   eexists _, _; (split; [reflexivity|]); repeat split; try lia; discriminate.
Qed.
Lemma jp_list : forall n x r, x <> 93 -> jp (S n) (91 :: x :: r) = match jl n (x :: r) with Some (l, b) => Some (VList l, b) | None => None end.
Proof. intros n x r H. cbn [jp]. destruct x as [|p]; [reflexivity|]. repeat (destruct p as [p|p|]; try reflexivity; try congruence). Qed.
Lemma jp_map : forall n x r, x <> 125 -> jp (S n) (123 :: x :: r) = match jm n (x :: r) with Some (l, b) => Some (VMap l, b) | None => None end.
Proof. intros n x r H. cbn [jp]. destruct x as [|p]; [reflexivity|]. repeat (destruct p as [p|p|]; try reflexivity; try congruence). Qed.

Lemma jp_json : forall v t n, delim t -> (vsize v <= n)%nat -> jp n (json v ++ t) = Some (v, t).
Proof.
  induction v as [| | z | s | l IH | m IH] using val_ind'; intros t n D L; (destruct n as [|n]; [cbn in L; lia|]).
  - reflexivity.
  - destruct b; reflexivity.
  - apply jp_int; exact D.
  - cbn [json jstr app jp]. rewrite <- app_assoc. cbn [app]. rewrite jtext_ok. reflexivity.
  - cbn [json]. destruct l as [|a l]; [reflexivity|].
    assert (G : forall l a n t, Forall (fun v => forall t n, delim t -> (vsize v <= n)%nat -> jp n (json v ++ t) = Some (v, t)) (a :: l) ->
      (fold_right (fun x a => S (vsize x + a)) 0 (a :: l) < n)%nat -> jl n (joinb 44 (map json (a :: l)) ++ 93 :: t) = Some (a :: l, t)).
    { clear. induction l as [|b l IHl]; intros a n t F L; (destruct n as [|n]; [cbn in L; lia|]); inversion F as [|? ? Ha F']; subst.
      - cbn [map joinb jl]. cbn [fold_right] in L. rewrite Ha by (cbn; lia). reflexivity.
      - change (map json (a :: b :: l)) with (json a :: json b :: map json l). rewrite joinb_cons, <- app_assoc. cbn [app jl].
        cbn [fold_right] in L. rewrite Ha by (cbn; lia). change (json b :: map json l) with (map json (b :: l)). rewrite IHl; [reflexivity|exact F'|cbn [fold_right]; lia]. }
    assert (X : exists x r, joinb 44 (map json (a :: l)) = x :: r /\ x <> 93).
    { destruct (json_first a) as (x & r & E & N & _). destruct l as [|b l]; cbn [map joinb]; rewrite E; eexists _, _; (split; [reflexivity|exact N]). }
    destruct X as (x & r & E & N). cbn [app]. rewrite <- app_assoc. rewrite E. cbn [app]. rewrite jp_list by exact N.
    change (x :: r ++ 93 :: t) with ((x :: r) ++ [93] ++ t). rewrite <- E. cbn [app]. rewrite (G l a n t IH); [reflexivity|]. cbn [vsize] in L. lia.
  - cbn [json]. destruct m as [|a m]; [reflexivity|]. change (map (fun kv => jstr (fst kv) ++ 58 :: json (snd kv)) (a :: m)) with (map jitem (a :: m)).
    assert (G : forall m a n t, Forall (fun kv => forall t n, delim t -> (vsize (snd kv) <= n)%nat -> jp n (json (snd kv) ++ t) = Some (snd kv, t)) (a :: m) ->
      (fold_right (fun x a => S (vsize (snd x) + a)) 0 (a :: m) < n)%nat -> jm n (joinb 44 (map jitem (a :: m)) ++ 125 :: t) = Some (a :: m, t)).
    { clear. induction m as [|b m IHm]; intros [k v] n t F L; (destruct n as [|n]; [cbn in L; lia|]); inversion F as [|? ? Ha F']; subst.
      - cbn [map joinb]. cbn [fold_right snd] in *. rewrite jitem_app. cbn [jm]. rewrite jtext_ok. rewrite Ha by (cbn; lia). reflexivity.
      - change (map jitem ((k, v) :: b :: m)) with (jitem (k, v) :: jitem b :: map jitem m). rewrite joinb_cons, <- app_assoc. cbn [app]. rewrite jitem_app. cbn [jm].
        cbn [fold_right snd] in *. rewrite jtext_ok. rewrite Ha by (cbn; lia).
        change (jitem b :: map jitem m) with (map jitem (b :: m)). rewrite IHm; [reflexivity|exact F'|cbn [fold_right]; lia]. }
    assert (X : exists r, joinb 44 (map jitem (a :: m)) = 34 :: r).
    { destruct m as [|b m]; cbn [map joinb jitem jstr app]; eexists; reflexivity. }
    destruct X as (r & E). cbn [app]. rewrite <- app_assoc. rewrite E. cbn [app]. rewrite jp_map by discriminate.
    change (34 :: r ++ 125 :: t) with ((34 :: r) ++ [125] ++ t). rewrite <- E. cbn [app]. rewrite (G m a n t IH); [reflexivity|]. cbn [vsize] in L. lia.
Qed.

(** the reader, with enough fuel for the length of the text *)
Definition jread (s : bytes) : option val := match jp (S (2 * List.length s)) s with Some (v, []) => Some v | _ => None end.
Lemma json_inj_tail : forall a b t u, delim t -> delim u -> json a ++ t = json b ++ u -> a = b /\ t = u.
Proof.
  intros a b t u D1 D2 E. pose proof (jp_json a t (vsize a + vsize b)%nat D1 ltac:(lia)) as A. pose proof (jp_json b u (vsize a + vsize b)%nat D2 ltac:(lia)) as B.
  rewrite E in A. rewrite A in B. inversion B. auto.
Qed.
Lemma json_inj : forall a b, json a = json b -> a = b.
Proof. intros a b E. apply (json_inj_tail a b [] []); cbn; auto. rewrite !app_nil_r. exact E. Qed.

Definition tlen (l : list bytes) : nat := fold_right (fun x a => List.length x + a)%nat 0%nat l.
Lemma joinb_len : forall sep l, (tlen l <= List.length (joinb sep l))%nat /\ (List.length l <= S (List.length (joinb sep l) - tlen l))%nat.
Proof.
  intros sep l. induction l as [|x l IH]; [cbn; lia|]. destruct l as [|y l]; [cbn [joinb tlen fold_right List.length]; lia|].
  assert (E : List.length (joinb sep (x :: y :: l)) = (List.length x + S (List.length (joinb sep (y :: l))))%nat) by (rewrite joinb_cons, app_length; reflexivity).
  assert (F : tlen (x :: y :: l) = (List.length x + tlen (y :: l))%nat) by reflexivity. rewrite E, F.
  assert (G : List.length (x :: y :: l) = S (List.length (y :: l))) by reflexivity. rewrite G. lia.
Qed.
Lemma json_len : forall v, (1 <= List.length (json v))%nat.
Proof. intros v. destruct (json_first v) as (x & r & -> & _). cbn. lia. Qed.
Lemma vsize_len : forall v, (vsize v <= 2 * List.length (json v))%nat.
Proof.
  assert (J : forall v, (1 <= 2 * List.length (json v))%nat) by (intros v; pose proof (json_len v); lia).
  induction v as [| | z | s | l IH | m IH] using val_ind'.
  1-4: cbn [vsize]; apply J.
  - cbn [vsize json List.length]. rewrite app_length. cbn [List.length]. destruct (joinb_len 44 (map json l)) as [A B]. rewrite map_length in B.
    assert (G : (fold_right (fun x a => S (vsize x + a)) 0 l <= List.length l + 2 * tlen (map json l))%nat).
    { clear -IH. induction IH as [|x l Hx F IHl]; cbn [fold_right map List.length tlen]; [lia|]. unfold tlen in *. lia. }
    lia.
  - cbn [vsize json List.length]. rewrite app_length. cbn [List.length]. change (map (fun kv => jstr (fst kv) ++ 58 :: json (snd kv)) m) with (map jitem m).
    destruct (joinb_len 44 (map jitem m)) as [A B]. rewrite map_length in B.
    assert (G : (fold_right (fun x a => S (vsize (snd x) + a)) 0 m <= List.length m + 2 * tlen (map jitem m))%nat).
    { clear -IH. induction IH as [|x m Hx F IHm]; cbn [fold_right map List.length tlen]; [lia|]. unfold jitem at 1. unfold tlen in *. rewrite app_length. cbn [List.length]. lia. }
    lia.
Qed.
Lemma jread_json : forall v, jread (json v) = Some v.
Proof.
  intros v. unfold jread. pose proof (jp_json v [] (S (2 * List.length (json v))) I) as A. rewrite app_nil_r in A. rewrite A; [reflexivity|]. pose proof (vsize_len v). lia.
Qed.

(** Python dicts have distinct labels, at every depth *)
Fixpoint wfv (v : val) : Prop :=
  match v with
  | VList l => fold_right (fun x P => wfv x /\ P) True l
  | VMap m => NoDup (map fst m) /\ fold_right (fun kv P => wfv (snd kv) /\ P) True m
  | _ => True
  end.
Fixpoint nodupB (l : list bytes) : bool := match l with [] => true | x :: r => negb (existsb (beq x) r) && nodupB r end.
Fixpoint wfvB (v : val) : bool :=
  match v with
  | VList l => forallb wfvB l
  | VMap m => nodupB (map fst m) && forallb (fun kv => wfvB (snd kv)) m
  | _ => true
  end.
Lemma nodupB_ok : forall l, nodupB l = true <-> NoDup l.
Proof.
  induction l as [|x l IH]; cbn [nodupB]; [split; [constructor|reflexivity]|]. rewrite andb_true_iff, negb_true_iff, IH. split.
  - intros [A B]. constructor; [|exact B]. intros I. assert (E : existsb (beq x) l = true) by (apply existsb_exists; exists x; split; [exact I|apply beq_refl]). congruence.
  - intros N. inversion N as [|? ? A B]; subst. split; [|exact B]. destruct (existsb (beq x) l) eqn:E; [|reflexivity]. apply existsb_exists in E. destruct E as (y & I & Q). apply beq_eq in Q. subst. contradiction.
Qed.
Lemma wfvB_ok : forall v, wfvB v = true <-> wfv v.
Proof.
  induction v as [| | z | s | l IH | m IH] using val_ind'; cbn [wfvB wfv]; try tauto.
  - induction IH as [|x l Hx F IHl]; cbn [forallb fold_right]; [tauto|]. rewrite andb_true_iff, Hx, IHl. tauto.
  - rewrite andb_true_iff, nodupB_ok. apply and_iff_compat_l. clear -IH. induction IH as [|x m Hx F IHm]; cbn [forallb fold_right]; [tauto|]. rewrite andb_true_iff, Hx, IHm. tauto.
Qed.

(** ** dicts *)
Lemma dget_dset : forall {V} (d : list (bytes * V)) k v k', dget (dset d k v) k' = if beq k' k then Some v else dget d k'.
Proof.
  intros V d k v k'. induction d as [|[a x] d IH]; cbn [dset dget].
  - reflexivity.
  - destruct (beq_spec k a) as [->|N]; cbn [dget].
    + destruct (beq k' a); reflexivity.
    + rewrite IH. destruct (beq_spec k' a) as [->|N']; [|reflexivity]. destruct (beq_spec a k) as [->|]; [congruence|reflexivity].
Qed.
Lemma dget_keys : forall {V} (d : list (bytes * V)) k, (exists v, dget d k = Some v) <-> In k (keysOf d).
Proof.
  intros V d k. induction d as [|[a x] d IH]; cbn [dget keysOf map fst In].
  - split; [intros [? H]; discriminate|contradiction].
  - destruct (beq_spec k a) as [->|N]; [split; [auto|eauto]|]. rewrite IH. unfold keysOf. split; [auto|]. intros [E|I]; [congruence|exact I].
Qed.
Lemma dget_none : forall {V} (d : list (bytes * V)) k, dget d k = None <-> ~ In k (keysOf d).
Proof. intros V d k. rewrite <- dget_keys. destruct (dget d k); split; intros H; try discriminate; try (intros [? ?]; discriminate); [exfalso; eauto|reflexivity]. Qed.
Lemma keys_dset : forall {V} (d : list (bytes * V)) k v, In k (keysOf d) -> keysOf (dset d k v) = keysOf d.
Proof.
  intros V d k v I. induction d as [|[a x] d IH]; cbn [dset keysOf map fst] in *; [contradiction|].
  destruct (beq_spec k a) as [->|N]; cbn [map fst]; [reflexivity|]. f_equal. apply IH. destruct I as [E|I]; [congruence|exact I].
Qed.
Lemma alist_ext : forall {V} (a b : list (bytes * V)), NoDup (keysOf a) -> keysOf a = keysOf b -> (forall k, dget a k = dget b k) -> a = b.
Proof.
  intros V a. induction a as [|[k x] a IH]; intros [|[k' y] b] N E G; cbn [keysOf map fst] in *; try discriminate; [reflexivity|].
  injection E as Ek E. subst k'. inversion N as [|? ? Nk N']; subst. pose proof (G k) as Gk. cbn [dget] in Gk. rewrite beq_refl in Gk. injection Gk as ->. f_equal.
  apply IH; [exact N'|exact E|]. intros j. specialize (G j). cbn [dget] in G. destruct (beq_spec j k) as [Ej|]; [|exact G]; subst j.
  assert (A : dget a k = None) by (apply dget_none; exact Nk). assert (B : dget b k = None) by (apply dget_none; unfold keysOf; rewrite <- E; exact Nk). congruence.
Qed.
Lemma dget_In' : forall {V} (d : list (bytes * V)) k v, dget d k = Some v -> In (k, v) d.
Proof. intros V d k v H. induction d as [|[a x] d IH]; cbn [dget] in H; [discriminate|]. destruct (beq_spec k a) as [->|]; [injection H as ->; left; reflexivity|right; auto]. Qed.
Lemma In_dget : forall {V} (d : list (bytes * V)) k v, NoDup (keysOf d) -> In (k, v) d -> dget d k = Some v.
Proof.
  intros V d k v N I. induction d as [|[a x] d IH]; [contradiction|]. cbn [dget]. inversion N as [|? ? Na N']; subst. destruct I as [E|I].
  - injection E as -> ->. rewrite beq_refl. reflexivity.
  - destruct (beq_spec k a) as [->|]; [|apply IH; assumption]. exfalso. apply Na. apply (in_map fst) in I. exact I.
Qed.
Lemma wfv_dset : forall m k v, wfv (VMap m) -> wfv v -> In k (keysOf m) -> wfv (VMap (dset m k v)).
Proof.
  intros m k v [N F] W I. split; [change (map fst (dset m k v)) with (keysOf (dset m k v)); rewrite keys_dset by exact I; exact N|].
  clear N I. induction m as [|[a x] m IH]; cbn [dset fold_right snd] in *; [auto|]. destruct (beq k a); cbn [fold_right snd]; tauto.
Qed.
Lemma json_str_len : forall s, Forall (fun x => 32 <= x /\ x <> 34 /\ x <> 92) s -> List.length (jstr s) = (List.length s + 2)%nat.
Proof.
  intros s F. unfold jstr. cbn [List.length]. rewrite app_length. cbn [List.length]. cut (List.length (List.concat (map jchar s)) = List.length s); [lia|].
  induction F as [|x s Hx F IH]; [reflexivity|]. cbn [map List.concat]. rewrite app_length, IH. cbn [List.length].
  assert (E : jchar x = [x]); [|rewrite E; reflexivity]. unfold jchar. destruct Hx as (L & N1 & N2).
  repeat match goal with |- context[x =? ?n] => destruct (N.eqb_spec x n); [lia|] end. destruct (N.ltb_spec x 32); [lia|reflexivity].
Qed.
Lemma joinb_replace : forall sep (pre : list bytes) (x y : bytes) (post : list bytes), List.length x = List.length y ->
  List.length (joinb sep (pre ++ x :: post)) = List.length (joinb sep (pre ++ y :: post)).
Proof.
  intros sep pre x y post E. induction pre as [|a pre IH]; cbn [app].
  - destruct post as [|b post]; [exact E|]. rewrite !joinb_cons, !app_length. lia.
  - destruct pre as [|b pre]; cbn [app] in *; rewrite !joinb_cons, !app_length; cbn [List.length]; (apply f_equal; apply f_equal; exact IH).
Qed.
(** replacing the value of one label by a value with a text of the same length *)
Lemma json_dset_len : forall m k v w, dget m k = Some v -> List.length (json v) = List.length (json w) ->
  List.length (json (VMap (dset m k w))) = List.length (json (VMap m)).
Proof.
  intros m k v w G E. assert (X : exists pre post, m = pre ++ (k, v) :: post /\ dset m k w = pre ++ (k, w) :: post).
  { revert G. induction m as [|[a x] m IH]; cbn [dget dset]; [discriminate|]. destruct (beq_spec k a) as [->|N].
    - intros H. injection H as ->. exists [], m. auto.
    - intros H. destruct (IH H) as (pre & post & -> & R). exists ((a, x) :: pre), post. split; [reflexivity|]. rewrite R. reflexivity. }
  destruct X as (pre & post & -> & ->). cbn [json List.length]. rewrite !app_length. do 2 f_equal. rewrite !map_app. cbn [map fst snd]. apply joinb_replace. rewrite !app_length. cbn [List.length]. lia.
Qed.
