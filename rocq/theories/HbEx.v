(** A concrete choice of the external functions, for the examples on event builders and habitats. *)
From Coq Require Import Lia.
From Verif Require Import Prelude B64Model MatterModel SubsModel ThModel JsonModel KsModel KsSpec KsThms KelModel KelSpec OoSpec HbModel HbSpec HbProofs.
Open Scope N_scope.

(** texts as numbers: x :: l is the number of l, a one and x zeros *)
Fixpoint encP (l : bytes) : positive := match l with [] => xH | x :: r => N.iter x xO (xI (encP r)) end.
Fixpoint decP (p : positive) (a : N) : bytes :=
  match p with xH => [] | xO q => decP q (a + 1) | xI q => a :: decP q 0 end.
Lemma decP_iter : forall x q a, decP (N.iter x xO q) a = decP q (a + x).
Proof.
  intros x q. induction x as [|x IH] using N.peano_ind; intros a; [rewrite N.add_0_r; reflexivity|].
  rewrite N.iter_succ. cbn [decP]. rewrite IH. f_equal. lia.
Qed.
Lemma dec_enc : forall l, decP (encP l) 0 = l.
Proof. induction l as [|x l IH]; [reflexivity|]. cbn [encP]. rewrite decP_iter. cbn [decP]. rewrite IH. reflexivity. Qed.
Definition nmx (t : bytes) : N := Npos (encP t).
Definition txx (n : N) : bytes := match n with 0 => [] | Npos p => decP p 0 end.
Lemma tx_nm : forall t, txx (nmx t) = t.
Proof. exact dec_enc. Qed.

Definition kx : kcfg := mkCfg (fun _ sd (tr : bool) => (if tr then 68 else 66) :: sd) (fun p => match p with x :: _ => x =? 68 | [] => false end)
  (fun salt path _ _ _ => path) (fun n => 114 :: hexstr n) (fun n => 115 :: hexstr n) (fun _ p => 69 :: p) (fun a s => beq a (66 :: s)).
Definition cox (t : bytes) : option bytes :=
  match t with
  | x :: _ => if x =? 66 then Some (s2b "B") else if x =? 68 then Some (s2b "D") else if x =? 69 then Some (s2b "E") else None
  | [] => None
  end.
Definition ex : env := mkEnv (fun ky r s => beq r (tl (txx ky) ++ s)) (fun dg ky => beq (txx dg) (69 :: txx ky))
  (fun p => match txx p with x :: _ => negb (x =? 66) | [] => true end) (fun p => match cox (txx p) with Some _ => true | None => false end).
Definition hx : hcfg := mkHcfg kx ex nmx txx cox (fun e => [e_sn e; e_said e]) (fun _ e => [69; e_sn e]) (fun k s => snd k ++ s) (fun i r => i :: r).
Lemma hx_coherent : coherent hx.
Proof.
  constructor.
  - intros. apply tx_nm.
  - intros cd sd []; reflexivity.
  - intros cd sd tr ser. change (beq (sd ++ ser) (tl (txx (nmx ((if tr then 68 else 66) :: sd))) ++ ser) = true). rewrite tx_nm. apply beq_refl.
  - intros dc pub. change (beq (txx (nmx (69 :: pub))) (69 :: txx (nmx pub)) = true). rewrite !tx_nm. apply beq_refl.
  - intros i j a b E. cbn in E. injection E. auto.
  - intros t cd E _. change (match cox (txx (nmx t)) with Some _ => true | None => false end = true). rewrite tx_nm. change (cox t = Some cd) in E. rewrite E. reflexivity.
  - intros t cd E _. change (match txx (nmx t) with x :: _ => negb (x =? 66) | [] => true end = false <-> In cd fixedCodes). rewrite tx_nm. change (cox t = Some cd) in E. destruct t as [|x t]; [discriminate|]. cbn in E.
    destruct (x =? 66); [injection E as <-; split; [intros _; left; reflexivity|reflexivity]|].
    split; [discriminate|]. intros F. exfalso. destruct (x =? 68); [|destruct (x =? 69); [|discriminate]]; injection E as <-;
    destruct F as [F|[F|[F|[F|[]]]]]; vm_compute in F; discriminate.
Qed.

(** an empty key store and database, and a node that is to have the habitat with prefix [px] *)
Definition m0x : mgr := fst (snd (setup kx [] 0 Salty (s2b "S") TierLow (new0 []))).
Lemma fhist_0 : fhist kx m0x.
Proof. eapply (f_new kx [] 0 Salty (s2b "S") TierLow [] 0); [auto|vm_compute; reflexivity]. Qed.
Definition px : bytes := [69; 0].
Definition cfx : conf := mkConf [nmx px] [] (fun _ => None).
Definition cfs : conf := mkConf [] [] (fun _ => None).
Definition two : sith := SHex (s2b "2").
Definition inx (isith nsith : option sith) (toad : option N) : inArgs := mkInArgs isith nsith toad [] false false [] None None.
Definition gx (a : inArgs) : habArgs := mkHabArgs a 2 EdSeed None (s2b "E") None None None true (s2b "a") false.
Definition plain (data : list seal) : rotArgs := mkRotArgs None None None [] [] data.
