(** Lemmas about the most compact form: redaction, binding, the Compactor, loops that do not end. *)
From Verif Require Import Prelude B64Model B64Proofs MatterModel SubsModel VerModel ThModel JsonModel JsonProofs SerModel SerSpec SerProofs SerInv CpModel CpSpec CpProofs.
Open Scope N_scope.
Ltac Zify.zify_post_hook ::= Z.div_mod_to_equations.

Section R.
Variable digest : bytes -> bytes -> bytes.
Variable dumpm : bool -> list bytes -> sad -> res bytes.
Variable L dflt : bytes.
Notation roll := (roll digest dumpm L dflt).
Notation rolls := (rolls digest dumpm L dflt).
Notation saidText := (saidText digest dumpm L dflt).
Notation redacts := (redacts digest dumpm L dflt).
Notation agree := (agree digest dumpm L dflt).

(** ** Redaction *)
Lemma redacts_isMap : forall w v, redacts w v -> isMap w = true -> isMap v = true.
Proof. intros w v H. destruct H; intros M; [exact M|reflexivity|reflexivity]. Qed.
Lemma forall2_keys : forall (P : val -> val -> Prop) (m m' : sad), Forall2 (fun a b => fst a = fst b /\ P (snd a) (snd b)) m m' -> keysOf m = keysOf m'.
Proof. intros P m m' F. induction F as [|a b m m' [E _] F IH]; [reflexivity|]. cbn [keysOf map]. rewrite E. f_equal. exact IH. Qed.
Lemma redacts_rolls' : forall m, Forall (fun kv => forall w r, redacts w (snd kv) -> roll (snd kv) = Ok r -> roll w = Ok r) m ->
  forall w, Forall2 (fun a b => fst a = fst b /\ redacts (snd a) (snd b)) w m -> forall r, rolls m = Ok r -> rolls w = Ok r.
Proof.
  intros m F. induction F as [|[l x] m Hx F IH]; intros w G r H; inversion G as [|[l' y] ? w' ? [E D] G']; subst; [exact H|]. cbn [fst snd] in *. subst l'. cbn [CpSpec.rolls] in *.
  destruct (beq l L && isMap x) eqn:M; [discriminate|]. destruct (roll x) as [x'|] eqn:Rx; cbn [bind] in H; [|discriminate]. destruct (rolls m) as [m'|]; cbn [bind] in H; [|discriminate].
  assert (My : beq l L && isMap y = false). { destruct (beq l L); [|reflexivity]. cbn [andb] in *. destruct (isMap y) eqn:Y; [|reflexivity]. rewrite (redacts_isMap _ _ D Y) in M. discriminate. }
  rewrite My, (Hx _ _ D eq_refl). cbn [bind]. rewrite (IH _ G' _ eq_refl). exact H.
Qed.
Lemma redacts_roll : forall v w r, redacts w v -> roll v = Ok r -> roll w = Ok r.
Proof.
  induction v as [| | z | s | l IH | m IH] using val_ind'; intros w r D H; try (inversion D; subst; exact H).
  inversion D as [? E1 E2|? q Hq E1 E2|w' ? Hw E1 E2]; subst; [exact H| |].
  - rewrite H in Hq. injection Hq as ->. reflexivity.
  - rewrite roll_eq in *. destruct (rolls m) as [m1|] eqn:Rm; cbn [bind] in H; [|discriminate]. rewrite (redacts_rolls' _ IH _ Hw _ Rm). cbn [bind]. pose proof (forall2_keys _ _ _ Hw) as K. destruct (dget m L) eqn:G.
    + destruct (keys_get_some _ w' _ _ (eq_sym K) G) as (y & ->). exact H.
    + rewrite (keys_get_none _ w' _ (eq_sym K) G). exact H.
Qed.
Lemma redacts_rolls : forall m w r, Forall2 (fun a b => fst a = fst b /\ redacts (snd a) (snd b)) w m -> rolls m = Ok r -> rolls w = Ok r.
Proof. intros m w r F. eapply redacts_rolls'; [|exact F]. apply Forall_forall. intros kv _ w' r'. apply redacts_roll. Qed.

(** ** Binding *)
Hypothesis Hd : digest_ok digest.
Hypothesis Hi : injDump dumpm.
Lemma codeFor_in : forall m q, saidText m = Ok q -> exists x raw, dget m L = Some x /\ In (codeFor dflt x) DigDex /\ dumpm true [L] (dset m L (dummy (fullSize (codeFor dflt x)))) = Ok raw /\ isDigestOf digest (codeFor dflt x) raw q.
Proof.
  intros m q H. unfold CpSpec.saidText in H. destruct (dget m L) as [x|]; [|discriminate]. destruct (memB (codeFor dflt x) DigDex) eqn:M; [|discriminate]. cbn [negb] in H. apply memB_In in M.
  destruct (dumpm true [L] (dset m L (dummy (fullSize (codeFor dflt x))))) as [raw|] eqn:D; cbn [bind] in H; [|discriminate]. destruct (digerOf digest (codeFor dflt x) raw) as [t|] eqn:T; cbn [bind] in H; [|discriminate].
  destruct (dumpm true [] _); cbn [bind] in H; [|discriminate]. injection H as <-. exists x, raw. split; [reflexivity|]. split; [exact M|]. split; [exact D|]. exact (proj1 (digerOf_inv _ _ _ _ Hd T)).
Qed.
Lemma dset_inj : forall (a b : sad) k v, In k (keysOf a) -> In k (keysOf b) -> dset a k v = dset b k v -> Forall2 (fun x y => fst x = fst y /\ (fst x = k \/ snd x = snd y)) a b.
Proof.
  induction a as [|[p x] a IH]; intros b k v A B E; [destruct A|]. destruct b as [|[q y] b]; [destruct B|]. cbn [dset] in E. destruct (beq_spec k p) as [Z1|N]; destruct (beq_spec k q) as [Z2|M].
  - subst p q. injection E as E. subst b. constructor; [split; [reflexivity|left; reflexivity]|]. clear. induction a; constructor; [split; [reflexivity|right; reflexivity]|assumption].
  - injection E as E1 E2. congruence.
  - injection E as E1 E2. congruence.
  - injection E as -> -> E. destruct A as [A|A]; [cbn [fst] in A; congruence|]. destruct B as [B|B]; [cbn [fst] in B; congruence|]. constructor; [split; [reflexivity|right; reflexivity]|]. eapply IH; eassumption.
Qed.
Lemma saidText_inj : forall a b q, saidText a = Ok q -> saidText b = Ok q -> Forall2 (fun x y => fst x = fst y /\ (fst x = L \/ snd x = snd y)) a b \/ collision digest.
Proof.
  intros a b q A B. destruct (codeFor_in _ _ A) as (x & r & Gx & Ix & Dx & (_ & Ex & _)). destruct (codeFor_in _ _ B) as (y & s & Gy & Iy & Dy & (_ & Ey & _)).
  rewrite Ex in Ey. injection Ey as Ec Ed. rewrite Ec in *. destruct (list_eq_dec N.eq_dec r s) as [->|N]; [|right; exists (codeFor dflt y), r, s; repeat (split; [assumption|]); assumption].
  left. pose proof (Hi _ _ _ _ _ Dx Dy) as E. eapply dset_inj; [| |exact E]; apply dget_keys; eauto.
Qed.
Lemma rolls_agree' : forall m1, Forall (fun kv => forall v2 r, roll (snd kv) = Ok r -> roll v2 = Ok r -> agree (snd kv) v2 \/ collision digest) m1 ->
  forall m2 a b, rolls m1 = Ok a -> rolls m2 = Ok b -> Forall2 (fun x y => fst x = fst y /\ (fst x = L \/ snd x = snd y)) a b ->
  Forall2 (fun x y => fst x = fst y /\ (fst x = L \/ agree (snd x) (snd y))) m1 m2 \/ collision digest.
Proof.
  intros m1 F. induction F as [|[l x] m1 Hx F IH]; intros m2 a b A B E.
  - cbn [CpSpec.rolls] in A. injection A as <-. inversion E; subst. destruct m2 as [|[k y] m2]; [left; constructor|]. cbn [CpSpec.rolls] in B. destruct (beq k L && isMap y); [discriminate|]. destruct (roll y); cbn [bind] in B; [|discriminate]. destruct (rolls m2); cbn [bind] in B; discriminate.
  - cbn [CpSpec.rolls snd] in *. destruct (beq l L && isMap x); [discriminate|]. destruct (roll x) as [x'|] eqn:Rx; cbn [bind] in A; [|discriminate]. destruct (rolls m1) as [a'|]; cbn [bind] in A; [|discriminate]. injection A as <-.
    inversion E as [|? [k y'] ? b' [E1 E2] E3]; subst. cbn [fst snd] in *. subst k. destruct m2 as [|[k y] m2]; [discriminate|]. cbn [CpSpec.rolls] in B. destruct (beq k L && isMap y); [discriminate|]. destruct (roll y) as [y''|] eqn:Ry; cbn [bind] in B; [|discriminate].
    destruct (rolls m2) as [b''|] eqn:Rm2; cbn [bind] in B; [|discriminate]. injection B as -> -> ->. destruct (IH _ _ _ eq_refl Rm2 E3) as [I1|I1]; [|right; exact I1].
    destruct E2 as [E2|E2].
    + left. constructor; [split; [reflexivity|left; exact E2]|exact I1].
    + subst y'. destruct (Hx y x' eq_refl Ry) as [G|G]; [|right; exact G]. left. constructor; [split; [reflexivity|right; exact G]|exact I1].
Qed.
Lemma forall2_refl : forall (a : sad), Forall2 (fun x y => fst x = fst y /\ (fst x = L \/ snd x = snd y)) a a.
Proof. induction a; constructor; [split; [reflexivity|right; reflexivity]|assumption]. Qed.
Lemma roll_agree : forall v1 v2 r, roll v1 = Ok r -> roll v2 = Ok r -> agree v1 v2 \/ collision digest.
Proof.
  assert (NM : forall v r, isMap v = false -> roll v = Ok r -> r = v). { intros v r M H. destruct v; try (injection H as <-; reflexivity). discriminate. }
  assert (MM : forall m r, roll (VMap m) = Ok r -> (exists q, r = VStr q) \/ exists m', r = VMap m').
  { intros m r H. rewrite roll_eq in H. destruct (rolls m); cbn [bind] in H; [|discriminate]. destruct (dget m L); [|injection H as <-; right; eauto]. destruct (saidText a); cbn [bind] in H; [|discriminate]. injection H as <-. left. eauto. }
  induction v1 as [| | z | s | l IH | m1 IH] using val_ind'; intros v2 r A B.
  1-5: pose proof A as A0; apply NM in A0; [subst r|reflexivity]; destruct (isMap v2) eqn:M2; [destruct v2 as [| | | | |m2]; try discriminate; destruct (MM _ _ B) as [(q & E)|(m' & E)]; try discriminate; injection E as ->; left; apply ag_left; exact B|rewrite <- (NM _ _ M2 B); left; apply ag_same].
  destruct v2 as [| | | | |m2]; try (pose proof B as B0; apply NM in B0; [subst r|reflexivity]; destruct (MM _ _ A) as [(q & E)|(m' & E)]; try discriminate; injection E as ->; left; apply ag_right; exact A).
  rewrite roll_eq in A, B. destruct (rolls m1) as [a|] eqn:Ra; cbn [bind] in A; [|discriminate]. destruct (rolls m2) as [b|] eqn:Rb; cbn [bind] in B; [|discriminate].
  assert (E : Forall2 (fun x y => fst x = fst y /\ (fst x = L \/ snd x = snd y)) a b \/ collision digest).
  { destruct (dget m1 L) eqn:G1; destruct (dget m2 L) eqn:G2.
    - destruct (saidText a) as [q|] eqn:Q; cbn [bind] in A; [|discriminate]. injection A as <-. destruct (saidText b) as [q'|] eqn:Q'; cbn [bind] in B; [|discriminate]. injection B as ->. eapply saidText_inj; eassumption.
    - injection B as <-. destruct (saidText a); cbn [bind] in A; discriminate.
    - injection A as <-. destruct (saidText b); cbn [bind] in B; discriminate.
    - injection A as <-. injection B as ->. left. apply forall2_refl. }
  destruct E as [E|E]; [|right; exact E]. destruct (rolls_agree' _ IH _ _ _ Ra Rb E) as [F|F]; [left; apply ag_map; exact F|right; exact F].
Qed.
Lemma rolls_agree : forall m1 m2 a b, rolls m1 = Ok a -> rolls m2 = Ok b -> Forall2 (fun x y => fst x = fst y /\ (fst x = L \/ snd x = snd y)) a b ->
  Forall2 (fun x y => fst x = fst y /\ (fst x = L \/ agree (snd x) (snd y))) m1 m2 \/ collision digest.
Proof. intros m1 m2 a b. apply rolls_agree'. apply Forall_forall. intros kv _ v2 r. apply roll_agree. Qed.
End R.
