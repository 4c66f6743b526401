From Coq Require Import Lia.
From Verif Require Import Prelude ThModel ThProofs JsonModel SgModel SgSpec.
Ltac Zify.zify_post_hook ::= Z.div_mod_to_equations.
Open Scope N_scope.

Notation pr := (fun x : bytes * bytes => item (fst x) (snd x)).
Lemma cut_app k w : ~ In 61 k -> cut (k ++ 61 :: w) = Ok (k, w).
Proof.
  induction k as [|ch k IH]; intros N; [reflexivity|]. cbn [app cut]. destruct (N.eqb_spec ch 61) as [E|E]; [destruct N; left; exact E|]. rewrite IH; [reflexivity|]. intros I. apply N. right. exact I.
Qed.
Lemma lstrip_id s : ~ In 34 s -> lstrip s = s.
Proof. destruct s as [|ch s]; intros N; [reflexivity|]. cbn. destruct (N.eqb_spec ch 34) as [E|E]; [destruct N; left; exact E|reflexivity]. Qed.
Lemma lstrip_quoted s : ~ In 34 s -> lstrip (s ++ [34]) = match s with [] => [] | _ => s ++ [34] end.
Proof. destruct s as [|ch s]; intros N; [reflexivity|]. cbn. destruct (N.eqb_spec ch 34) as [E|E]; [destruct N; left; exact E|reflexivity]. Qed.
Lemma strip_quoted v : ~ In 34 v -> strip (34 :: v ++ [34]) = v.
Proof.
  intros N. unfold strip. cbn [lstrip N.eqb Pos.eqb]. rewrite lstrip_quoted by exact N. destruct v as [|ch v]; [reflexivity|]. rewrite rev_app_distr. cbn [rev app lstrip N.eqb Pos.eqb]. rewrite lstrip_id; [|intros I; apply N; apply in_rev; exact I]. change (rev v ++ [ch]) with (rev (ch :: v)). apply rev_involutive.
Qed.
Lemma dset_new {V} (d : list (bytes * V)) k v : ~ In k (map fst d) -> dset d k v = d ++ [(k, v)].
Proof.
  induction d as [|[k' v'] d IH]; intros N; [reflexivity|]. cbn [dset app]. destruct (beq_spec k k') as [E|E]; [destruct N; left; symmetry; exact E|]. rewrite IH; [reflexivity|]. intros I. apply N. right. exact I.
Qed.
Lemma fields_items l : forall d, NoDup (map fst (d ++ l)) -> (forall k v, In (k, v) l -> ~ In 61 k /\ ~ In 34 v) -> fields (map pr l) d = Ok (d ++ l).
Proof.
  induction l as [|[k v] l IH]; intros d ND H; [rewrite app_nil_r; reflexivity|]. cbn [map fields fst snd]. destruct (H k v (or_introl eq_refl)) as (H1 & H2). unfold item. rewrite cut_app by exact H1. cbn [bind]. rewrite strip_quoted by exact H2.
  rewrite dset_new.
  - rewrite IH; [rewrite <- app_assoc; reflexivity| |intros k' v' I; apply H; right; exact I]. rewrite <- app_assoc. exact ND.
  - rewrite map_app in ND. cbn [map fst] in ND. apply NoDup_remove_2 in ND. intros I. apply ND. apply in_or_app. left. exact I.
Qed.
Lemma nosep_of sep s : ~ In sep s -> nosep sep s.
Proof. intros N. apply Forall_forall. intros ch I ->. contradiction. Qed.
Lemma item_In ch k v : In ch (item k v) -> In ch k \/ ch = 61 \/ ch = 34 \/ In ch v.
Proof. unfold item. intros I. apply in_app_or in I. destruct I as [I|I]; [auto|]. destruct I as [I|[I|I]]; [auto|auto|]. apply in_app_or in I. destruct I as [I|[I|[]]]; auto. Qed.
Lemma nospace_id s : ~ In 32 s -> nospace s = s.
Proof.
  induction s as [|ch s IH]; intros N; [reflexivity|]. cbn. destruct (N.eqb_spec ch 32) as [E|E]; [destruct N; left; exact E|]. cbn [negb]. f_equal. apply IH. intros I. apply N. right. exact I.
Qed.
Lemma joinb_In sep ch l : In ch (joinb sep l) -> ch = sep \/ exists x, In x l /\ In ch x.
Proof.
  induction l as [|x l IH]; [intros []|]. destruct l as [|y l]; [cbn; intros I; right; exists x; auto|]. change (joinb sep (x :: y :: l)) with (x ++ sep :: joinb sep (y :: l)). intros I. apply in_app_or in I. destruct I as [I|[I|I]]; [right; exists x; split; [left; reflexivity|exact I]|auto|].
  destruct (IH I) as [->|(z & Z1 & Z2)]; [auto|right; exists z; split; [right; exact Z1|exact Z2]].
Qed.
Definition good (l : list (bytes * bytes)) : Prop := forall k v, In (k, v) l -> plain k /\ plain v.
Lemma items_free l ch : good l -> ch = 32 \/ ch = 44 -> ~ In ch (joinb 59 (map pr l)).
Proof.
  intros G C I. apply joinb_In in I. destruct I as [->|(x & X & I)]; [lia|]. apply in_map_iff in X. destruct X as ([k v] & <- & X). destruct (G _ _ X) as (P1 & P2). apply item_In in I. destruct I as [I|[I|[I|I]]]; [specialize (P1 _ I); lia|lia|lia|specialize (P2 _ I); lia].
Qed.
Lemma split_items l : l <> [] -> good l -> splitb 59 (joinb 59 (map pr l)) = map pr l.
Proof.
  intros NE G. apply split_join; [destruct l; [congruence|discriminate]|]. apply Forall_map, Forall_forall. intros [k v] I. apply nosep_of. destruct (G _ _ I) as (P1 & P2). intros J. apply item_In in J. cbn [fst snd] in J. destruct J as [J|[J|[J|J]]]; [specialize (P1 _ J); lia|lia|lia|specialize (P2 _ J); lia].
Qed.

(** the parts of a group *)
Definition optp (t : string) (v : option bytes) : list (bytes * bytes) := match text v with None => [] | Some v => [(s2b t, v)] end.
Lemma opt_optp t v : opt t v = map pr (optp t v).
Proof. destruct v as [[|ch v]|]; reflexivity. Qed.
Lemma optp_In t v r x : In x (map fst (optp t v ++ r)) -> x = s2b t \/ In x (map fst r).
Proof. unfold optp. destruct (text v) as [w|]; cbn; [intros [E|I]; auto|auto]. Qed.
Lemma dget_none {V} (d : list (bytes * V)) k : ~ In k (map fst d) -> dget d k = None.
Proof. induction d as [|[k' v] d IH]; intros N; [reflexivity|]. cbn. destruct (beq_spec k k') as [E|E]; [destruct N; left; symmetry; exact E|]. apply IH. intros I. apply N. right. exact I. Qed.
Lemma without_id {V} (d : list (bytes * V)) k : ~ In k (map fst d) -> without d k = d.
Proof. unfold without. induction d as [|[k' v] d IH]; intros N; [reflexivity|]. cbn. destruct (beq_spec k' k) as [E|E]; [destruct N; left; exact E|]. cbn. f_equal. apply IH. intros I. apply N. right. exact I. Qed.
Lemma optp_read t v r : ~ In (s2b t) (map fst r) -> dget (optp t v ++ r) (s2b t) = text v /\ without (optp t v ++ r) (s2b t) = r.
Proof.
  intros N. unfold optp. destruct (text v) as [w|]; cbn [app].
  - cbn [dget]. rewrite beq_refl. split; [reflexivity|]. unfold without. cbn [filter fst]. rewrite beq_refl. cbn [negb]. apply without_id. exact N.
  - split; [apply dget_none; exact N|apply without_id; exact N].
Qed.
Definition pairs (g : signage) (ind : bool) (l : list (bytes * mark)) : list (bytes * bytes) :=
  (s2b "indexed", if ind then s2b "?1" else s2b "?0") :: optp "signer" (signer g) ++ optp "ordinal" (ordinal g) ++ optp "digest" (digest g) ++ optp "kind" (kind g) ++ map (fun x => (fst x, chars (snd x))) l.
Lemma mapr_map {A B C} (f : A -> res B) (h : C -> A) (k : C -> B) l : (forall x, In x l -> f (h x) = Ok (k x)) -> mapr f (map h l) = Ok (map k l).
Proof. induction l as [|x l IH]; intros H; [reflexivity|]. cbn. rewrite (H x (or_introl eq_refl)). cbn. rewrite IH by (intros y I; apply H; right; exact I). reflexivity. Qed.
Lemma mapr_id {A B} (f : A -> res B) (k : A -> B) l : (forall x, In x l -> f x = Ok (k x)) -> mapr f l = Ok (map k l).
Proof. intros H. pose proof (mapr_map f (fun x => x) k l H) as E. rewrite map_id in E. exact E. Qed.
Lemma markItems_signed g ind l : signed g ind l -> (forall k m, In (k, m) l -> forall t, m <> Tx t) -> markItems (markers g) ind = Ok (map pr (map (fun x => (fst x, chars (snd x))) l)).
Proof.
  intros (S1 & _) NT. destruct (markers g) as [ms|d]; cbn [markItems].
  - clear NT. induction S1 as [|m x ms l H F IH]; [reflexivity|]. cbn [mapr]. destruct H; cbn [autoTag qb64Of bind negb]; rewrite IH; reflexivity.
  - subst l. rewrite map_map. apply mapr_id. intros [k m] I. specialize (NT k m I). destruct m; [reflexivity|reflexivity|]. exfalso. eapply NT. reflexivity.
Qed.
Lemma isIndexed_signed g ind l : signed g ind l -> isIndexed g = Ok ind.
Proof.
  intros (S1 & S2). unfold isIndexed. destruct (indexed g) as [b|]; [subst b; reflexivity|]. destruct S2 as (k & m & r & -> & S2). destruct (markers g) as [ms|d].
  - inversion S1 as [|m0 x ms0 l0 H F]; subst. inversion H; subst; reflexivity.
  - subst d. cbn. destruct m; [subst; reflexivity|subst; reflexivity|destruct S2].
Qed.
Lemma names5 : forall ind, NoDup [s2b "indexed"; s2b "signer"; s2b "ordinal"; s2b "digest"; s2b "kind"] /\ (forall x, In x [s2b "indexed"; s2b "signer"; s2b "ordinal"; s2b "digest"; s2b "kind"] -> plain x /\ ~ In 61 x) /\ plain (if ind : bool then s2b "?1" else s2b "?0").
Proof.
  intros ind. assert (D : forall s, forallb (fun ch => negb ((ch =? 32) || (ch =? 44) || (ch =? 59) || (ch =? 34) || (ch =? 61))) s = true -> plain s /\ ~ In 61 s).
  { intros s H. rewrite forallb_forall in H. split; [intros ch I; specialize (H ch I); lia|intros I; specialize (H _ I); discriminate H]. }
  split; [|split].
  - repeat (constructor; [cbn; intros I; repeat (destruct I as [I|I]; [discriminate I|]); exact I|]). constructor.
  - intros x I. cbn in I. repeat (destruct I as [<-|I]; [apply D; vm_compute; reflexivity|]). destruct I.
  - destruct ind; apply D; vm_compute; reflexivity.
Qed.
Section R.
Variables (siger cigar : bytes -> res mark).
Notation arrives := (arrives siger cigar).
Lemma optp_good t v w : (forall x, v = Some x -> plain x) -> plain (s2b t) -> In w (optp t v) -> plain (fst w) /\ plain (snd w).
Proof. unfold optp. intros H P I. destruct v as [[|ch v]|]; cbn in I; try contradiction. destruct I as [<-|[]]. split; [exact P|apply H; reflexivity]. Qed.
Lemma pairs_ok g ind l : NoDup (map fst l) -> (forall k m, In (k, m) l -> label k /\ plain (chars m)) -> (forall v, In (Some v) [signer g; ordinal g; digest g; kind g] -> plain v) ->
  good (pairs g ind l) /\ NoDup (map fst (pairs g ind l)) /\ (forall k v, In (k, v) (pairs g ind l) -> ~ In 61 k).
Proof.
  intros ND LB TX. destruct (names5 ind) as (N1 & N2 & N3). assert (PN : forall x, In x [s2b "indexed"; s2b "signer"; s2b "ordinal"; s2b "digest"; s2b "kind"] -> plain x) by (intros x I; apply N2; exact I).
  assert (C : forall w, In w (pairs g ind l) -> (plain (fst w) /\ plain (snd w)) /\ ~ In 61 (fst w)).
  { intros w I. unfold pairs in I. destruct I as [<-|I]; [split; [split; [apply PN; cbn; auto 9|exact N3]|apply N2; cbn; auto 9]|].
    apply in_app_or in I. destruct I as [I|I]; [split; [refine (optp_good _ _ w _ _ I); [intros x E; apply TX; rewrite <- E; cbn; auto|apply PN; cbn; auto 9]|]; unfold optp in I; destruct (text _) as [t0|]; [destruct I as [<-|[]]; apply N2; cbn; auto 9|destruct I]|].
    apply in_app_or in I. destruct I as [I|I]; [split; [refine (optp_good _ _ w _ _ I); [intros x E; apply TX; rewrite <- E; cbn; auto|apply PN; cbn; auto 9]|]; unfold optp in I; destruct (text _) as [t0|]; [destruct I as [<-|[]]; apply N2; cbn; auto 9|destruct I]|].
    apply in_app_or in I. destruct I as [I|I]; [split; [refine (optp_good _ _ w _ _ I); [intros x E; apply TX; rewrite <- E; cbn; auto|apply PN; cbn; auto 9]|]; unfold optp in I; destruct (text _) as [t0|]; [destruct I as [<-|[]]; apply N2; cbn; auto 9|destruct I]|].
    apply in_app_or in I. destruct I as [I|I]; [split; [refine (optp_good _ _ w _ _ I); [intros x E; apply TX; rewrite <- E; cbn; auto|apply PN; cbn; auto 9]|]; unfold optp in I; destruct (text _) as [t0|]; [destruct I as [<-|[]]; apply N2; cbn; auto 9|destruct I]|].
    apply in_map_iff in I. destruct I as ([k m] & <- & I). destruct (LB _ _ I) as ((L1 & L2 & _) & L3). cbn. auto. }
  split; [intros k v I; apply (C (k, v) I)|]. split; [|intros k v I; apply (C (k, v) I)].
  assert (KL : forall x, In x (map fst (map (fun x : bytes * mark => (fst x, chars (snd x))) l)) -> ~ In x [s2b "indexed"; s2b "signer"; s2b "ordinal"; s2b "digest"; s2b "kind"]).
  { intros x I. rewrite map_map in I. apply in_map_iff in I. destruct I as ([k m] & <- & I). destruct (LB _ _ I) as ((_ & _ & L) & _). exact L. }
  assert (ND2 : NoDup (map fst (map (fun x : bytes * mark => (fst x, chars (snd x))) l))) by (rewrite map_map; exact ND).
  set (tl := map (fun x : bytes * mark => (fst x, chars (snd x))) l) in *. unfold pairs. fold tl.
  assert (ST : forall t v r, NoDup (map fst r) -> ~ In (s2b t) (map fst r) -> NoDup (map fst (optp t v ++ r))) by (intros t v r NR NI; unfold optp; destruct (text v); cbn; [constructor; assumption|exact NR]).
  inversion N1 as [|? ? X1 N1a]; subst. inversion N1a as [|? ? X2 N1b]; subst. inversion N1b as [|? ? X3 N1c]; subst. inversion N1c as [|? ? X4 _]; subst.
  assert (A4 : ~ In (s2b "kind") (map fst tl)) by (intros I; apply (KL _ I); cbn; auto 9).
  assert (A3 : ~ In (s2b "digest") (map fst (optp "kind" (kind g) ++ tl))) by (intros I; apply optp_In in I; destruct I as [I|I]; [apply X4; left; symmetry; exact I|apply (KL _ I); cbn; auto 9]).
  assert (A2 : ~ In (s2b "ordinal") (map fst (optp "digest" (digest g) ++ optp "kind" (kind g) ++ tl))) by (intros I; apply optp_In in I; destruct I as [I|I]; [apply X3; left; symmetry; exact I|]; apply optp_In in I; destruct I as [I|I]; [apply X3; right; left; symmetry; exact I|apply (KL _ I); cbn; auto 9]).
  assert (A1 : ~ In (s2b "signer") (map fst (optp "ordinal" (ordinal g) ++ optp "digest" (digest g) ++ optp "kind" (kind g) ++ tl))) by (intros I; apply optp_In in I; destruct I as [I|I]; [apply X2; left; symmetry; exact I|]; apply optp_In in I; destruct I as [I|I]; [apply X2; right; left; symmetry; exact I|]; apply optp_In in I; destruct I as [I|I]; [apply X2; right; right; left; symmetry; exact I|apply (KL _ I); cbn; auto 9]).
  assert (A0 : ~ In (s2b "indexed") (map fst (optp "signer" (signer g) ++ optp "ordinal" (ordinal g) ++ optp "digest" (digest g) ++ optp "kind" (kind g) ++ tl))) by (intros I; apply optp_In in I; destruct I as [I|I]; [apply X1; left; symmetry; exact I|]; apply optp_In in I; destruct I as [I|I]; [apply X1; right; left; symmetry; exact I|]; apply optp_In in I; destruct I as [I|I]; [apply X1; right; right; left; symmetry; exact I|]; apply optp_In in I; destruct I as [I|I]; [apply X1; right; right; right; left; symmetry; exact I|apply (KL _ I); cbn; auto 9]).
  cbn [map fst]. constructor; [exact A0|]. apply ST; [|exact A1]. apply ST; [|exact A2]. apply ST; [|exact A3]. apply ST; [exact ND2|exact A4].
Qed.
Lemma group_arrives g o : arrives g o -> exists ind l, group g = Ok (joinb 59 (map pr (pairs g ind l))) /\ good (pairs g ind l) /\ ungroup siger cigar (joinb 59 (map pr (pairs g ind l))) = Ok o.
Proof.
  intros (ind & l & SG & ND & LB & TX & RD & EO). exists ind, l.
  assert (LB' : forall k m, In (k, m) l -> label k /\ plain (chars m)) by (intros k m I; destruct (LB k m I) as (B1 & B2 & _); auto).
  destruct (pairs_ok g ind l ND LB' TX) as (GD & NDP & N61). split; [|split; [exact GD|]].
  - unfold group. rewrite (isIndexed_signed g ind l SG). cbn [bind]. rewrite (markItems_signed g ind l SG) by (intros k m I; apply (LB k m I)). cbn [bind]. rewrite !opt_optp. unfold pairs. cbn [map]. rewrite !map_app. destruct ind; reflexivity.
  - unfold ungroup. rewrite split_items by (discriminate || exact GD). rewrite fields_items; [|cbn [app]; exact NDP|intros k v I; split; [apply (N61 k v I)|intros Q; destruct (GD k v I) as (_ & P2); specialize (P2 _ Q); lia]].
    cbn [bind app]. set (tl := map (fun x : bytes * mark => (fst x, chars (snd x))) l) in *.
    assert (E1 : dget (pairs g ind l) (s2b "indexed") = Some (if ind then s2b "?1" else s2b "?0")) by (unfold pairs; cbn [dget]; rewrite beq_refl; reflexivity). rewrite E1.
    cbn zeta. match goal with |- context[negb (existsb ?f falsey)] => assert (EI : negb (existsb f falsey) = ind) by (destruct ind; vm_compute; reflexivity); rewrite EI end.
    unfold pairs in NDP |- *. fold tl in NDP |- *. cbn [map fst] in NDP. inversion NDP as [|? ? A0 ND1]; subst.
    assert (W0 : without ((s2b "indexed", if ind then s2b "?1" else s2b "?0") :: optp "signer" (signer g) ++ optp "ordinal" (ordinal g) ++ optp "digest" (digest g) ++ optp "kind" (kind g) ++ tl) (s2b "indexed") = optp "signer" (signer g) ++ optp "ordinal" (ordinal g) ++ optp "digest" (digest g) ++ optp "kind" (kind g) ++ tl).
    { unfold without. cbn [filter fst]. rewrite beq_refl. cbn [negb]. apply without_id. exact A0. }
    rewrite W0. clear W0 E1 EI A0.
    assert (KL : forall x, In x (map fst tl) -> ~ In x [s2b "indexed"; s2b "signer"; s2b "ordinal"; s2b "digest"; s2b "kind"]).
    { intros x I. unfold tl in I. rewrite map_map in I. apply in_map_iff in I. destruct I as ([k m] & <- & I). destruct (LB' _ _ I) as ((_ & _ & L) & _). exact L. }
    destruct (names5 ind) as (N1 & _ & _). inversion N1 as [|? ? X1 N1a]; subst. inversion N1a as [|? ? X2 N1b]; subst. inversion N1b as [|? ? X3 N1c]; subst. inversion N1c as [|? ? X4 _]; subst.
    assert (A4 : ~ In (s2b "kind") (map fst tl)) by (intros I; apply (KL _ I); cbn; auto 9).
    assert (A3 : ~ In (s2b "digest") (map fst (optp "kind" (kind g) ++ tl))) by (intros I; apply optp_In in I; destruct I as [I|I]; [apply X4; left; symmetry; exact I|apply (KL _ I); cbn; auto 9]).
    assert (A2 : ~ In (s2b "ordinal") (map fst (optp "digest" (digest g) ++ optp "kind" (kind g) ++ tl))) by (intros I; apply optp_In in I; destruct I as [I|I]; [apply X3; left; symmetry; exact I|]; apply optp_In in I; destruct I as [I|I]; [apply X3; right; left; symmetry; exact I|apply (KL _ I); cbn; auto 9]).
    assert (A1 : ~ In (s2b "signer") (map fst (optp "ordinal" (ordinal g) ++ optp "digest" (digest g) ++ optp "kind" (kind g) ++ tl))) by (intros I; apply optp_In in I; destruct I as [I|I]; [apply X2; left; symmetry; exact I|]; apply optp_In in I; destruct I as [I|I]; [apply X2; right; left; symmetry; exact I|]; apply optp_In in I; destruct I as [I|I]; [apply X2; right; right; left; symmetry; exact I|apply (KL _ I); cbn; auto 9]).
    destruct (optp_read _ (signer g) _ A1) as (R1 & W1). rewrite R1, W1. destruct (optp_read _ (ordinal g) _ A2) as (R2 & W2). rewrite R2, W2. destruct (optp_read _ (digest g) _ A3) as (R3 & W3). rewrite R3, W3. destruct (optp_read _ (kind g) _ A4) as (R4 & W4). rewrite R4, W4.
    set (kd := match text (kind g) with Some k => k | None => s2b "CESR" end) in *. cbn zeta.
    unfold tl. rewrite (mapr_map _ (fun x : bytes * mark => (fst x, chars (snd x))) (fun x => (fst x, if beq kd (s2b "CESR") then unkeyed (snd x) else Tx (chars (snd x))))); [cbn [bind]; reflexivity|].
    intros [k m] I. cbn [fst snd]. destruct (beq_spec kd (s2b "CESR")) as [E|E]; [|reflexivity]. pose proof (RD E k m I) as R. destruct ind; rewrite R; reflexivity.
Qed.
Lemma mapr_F2 gs os : Forall2 arrives gs os -> exists vs, mapr group gs = Ok vs /\ List.length vs = List.length gs /\ Forall (fun v => ~ In 32 v /\ nosep 44 v) vs /\ mapr (ungroup siger cigar) vs = Ok os.
Proof.
  induction 1 as [|g o gs os A F (vs & E1 & E2 & E3 & E4)]; [exists []; repeat split; constructor|]. destruct (group_arrives g o A) as (ind & l & G1 & G2 & G3). exists (joinb 59 (map pr (pairs g ind l)) :: vs).
  cbn [mapr]. rewrite G1, E1, G3, E4. split; [reflexivity|]. split; [cbn [List.length]; f_equal; exact E2|]. split; [|reflexivity]. constructor; [|exact E3]. split; [apply items_free; auto|apply nosep_of, items_free; auto].
Qed.
Lemma round_trip gs os : gs <> [] -> Forall2 arrives gs os -> exists h, signature gs = Ok h /\ designature siger cigar h = Ok os.
Proof.
  intros NE F. destruct (mapr_F2 gs os F) as (vs & E1 & E2 & E3 & E4). exists (joinb 44 vs). unfold signature. rewrite E1. cbn. split; [reflexivity|]. unfold designature. rewrite nospace_id.
  - rewrite split_join; [exact E4|destruct vs; [destruct gs; [congruence|discriminate E2]|discriminate]|]. apply Forall_forall. intros v I. rewrite Forall_forall in E3. apply E3. exact I.
  - intros I. apply joinb_In in I. destruct I as [I|(v & V & I)]; [discriminate I|]. rewrite Forall_forall in E3. apply (E3 v V). exact I.
Qed.
Lemma splitb_cat sep a b : splitb sep (a ++ sep :: b) = splitb sep a ++ splitb sep b.
Proof.
  induction a as [|ch a IH]; cbn [app splitb]; [rewrite N.eqb_refl; reflexivity|]. destruct (ch =? sep); [cbn [app]; f_equal; exact IH|]. rewrite IH. destruct (splitb sep a) as [|p ps] eqn:E; [|reflexivity]. exfalso. destruct a as [|x a]; cbn in E; [discriminate E|]. destruct (x =? sep); [discriminate E|]. destruct (splitb sep a); discriminate E.
Qed.
Lemma mapr_cat {A B} (f : A -> res B) a b : mapr f (a ++ b) = (x <- mapr f a ;; y <- mapr f b ;; Ok (x ++ y)).
Proof.
  induction a as [|p a IH]; cbn [app mapr bind]; [destruct (mapr f b); reflexivity|]. destruct (f p); [|reflexivity]. cbn. rewrite IH. destruct (mapr f a); [|reflexivity]. cbn. destruct (mapr f b); reflexivity.
Qed.
Lemma merge a b : designature siger cigar (a ++ 44 :: b) = (x <- designature siger cigar a ;; y <- designature siger cigar b ;; Ok (x ++ y)).
Proof.
  unfold designature, nospace. rewrite filter_app. cbn [filter N.eqb Pos.eqb negb]. rewrite splitb_cat. apply mapr_cat.
Qed.

(** ** the check *)
Variable vfy : bytes -> bytes -> bytes -> bool.
Lemma allSigned_true ms ser : forall keys idx, allSigned vfy ms ser idx keys = Ok true ->
  forall i key, nth_error keys i = Some key -> exists m, dget ms (decstr (idx + N.of_nat i)) = Some m /\ (forall t, m <> Tx t) /\ vfy key (chars m) ser = true.
Proof.
  induction keys as [|k keys IH]; intros idx H i key E; [destruct i; discriminate E|]. cbn in H. destruct (dget ms (decstr idx)) as [m|] eqn:D; [|discriminate H].
  assert (X : (forall t, m <> Tx t) /\ vfy k (chars m) ser = true /\ allSigned vfy ms ser (idx + 1) keys = Ok true).
  { destruct m as [q j|q v|t]; cbn in H; [| |discriminate H]; (destruct (vfy k q ser) eqn:V; [|discriminate H]); (split; [intros t ET; discriminate ET|]); (split; [exact V|exact H]). }
  destruct X as (X1 & X2 & X3). destruct i as [|i]; cbn in E.
  - injection E as <-. exists m. rewrite N.add_0_r. auto.
  - destruct (IH (idx + 1) X3 i key E) as (m' & M). exists m'. replace (idx + N.of_nat (Datatypes.S i)) with (idx + 1 + N.of_nat i) by lia. exact M.
Qed.
Lemma cut_inv x : forall a b, cut x = Ok (a, b) -> x = a ++ 61 :: b.
Proof.
  induction x as [|ch x IH]; intros a b H; [discriminate H|]. cbn in H. destruct (N.eqb_spec ch 61) as [->|N]; [injection H as <- <-; reflexivity|]. destruct (cut x) as [[a' b']|]; [|discriminate H]. injection H as <- <-. cbn. f_equal. apply IH. reflexivity.
Qed.
Lemma dset_In {V} (d : list (bytes * V)) k v x : In x (dset d k v) -> x = (k, v) \/ In x d.
Proof.
  induction d as [|[k' v'] d IH]; cbn; [intros [E|[]]; auto|]. destruct (beq k k'); cbn; [intros [E|I]; auto|]. intros [E|I]; [auto|]. destruct (IH I); auto.
Qed.
Lemma fields_inv l : forall d d', fields l d = Ok d' -> forall k w, In (k, w) d' -> In (k, w) d \/ exists v, In (k ++ 61 :: v) l /\ w = strip v.
Proof.
  induction l as [|x l IH]; intros d d' H k w I; [injection H as <-; auto|]. cbn in H. destruct (cut x) as [[a b]|] eqn:C; [|discriminate H]. cbn in H. destruct (IH _ _ H k w I) as [J|(v & J & E)].
  - apply dset_In in J. destruct J as [[= -> ->]|J]; [right; exists b; split; [left; apply cut_inv; exact C|reflexivity]|auto].
  - right. exists v. split; [right; exact J|exact E].
Qed.
Lemma dget_In {V} (d : list (bytes * V)) k v : dget d k = Some v -> In (k, v) d.
Proof. induction d as [|[k' v'] d IH]; cbn; [discriminate|]. destruct (beq_spec k k') as [->|N]; [intros [= ->]; auto|auto]. Qed.
Lemma mapr_In {A B} (f : A -> res B) l l' y : mapr f l = Ok l' -> In y l' -> exists x, In x l /\ f x = Ok y.
Proof.
  revert l'. induction l as [|a l IH]; intros l' H I; cbn in H; [injection H as <-; destruct I|]. destruct (f a) as [b|] eqn:F; [|discriminate H]. cbn in H. destruct (mapr f l) as [r|]; [|discriminate H]. injection H as <-. destruct I as [<-|I]; [exists a; auto with datatypes|]. destruct (IH r eq_refl I) as (x & X & E). exists x. split; [right; exact X|exact E].
Qed.
Lemma without_In {V} (d : list (bytes * V)) k x : In x (without d k) -> In x d.
Proof. unfold without. intros I. apply filter_In in I. apply I. Qed.
Lemma ungroup_inv value g k m : ungroup siger cigar value = Ok g -> (exists ms, markers g = MDict ms /\ In (k, m) ms) -> (forall t, m <> Tx t) ->
  exists v, In (k ++ 61 :: v) (splitb 59 value) /\ (siger (strip v) = Ok m \/ cigar (strip v) = Ok m).
Proof.
  unfold ungroup. intros H (ms & E & I) NT. destruct (fields (splitb 59 value) []) as [d|] eqn:F; [|discriminate H]. cbn [bind] in H. destruct (dget d (s2b "indexed")) as [v|]; [|discriminate H]. cbn zeta in H.
  match type of H with bind (mapr ?f ?l) _ = _ => destruct (mapr f l) as [r|] eqn:M; [|discriminate H] end. cbn [bind] in H. injection H as <-. cbn in E. injection E as ->.
  destruct (mapr_In _ _ _ _ M I) as ([k' w] & X & FX). cbn [fst snd] in FX. do 5 apply without_In in X.
  destruct (beq _ (s2b "CESR")); [|injection FX as _ <-; exfalso; eapply NT; reflexivity].
  assert (Y : k' = k /\ (siger w = Ok m \/ cigar w = Ok m)).
  { destruct (negb _); [destruct (siger w) as [m'|]|destruct (cigar w) as [m'|]]; try discriminate FX; cbn in FX; injection FX as -> ->; auto. }
  destruct Y as (-> & Y). destruct (fields_inv _ _ _ F k w X) as [[]|(v' & V1 & ->)]. exists v'. split; [exact V1|exact Y].
Qed.
Lemma validate_true kevers pre sig ser : validate siger cigar vfy kevers pre sig ser = Ok true -> exists hdr keys, sig = Some hdr /\ dget kevers pre = Some keys /\
  forall i key, nth_error keys i = Some key -> exists v m, carries hdr (decstr (N.of_nat i)) v /\ (siger v = Ok m \/ cigar v = Ok m) /\ vfy key (chars m) ser = true.
Proof.
  destruct sig as [hdr|]; [|discriminate]. cbn [validate]. unfold designature. intros H. destruct (splitb 44 (nospace hdr)) as [|v0 vs] eqn:SP; [discriminate H|]. cbn [mapr] in H. destruct (ungroup siger cigar v0) as [g|] eqn:U; [|discriminate H]. cbn [bind] in H. destruct (mapr (ungroup siger cigar) vs) as [gs|]; [|discriminate H]. cbn [bind] in H.
  destruct (dget kevers pre) as [keys|] eqn:K; [|discriminate H]. destruct (markers g) as [ms|ms] eqn:MK; [discriminate H|]. exists hdr, keys. split; [reflexivity|]. split; [reflexivity|]. intros i key E. destruct (allSigned_true ms ser keys 0 H i key E) as (m & M1 & M2 & M3). rewrite N.add_0_l in M1.
  destruct (ungroup_inv v0 g (decstr (N.of_nat i)) m U) as (v & V1 & V2); [exists ms; split; [exact MK|apply dget_In; exact M1]|exact M2|]. exists (strip v), m. split; [|auto]. exists v0, vs, v. auto.
Qed.
Lemma decstr_inj a b : decstr a = decstr b -> a = b.
Proof. intros E. pose proof (decint_decstr a) as A. rewrite E, decint_decstr in A. congruence. Qed.
Lemma decstr_label n : label (decstr n).
Proof.
  pose proof (decstr_dig n) as D. rewrite Forall_forall in D. split; [intros ch I; specialize (D ch I); unfold digchr in D; lia|]. split; [intros I; specialize (D _ I); unfold digchr in D; lia|].
  intros I. assert (X : forall s, In s [s2b "indexed"; s2b "signer"; s2b "ordinal"; s2b "digest"; s2b "kind"] -> exists ch, In ch s /\ 57 < ch).
  { intros s J. cbn [In] in J. destruct J as [<-|[<-|[<-|[<-|[<-|[]]]]]]; eexists; (split; [left; reflexivity|vm_compute; reflexivity]). }
  destruct (X _ I) as (ch & C1 & C2). specialize (D ch C1). unfold digchr in D. lia.
Qed.
End R.

(** signatures by all keys, numbered from [idx] *)
Fixpoint numbered (idx : N) (qs : list bytes) : list (bytes * mark) := match qs with [] => [] | q :: qs => (decstr idx, Sg q idx) :: numbered (idx + 1) qs end.
Lemma numbered_In qs : forall idx k m, In (k, m) (numbered idx qs) -> exists i q, nth_error qs i = Some q /\ k = decstr (idx + N.of_nat i) /\ m = Sg q (idx + N.of_nat i).
Proof.
  induction qs as [|q qs IH]; intros idx k m I; [destruct I|]. destruct I as [[= <- <-]|I]; [exists O, q; rewrite N.add_0_r; auto|]. destruct (IH _ _ _ I) as (i & q' & E & -> & ->). exists (Datatypes.S i), q'. replace (idx + N.of_nat (Datatypes.S i)) with (idx + 1 + N.of_nat i) by lia. auto.
Qed.
Lemma numbered_NoDup qs : forall idx, NoDup (map fst (numbered idx qs)).
Proof.
  induction qs as [|q qs IH]; intros idx; [constructor|]. cbn. constructor; [|apply IH]. intros I. apply in_map_iff in I. destruct I as ([k m] & E & I). cbn in E. subst k. destruct (numbered_In _ _ _ _ I) as (i & q' & _ & E & _). apply decstr_inj in E. lia.
Qed.
Lemma numbered_get qs : forall idx i q, nth_error qs i = Some q -> dget (numbered idx qs) (decstr (idx + N.of_nat i)) = Some (Sg q (idx + N.of_nat i)).
Proof.
  induction qs as [|p qs IH]; intros idx i q E; [destruct i; discriminate E|]. cbn [numbered dget]. destruct i as [|i]; cbn in E.
  - injection E as ->. rewrite N.add_0_r, beq_refl. reflexivity.
  - destruct (beq_spec (decstr (idx + N.of_nat (Datatypes.S i))) (decstr idx)) as [F|F]; [apply decstr_inj in F; lia|]. replace (idx + N.of_nat (Datatypes.S i)) with (idx + 1 + N.of_nat i) by lia. apply IH. exact E.
Qed.
Lemma allSigned_all vfy ser keys : forall ms idx, (forall i key, nth_error keys i = Some key -> exists q j, dget ms (decstr (idx + N.of_nat i)) = Some (Sg q j) /\ vfy key q ser = true) -> allSigned vfy ms ser idx keys = Ok true.
Proof.
  induction keys as [|k keys IH]; intros ms idx H; [reflexivity|]. cbn. destruct (H O k eq_refl) as (q & j & E & V). rewrite N.add_0_r in E. rewrite E. cbn. rewrite V. apply IH. intros i key N. destruct (H (Datatypes.S i) key N) as (q' & j' & E' & V'). exists q', j'. split; [|exact V']. replace (idx + 1 + N.of_nat i) with (idx + N.of_nat (Datatypes.S i)) by lia. exact E'.
Qed.
