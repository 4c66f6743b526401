(** Lemmas on the key event log model. *)
From Verif Require Import Prelude B64Model MatterModel SubsModel ThModel ThSpec ThProofs ThThms KelModel KelSpec.
Open Scope N_scope.
Ltac Zify.zify_post_hook ::= Z.div_mod_to_equations.

(** ** Elementary facts *)
Lemma ilk_eqb_eq : forall a b, ilk_eqb a b = true <-> a = b.
Proof. destruct a, b; cbn; split; intros; congruence. Qed.

Lemma memN_In : forall x l, memN x l = true <-> In x l.
Proof.
  intros. unfold memN. rewrite existsb_exists. split.
  - intros (y & I & E). apply N.eqb_eq in E. subst. exact I.
  - intros I. exists x. split; [exact I|apply N.eqb_refl].
Qed.
Lemma memN_nIn : forall x l, memN x l = false <-> ~ In x l.
Proof. intros. rewrite <- memN_In. destruct (memN x l); split; congruence. Qed.

Lemma siger_eqb_eq : forall a b, siger_eqb a b = true <-> a = b.
Proof.
  intros [q i r o] [q' i' r' o']. unfold siger_eqb; cbn.
  rewrite !andb_true_iff, !beq_eq, N.eqb_eq. split.
  - intros [[[-> ->] ->] X]. destruct o, o'; try discriminate; try reflexivity.
    apply N.eqb_eq in X. subst; reflexivity.
  - intros X; inversion X; subst. repeat split; auto. destruct o'; [apply N.eqb_refl|reflexivity].
Qed.

Lemma addSigs_In : forall new old s, In s (addSigs old new) <-> In s old \/ In s new.
Proof.
  unfold addSigs. induction new as [|n new IH]; intros old s; cbn; [tauto|].
  rewrite IH. destruct (existsb (siger_eqb n) old) eqn:X.
  - split; [tauto|]. intros [|[->|]]; try tauto. left. apply existsb_exists in X.
    destruct X as (y & I & Y). apply siger_eqb_eq in Y. subst. exact I.
  - rewrite in_app_iff. cbn. tauto.
Qed.

Lemma aset_same : forall A (m : amap A) a b v, aset m a b v a b = v.
Proof. intros. unfold aset. rewrite !N.eqb_refl. reflexivity. Qed.
Lemma aset_cases : forall A (m : amap A) a b v a' b',
  (a' = a /\ b' = b /\ aset m a b v a' b' = v) \/ ((a' <> a \/ b' <> b) /\ aset m a b v a' b' = m a' b').
Proof.
  intros. unfold aset. destruct (N.eqb_spec a' a); destruct (N.eqb_spec b' b); cbn; auto.
Qed.
Lemma fset_same : forall A (m : N -> A) a v, fset m a v a = v.
Proof. intros. unfold fset. rewrite N.eqb_refl. reflexivity. Qed.
Lemma fset_other : forall A (m : N -> A) a v a', a' <> a -> fset m a v a' = m a'.
Proof. intros. unfold fset. apply N.eqb_neq in H. rewrite H. reflexivity. Qed.
Lemma fset_cases : forall A (m : N -> A) a v a',
  (a' = a /\ fset m a v a' = v) \/ (a' <> a /\ fset m a v a' = m a').
Proof. intros. unfold fset. destruct (N.eqb_spec a' a); auto. Qed.

Lemma isnil_true : forall A (l : list A), isnil l = true <-> l = [].
Proof. destruct l; cbn; split; congruence. Qed.
Lemma isnil_false : forall A (l : list A), isnil l = false <-> l <> [].
Proof. destruct l; cbn; split; congruence. Qed.

Lemma bindm_inv : forall A B (m : M A) (f : A -> M B) x x' r, bindm m f x = (x', r) ->
  (exists x1 a, m x = (x1, Ok a) /\ f a x1 = (x', r)) \/
  (exists e, m x = (x', Err e) /\ r = Err e).
Proof.
  intros A B m f x x' r X. unfold bindm in X. destruct (m x) as [x1 [a|e]] eqn:Y.
  - left. eauto.
  - right. inversion X; subst. eauto.
Qed.

(** ** Ordered sets *)
Lemma addNs_In : forall new old s, In s (addNs old new) <-> In s old \/ In s new.
Proof.
  unfold addNs. induction new as [|n new IH]; intros old s; cbn; [tauto|].
  rewrite IH. destruct (memN n old) eqn:X.
  - apply memN_In in X. split; [tauto|]. intros [|[->|]]; tauto.
  - rewrite in_app_iff. cbn. tauto.
Qed.
Lemma addNs_NoDup : forall new old, NoDup old -> NoDup (addNs old new).
Proof.
  unfold addNs. induction new as [|n new IH]; intros old X; cbn; [exact X|].
  apply IH. destruct (memN n old) eqn:Y; [exact X|]. apply memN_nIn in Y.
  rewrite <- (rev_involutive (old ++ [n])), rev_app_distr. apply NoDup_rev. cbn.
  constructor; [rewrite <- in_rev; exact Y|]. apply NoDup_rev. exact X.
Qed.
Lemma addNs_len : forall new old, (List.length (addNs old new) <= List.length old + List.length new)%nat.
Proof.
  unfold addNs. induction new as [|n new IH]; intros old; cbn; [lia|].
  destruct (memN n old).
  - pose proof (IH old). lia.
  - pose proof (IH (old ++ [n])). rewrite app_length in H. cbn in H. lia.
Qed.
Lemma addNs_len_full : forall new old,
  List.length (addNs old new) = (List.length old + List.length new)%nat -> addNs old new = old ++ new.
Proof.
  unfold addNs. induction new as [|n new IH]; intros old X; cbn in *; [rewrite app_nil_r; reflexivity|].
  destruct (memN n old).
  - pose proof (addNs_len new old) as Y. unfold addNs in Y. lia.
  - rewrite IH; [rewrite <- app_assoc; reflexivity|]. rewrite X, app_length. cbn. lia.
Qed.
Lemma oset_NoDup : forall l, NoDup (oset l).
Proof. intros. apply addNs_NoDup. constructor. Qed.
Lemma oset_In : forall l x, In x (oset l) <-> In x l.
Proof. intros. unfold oset. rewrite addNs_In. cbn. tauto. Qed.
Lemma oset_len : forall l, len (oset l) = len l -> oset l = l /\ NoDup l.
Proof.
  intros l X. assert (Y : oset l = l).
  { unfold oset in *. apply addNs_len_full. cbn. unfold len in X. lia. }
  split; [exact Y|]. rewrite <- Y. apply oset_NoDup.
Qed.
Lemma addNs_disj : forall new old, NoDup new -> (forall x, In x new -> ~ In x old) -> addNs old new = old ++ new.
Proof.
  unfold addNs. induction new as [|n new IH]; intros old X Y; cbn; [rewrite app_nil_r; reflexivity|].
  inversion X; subst. destruct (memN n old) eqn:Z.
  - apply memN_In in Z. exfalso. apply (Y n); cbn; auto.
  - rewrite IH; [rewrite <- app_assoc; reflexivity|assumption|].
    intros x I J. apply in_app_iff in J. cbn in J. destruct J as [J|[->|[]]].
    + apply (Y x); cbn; auto.
    + contradiction.
Qed.
Lemma oset_id : forall l, NoDup l -> oset l = l.
Proof. intros. unfold oset. rewrite addNs_disj; auto. Qed.
Lemma leqb_eq : forall a b, leqb a b = true <-> a = b.
Proof.
  induction a as [|x a IH]; destruct b as [|y b]; cbn; try (split; congruence).
  rewrite andb_true_iff, N.eqb_eq, IH. split; [intros [-> ->]|intros X; inversion X]; auto.
Qed.
Lemma inter_In : forall a b x, In x (inter a b) <-> In x a /\ In x b.
Proof. intros. unfold inter. rewrite filter_In, memN_In. tauto. Qed.
Lemma diff_In : forall a b x, In x (diff a b) <-> In x a /\ ~ In x b.
Proof. intros. unfold diff. rewrite filter_In, negb_true_iff, memN_nIn. tauto. Qed.
Lemma isnil_inter : forall a b, isnil (inter a b) = true <-> (forall x, In x a -> In x b -> False).
Proof.
  intros. rewrite isnil_true. split.
  - intros X x I J. assert (K : In x (inter a b)) by (apply inter_In; auto). rewrite X in K. exact K.
  - intros X. destruct (inter a b) as [|y l] eqn:Y; [reflexivity|]. exfalso.
    assert (K : In y (inter a b)) by (rewrite Y; cbn; auto). apply inter_In in K. apply (X y); tauto.
Qed.

(** ** kels *)
Lemma kadd_nth : forall sn l d n,
  nth n (kadd l sn d) [] =
  if Nat.eqb n sn then (if memN d (nth sn l []) then nth sn l [] else nth sn l [] ++ [d]) else nth n l [].
Proof.
  induction sn as [|sn IH]; intros [|r l] d [|n]; cbn; try reflexivity.
  - destruct n; reflexivity.
  - rewrite IH. destruct (Nat.eqb n sn); [|destruct n; reflexivity]. destruct sn; reflexivity.
  - rewrite IH. reflexivity.
Qed.
Lemma kadd_mem : forall sn l d, In d (nth sn l []) -> kadd l sn d = l.
Proof.
  induction sn as [|sn IH]; intros [|r l] d X; cbn in *; try contradiction.
  - apply memN_In in X. rewrite X. reflexivity.
  - rewrite IH; auto.
Qed.
Definition krow (l : list (list N)) (sn : N) : list N := nth (N.to_nat sn) l [].
Lemma klast_row : forall l sn, klast l sn = match rev (krow l sn) with [] => None | d :: _ => Some d end.
Proof.
  intros. unfold klast, krow. destruct (nth_error l (N.to_nat sn)) as [r|] eqn:X.
  - rewrite (nth_error_nth _ _ _ X). reflexivity.
  - rewrite nth_overflow; [reflexivity|]. apply nth_error_None. exact X.
Qed.
Lemma krow_add : forall l sn d n,
  krow (kadd l (N.to_nat sn) d) n =
  if n =? sn then (if memN d (krow l sn) then krow l sn else krow l sn ++ [d]) else krow l n.
Proof.
  intros. unfold krow. rewrite kadd_nth. destruct (N.eqb_spec n sn).
  - subst. rewrite Nat.eqb_refl. reflexivity.
  - assert (Nat.eqb (N.to_nat n) (N.to_nat sn) = false) by (apply Nat.eqb_neq; lia). rewrite H. reflexivity.
Qed.
Lemma klast_In : forall l sn s, klast l sn = Some s -> In s (krow l sn).
Proof.
  intros l sn s. rewrite klast_row. destruct (rev (krow l sn)) as [|d r] eqn:X; [discriminate|].
  intros Y; inversion Y; subst. apply in_rev. rewrite X. cbn; auto.
Qed.
Lemma klast_add : forall l sn d, ~ In d (krow l sn) -> klast (kadd l (N.to_nat sn) d) sn = Some d.
Proof.
  intros. rewrite klast_row, krow_add, N.eqb_refl. apply memN_nIn in H. rewrite H, rev_app_distr. reflexivity.
Qed.
Lemma klast_add_other : forall l sn d n, n <> sn -> klast (kadd l (N.to_nat sn) d) n = klast l n.
Proof.
  intros. rewrite !klast_row, krow_add. apply N.eqb_neq in H. rewrite H. reflexivity.
Qed.

(** ** Growth of the escrow side *)
(** [ext e x x']: events stay, only [e] may be added; stored signatures stay. *)
Definition ext (e : evt) (x x' : aux) : Prop :=
  (forall p s a, evts x p s = Some a -> evts x' p s = Some a) /\
  (forall p s a, evts x' p s = Some a -> evts x p s = Some a \/ (a = e /\ p = e_pre e /\ s = e_said e)) /\
  (forall p s, incl (getSigs x p s) (getSigs x' p s)) /\
  (forall p s, incl (getWigs x p s) (getWigs x' p s)).

Lemma ext_refl : forall e x, ext e x x.
Proof. intros. repeat split; auto using incl_refl. Qed.
Lemma ext_trans : forall e x y z, ext e x y -> ext e y z -> ext e x z.
Proof.
  intros e x y z (A1 & A2 & A3 & A4) (B1 & B2 & B3 & B4). repeat split.
  - auto.
  - intros p s a X. destruct (B2 _ _ _ X) as [Y|Y]; auto.
  - intros p s. eapply incl_tran; eauto.
  - intros p s. eapply incl_tran; eauto.
Qed.
(** steps that leave events and signatures alone *)
Lemma ext_same : forall e x x', evts x' = evts x -> sigs x' = sigs x -> wigs x' = wigs x -> ext e x x'.
Proof.
  intros e x x' A B C. unfold ext, getSigs, getWigs. rewrite A, B, C. repeat split; auto using incl_refl.
Qed.
Lemma ext_putSigs : forall e p s l x, ext e x (putSigs p s l x).
Proof.
  intros. unfold putSigs. destruct l as [|y l]; [apply ext_refl|].
  split; [intros; assumption|split; [intros; left; assumption|split]]; intros p' s' z I; try exact I.
  unfold getSigs in *. cbn [sigs set_sigs].
  destruct (aset_cases _ (sigs x) p s (Some (addSigs (olist (sigs x p s)) (y :: l))) p' s') as [(-> & -> & ->)|(_ & ->)]; [|exact I].
  cbn [olist]. apply addSigs_In. left. exact I.
Qed.
Lemma ext_putWigs : forall e p s l x, ext e x (putWigs p s l x).
Proof.
  intros. unfold putWigs. destruct l as [|y l]; [apply ext_refl|].
  split; [intros; assumption|split; [intros; left; assumption|split]]; intros p' s' z I; try exact I.
  unfold getWigs in *. cbn [wigs set_wigs].
  destruct (aset_cases _ (wigs x) p s (Some (addSigs (olist (wigs x p s)) (y :: l))) p' s') as [(-> & -> & ->)|(_ & ->)]; [|exact I].
  cbn [olist]. apply addSigs_In. left. exact I.
Qed.
Lemma getSigs_put : forall p s l x, incl l (getSigs (putSigs p s l x) p s).
Proof.
  intros p s l x z I. unfold putSigs. destruct l as [|y l]; [destruct I|].
  unfold getSigs. cbn [sigs set_sigs]. rewrite aset_same. cbn [olist]. apply addSigs_In. right. exact I.
Qed.
Lemma getWigs_put : forall p s l x, incl l (getWigs (putWigs p s l x) p s).
Proof.
  intros p s l x z I. unfold putWigs. destruct l as [|y l]; [destruct I|].
  unfold getWigs. cbn [wigs set_wigs]. rewrite aset_same. cbn [olist]. apply addSigs_In. right. exact I.
Qed.
Lemma ext_evts : forall e x, ext e x (set_evts (aput (evts x) (e_pre e) (e_said e) e) x).
Proof.
  intros. repeat split; cbn; auto using incl_refl.
  - intros p s a X. unfold aput. destruct (evts x (e_pre e) (e_said e)) as [b|] eqn:Y; [exact X|].
    destruct (aset_cases _ (evts x) (e_pre e) (e_said e) (Some e) p s) as [(-> & -> & ->)|(_ & ->)]; [congruence|exact X].
  - intros p s a X. unfold aput in X. destruct (evts x (e_pre e) (e_said e)) as [b|] eqn:Y; [auto|].
    destruct (aset_cases _ (evts x) (e_pre e) (e_said e) (Some e) p s) as [(-> & -> & Z)|(_ & Z)]; rewrite Z in X; [|auto].
    inversion X; subst. right. auto.
Qed.
Lemma ext_esr : forall e p s local x, ext e x
  (match esrs x p s with
   | Some l => if local && negb l then set_esrs (aset (esrs x) p s (Some true)) x else x
   | None => set_esrs (aset (esrs x) p s (Some local)) x
   end).
Proof.
  intros. destruct (esrs x p s) as [l|]; [destruct (local && negb l)|]; apply ext_same; reflexivity.
Qed.
Lemma ext_escCommon : forall now e sg wg local x, ext e x (escCommon now e sg wg local x).
Proof.
  intros. unfold escCommon. cbv zeta.
  eapply ext_trans; [|apply ext_esr]. eapply ext_trans; [|apply ext_evts].
  eapply ext_trans; [|apply ext_putWigs]. eapply ext_trans; [|apply ext_putSigs].
  apply ext_same; reflexivity.
Qed.
Lemma ext_putUdes : forall e sl x, ext e x (putUdes e sl x).
Proof. intros. unfold putUdes. destruct sl; apply ext_same; reflexivity. Qed.
Lemma ext_MF : forall now e sg wg sl local x, ext e x (escrowMF now e sg wg sl local x).
Proof. intros. eapply ext_trans; [apply ext_escCommon|]. eapply ext_trans; [apply ext_putUdes|]. apply ext_same; reflexivity. Qed.
Lemma ext_PS : forall now e sg wg sl local x, ext e x (escrowPS now e sg wg sl local x).
Proof. intros. eapply ext_trans; [apply ext_escCommon|]. eapply ext_trans; [apply ext_putUdes|]. apply ext_same; reflexivity. Qed.
Lemma ext_PW : forall now e sg wg sl local x, ext e x (escrowPW now e sg wg sl local x).
Proof. intros. eapply ext_trans; [apply ext_escCommon|]. eapply ext_trans; [apply ext_putUdes|]. apply ext_same; reflexivity. Qed.
Lemma ext_OO : forall now e sg wg sl local x, ext e x (escrowOO now e sg wg sl local x).
Proof. intros. eapply ext_trans; [apply ext_escCommon|]. eapply ext_trans; [apply ext_putUdes|]. apply ext_same; reflexivity. Qed.
Lemma ext_Del : forall now e sg wg local x, ext e x (escrowDelegable now e sg wg local x).
Proof. intros. eapply ext_trans; [apply ext_escCommon|]. apply ext_same; reflexivity. Qed.
Lemma ext_PD : forall now e sg wg sl local x, ext e x (escrowPD now e sg wg sl local x).
Proof. intros. eapply ext_trans; [apply ext_escCommon|]. apply ext_same; reflexivity. Qed.
Lemma ext_LD : forall now e sg x, ext e x (escrowLD now e sg x).
Proof. intros. apply ext_escCommon. Qed.

(** ** Signature verification *)
Lemma dedupB_spec : forall l seen, incl (dedupB seen l) l /\ NoDup (map sg_qb64 (dedupB seen l)) /\
  (forall s, In s (dedupB seen l) -> ~ In (sg_qb64 s) seen).
Proof.
  induction l as [|s l IH]; intros seen; cbn; [repeat split; [apply incl_refl|constructor|auto]|].
  destruct (memB (sg_qb64 s) seen) eqn:X.
  - destruct (IH seen) as (A & B & C). repeat split; auto. apply incl_tl. exact A.
  - destruct (IH (sg_qb64 s :: seen)) as (A & B & C). repeat split.
    + intros z [->|I]; [left; reflexivity|right; apply A; exact I].
    + cbn. constructor; [|exact B]. intros I. apply in_map_iff in I. destruct I as (z & Y & I).
      apply C in I. apply I. left. symmetry. exact Y.
    + intros z [->|I].
      * intros J. assert (memB (sg_qb64 z) seen = true); [|congruence].
        clear - J. induction seen as [|y seen IH]; [destruct J|]. cbn. destruct J as [->|J].
        -- rewrite beq_refl. reflexivity.
        -- unfold memB in IH. rewrite IH by exact J. apply orb_true_r.
      * apply C in I. intros J. apply I. right. exact J.
Qed.
Lemma map_filter_NoDup : forall A B (f : A -> B) (g : A -> bool) l, NoDup (map f l) -> NoDup (map f (filter g l)).
Proof.
  induction l as [|a l IH]; cbn; intros X; [constructor|]. inversion X; subst. destruct (g a); cbn; auto.
  constructor; auto. intros I. apply H1. apply in_map_iff in I. destruct I as (z & Y & I).
  apply in_map_iff. exists z. split; [exact Y|]. apply filter_In in I. tauto.
Qed.
Lemma verifySigs_spec : forall E raw sg keys vs is, verifySigs N (vrfy E) raw sg keys = (vs, is) ->
  is = map sg_index vs /\ incl vs sg /\ NoDup (map sg_qb64 vs) /\ Forall (verified E keys raw) vs.
Proof.
  intros E raw sg keys vs is X. unfold verifySigs in X. injection X as Y1 Y2. subst vs.
  destruct (dedupB_spec sg []) as (A & B & _). repeat split.
  - symmetry. exact Y2.
  - intros z I. apply filter_In in I. apply A. tauto.
  - apply map_filter_NoDup. exact B.
  - apply Forall_forall. intros s I. apply filter_In in I. destruct I as [_ I].
    destruct (nth_error keys (N.to_nat (sg_index s))) as [ky|] eqn:Z; [|discriminate].
    exists ky. split; [exact Z|exact I].
Qed.

(** The signatures that contribute to [exposeds]. *)
Lemma exposeds_spec : forall E nd keys raw vs, NoDup (map sg_qb64 vs) -> Forall (verified E keys raw) vs ->
  exists us, incl us vs /\ NoDup (map sg_qb64 us) /\ Forall (verified E keys raw) us /\
    Forall2 (fun s o => sg_ondex s = Some o /\
       exists dg ky, nth_error nd (N.to_nat o) = Some dg /\
                     nth_error keys (N.to_nat (sg_index s)) = Some ky /\ commits E dg ky = true)
      us (exposeds E nd keys vs).
Proof.
  intros E nd keys raw. induction vs as [|s vs IH]; intros A B; cbn.
  - exists []. repeat split; try constructor. apply incl_refl.
  - inversion A; subst. inversion B; subst. destruct (IH H2 H4) as (us & U1 & U2 & U3 & U4).
    assert (SK : forall l, l = [] -> exists us0, incl us0 (s :: vs) /\ NoDup (map sg_qb64 us0) /\
        Forall (verified E keys raw) us0 /\
        Forall2 (fun s o => sg_ondex s = Some o /\
       exists dg ky, nth_error nd (N.to_nat o) = Some dg /\
                     nth_error keys (N.to_nat (sg_index s)) = Some ky /\ commits E dg ky = true)
       us0 (l ++ exposeds E nd keys vs)).
    { intros l ->. exists us. repeat split; auto. apply incl_tl. exact U1. }
    destruct (sg_ondex s) as [o|] eqn:O; [|apply SK; reflexivity].
    destruct (nth_error nd (N.to_nat o)) as [dg|] eqn:D; [|apply SK; reflexivity].
    destruct (nth_error keys (N.to_nat (sg_index s))) as [ky|] eqn:K; [|apply SK; reflexivity].
    destruct (commits E dg ky) eqn:C; [|apply SK; reflexivity].
    exists (s :: us). repeat split.
    + intros z [->|I]; [left; reflexivity|right; apply U1; exact I].
    + cbn. constructor; [|exact U2]. intros I. apply H1. apply in_map_iff in I. destruct I as (z & Y & I).
      apply in_map_iff. exists z. split; [exact Y|]. apply U1. exact I.
    + constructor; auto.
    + cbn. constructor; [|exact U4]. split; [exact O|]. exists dg, ky. auto.
Qed.

(** ** Delegation *)
(** only aess differs *)
Definition quiet (x x' : aux) : Prop := x' = set_aess (aess x') x.
Lemma quiet_refl : forall x, quiet x x.
Proof. intros []. reflexivity. Qed.
Lemma quiet_set : forall v x, quiet x (set_aess v x).
Proof. intros v []. reflexivity. Qed.
Lemma quiet_ext : forall e x x', quiet x x' -> ext e x x'.
Proof. intros e x x' X. rewrite X. apply ext_same; reflexivity. Qed.

Lemma lastEvts_In : forall x p l e, In e (lastEvts x p l) ->
  exists n s, klast l n = Some s /\ evts x p s = Some e.
Proof.
  intros x p. induction l as [|r l IH]; intros e I; cbn in I; [destruct I|].
  assert (L : In e (lastEvts x p l) -> exists n s, klast (r :: l) n = Some s /\ evts x p s = Some e).
  { intros J. destruct (IH e J) as (n & s & A & B). exists (n + 1), s. split; [|exact B].
    rewrite klast_row in *. unfold krow in *.
    replace (N.to_nat (n + 1)) with (S (N.to_nat n)) by lia. exact A. }
  destruct (rev r) as [|s r'] eqn:R; [auto|].
  destruct (evts x p s) as [a|] eqn:V; [|auto]. destruct I as [->|I]; [|auto].
  exists 0, s. split; [|exact V]. rewrite klast_row. unfold krow. cbn. rewrite R. reflexivity.
Qed.
Lemma fetchLastSealing_spec : forall d x dp e de, fetchLastSealing d x dp e = Some de ->
  exists n s, klast (kels d dp) n = Some s /\ evts x dp s = Some de /\ existsb (seal_is e) (e_seals de) = true.
Proof.
  intros d x dp e de X. unfold fetchLastSealing in X. apply find_some in X. destruct X as [I J].
  apply lastEvts_In in I. destruct I as (n & s & A & B). apply andb_true_iff in J. exists n, s. tauto.
Qed.
Lemma fetchDelegating_quiet : forall d dp e eager x x' r, fetchDelegating d dp e eager x = (x', r) -> quiet x x'.
Proof.
  intros d dp e eager x x' r X. unfold fetchDelegating in X.
  destruct (aess x (e_pre e) (e_said e)) as [[a dd]|].
  - destruct (fons d dp dd); [|inversion X; subst; apply quiet_set].
    destruct (evts x dp dd); inversion X; subst; apply quiet_refl.
  - destruct eager; [|inversion X; subst; apply quiet_refl].
    destruct (fetchLastSealing d x dp e) as [de|]; [|inversion X; subst; apply quiet_refl].
    destruct (fons d (e_pre e) (e_said e)); inversion X; subst; [apply quiet_set|apply quiet_refl].
Qed.

Definition isLocal (cf : conf) (k : kever) (wits : list N) : bool :=
  locallyOwned cf k || locallyMembered cf k || locallyWitnessed cf k wits.

(** Delegation was approved: the delegator is known and allows delegation, and the last
    event at some sn of its log has the seal of [e]. *)
Definition approved (d : acc) (x : aux) (dp : N) (e : evt) (cpl : option (N * N)) : Prop :=
  exists dk n s de, kget d x dp = Some dk /\ k_dnd dk = false /\ klast (kels d dp) n = Some s /\
    evts x dp s = Some de /\ existsb (seal_is e) (e_seals de) = true /\ cpl = Some (e_sn de, e_said de).

Ltac inv X := inversion X; subst; clear X.
Ltac bindm_step X := apply bindm_inv in X; destruct X as [(?x1 & ?a1 & X & ?Y1)|(?e1 & X & ?Y1)].

Lemma valdel_inv : forall cf now d k e sg wg wits delpre sl eager local x x' r,
  validateDelegation cf now d k e sg wg wits delpre sl eager local x = (x', r) ->
  ext e x x' /\
  (forall cpl, r = Ok cpl -> quiet x x' /\
     ((delpre = None /\ cpl = None) \/
      exists dp, delpre = Some dp /\
        ((isLocal cf k wits = true /\ cpl = None) \/ (isLocal cf k wits = false /\ approved d x dp e cpl)))).
Proof.
  intros cf now d k e sg wg wits delpre sl eager local x x' r X.
  unfold validateDelegation in X. destruct delpre as [dp|].
  2:{ inv X. split; [apply ext_refl|]. intros cpl Y. inv Y. split; [apply quiet_refl|]. auto. }
  fold (isLocal cf k wits) in X. destruct (isLocal cf k wits) eqn:L.
  { inv X. split; [apply ext_refl|]. intros cpl Y. inv Y. split; [apply quiet_refl|]. right. exists dp. auto. }
  apply bindm_inv in X. destruct X as [(x1 & dk & A & X)|(ee & A & B)]; [|discriminate].
  inv A. destruct (kget d x1 dp) as [dk|] eqn:DK.
  2:{ inv X. split; [apply ext_PD|]. intros; discriminate. }
  destruct (k_dnd dk) eqn:DND.
  { inv X. split; [apply ext_refl|]. intros; discriminate. }
  apply bindm_inv in X. destruct X as [(x2 & [de cpl] & A & X)|(ee & A & B)].
  - (* found *)
    assert (F : x2 = x1 /\ cpl = (e_sn de, e_said de) /\ exists n s, klast (kels d dp) n = Some s /\ evts x1 dp s = Some de /\ existsb (seal_is e) (e_seals de) = true).
    { destruct sl as [[dsn dsaid]|].
      - destruct ((MaxON <? dsn) || (dsn <? 1)); [discriminate|].
        destruct (klast (kels d dp) dsn) as [dd|] eqn:KL.
        + apply bindm_inv in A. destruct A as [(x3 & de' & A & A')|(? & A & ?)]; [|discriminate].
          inv A. destruct (evts x3 dp dd) as [de''|] eqn:EV; [|discriminate].
          destruct (existsb (seal_is e) (e_seals de'')) eqn:SE; [|discriminate].
          inv A'. split; [reflexivity|]. split; [reflexivity|]. exists dsn, dd. auto.
        + destruct (negb (k_cues k)); [discriminate|].
          destruct ((MaxON <? e_sn e) || (if isIncept (e_ilk e) then negb (e_sn e =? 0) else e_sn e <? 1)); discriminate.
      - apply bindm_inv in A. destruct A as [(x3 & de' & A & A')|(? & A & ?)].
        + destruct eager.
          * inv A. destruct (fetchLastSealing d x3 dp e) as [de''|] eqn:FL; [|discriminate].
            inv A'. apply fetchLastSealing_spec in FL. auto.
          * inv A. discriminate.
        + destruct eager; discriminate. }
    destruct F as (-> & -> & n & s & F1 & F2 & F3).
    assert (AP : approved d x1 dp e (Some (e_sn de, e_said de))).
    { exists dk, n, s, de. repeat split; auto. }
    match type of X with (if ?b then _ else _) _ = _ => destruct b end.
    { inv X. split; [apply ext_refl|]. intros cpl Y. inv Y. split; [apply quiet_refl|]. right. exists dp. auto. }
    apply bindm_inv in X. destruct X as [(x3 & bo & Q & X)|(ee & Q & B)].
    + apply fetchDelegating_quiet in Q. destruct bo as [bo|].
      * destruct (e_sn bo <? e_sn de); inv X.
        -- split; [apply quiet_ext; exact Q|]. intros cpl Y. inv Y. split; [exact Q|]. right. exists dp. auto.
        -- split; [apply quiet_ext; exact Q|]. intros; discriminate.
      * inv X. split; [|intros; discriminate]. eapply ext_trans; [apply quiet_ext; exact Q|]. apply ext_PD.
    + apply fetchDelegating_quiet in Q. subst. split; [apply quiet_ext; exact Q|]. intros; discriminate.
  - subst r. split; [|intros; discriminate].
    destruct sl as [[dsn dsaid]|].
    + destruct ((MaxON <? dsn) || (dsn <? 1)); [inv A; apply ext_refl|].
      destruct (klast (kels d dp) dsn) as [dd|] eqn:KL.
      * apply bindm_inv in A. destruct A as [(x3 & de' & A & A')|(? & A & ?)]; [|discriminate].
        inv A. destruct (evts x3 dp dd) as [de''|] eqn:EV; [|inv A'; apply ext_refl].
        destruct (existsb (seal_is e) (e_seals de'')) eqn:SE; [discriminate|]. inv A'. apply ext_PD.
      * destruct (negb (k_cues k)); [inv A; apply ext_refl|].
        destruct ((MaxON <? e_sn e) || (if isIncept (e_ilk e) then negb (e_sn e =? 0) else e_sn e <? 1)); inv A; [apply ext_refl|apply ext_PD].
    + apply bindm_inv in A. destruct A as [(x3 & de' & A & A')|(? & A & ?)].
      * destruct eager.
        -- inv A. destruct (fetchLastSealing d x3 dp e) as [de''|] eqn:FL; inv A'. apply ext_PD.
        -- inv A. inv A'. apply ext_PD.
      * destruct eager; discriminate.
Qed.

(** ** What a successful validation establishes *)
Record valid (E : env) (cf : conf) (d : acc) (x : aux) (k : kever) (e : evt) (sg0 : list siger)
    (verfers : list N) (th : tholder) (wg0 : list siger) (toad : N) (wits : list N) (local : bool)
    (sg wg : list siger) (delpre : option N) (cpl : option (N * N)) : Prop := mkValid {
  v_size : thsize th <= len verfers;
  v_incl : incl sg sg0;
  v_nodup : NoDup (map sg_qb64 sg);
  v_ver : Forall (verified E verfers (e_raw e)) sg;
  v_some : sg <> [];
  v_sat : satisfy th (map sg_index sg) = true;
  v_rot : isRot (e_ilk e) = true -> satisfy (k_nt k) (exposeds E (k_ndigs k) verfers sg) = true;
  v_wincl : incl wg wg0;
  v_wnodup : NoDup (map sg_qb64 wg);
  v_wver : Forall (verified E wits (e_raw e)) wg;
  v_notoad : wits = [] -> toad = 0;
  v_toad : wits <> [] -> isLocal cf k wits = false -> 1 <= toad <= len wits /\ toad <= len wg;
  v_src : local = true \/
    (locallyOwned cf k = false /\ locallyWitnessed cf k wits = false /\ locallyDelegated cf delpre = false);
  v_delpre : delpre = match e_ilk e with Dip => e_delpre e | Drt => k_delpre k | _ => None end;
  v_dip : e_ilk e = Dip -> delpre <> None;
  v_del : (delpre = None /\ cpl = None) \/
      exists dp, delpre = Some dp /\
        ((isLocal cf k wits = true /\ cpl = None) \/ (isLocal cf k wits = false /\ approved d x dp e cpl)) }.

Lemma len_map : forall A B (f : A -> B) l, len (map f l) = len l.
Proof. intros. unfold len. rewrite map_length. reflexivity. Qed.

Lemma val_inv : forall E cf now d k e sg0 verfers th wg0 toad wits sl eager local x x' r,
  valSigsWigsDel E cf now d k e sg0 verfers th wg0 toad wits sl eager local x = (x', r) ->
  ext e x x' /\
  (forall sg wg delpre cpl, r = Ok (sg, wg, delpre, cpl) -> quiet x x' /\
     valid E cf d x k e sg0 verfers th wg0 toad wits local sg wg delpre cpl).
Proof.
  intros E cf now d k e sg0 verfers th wg0 toad wits sl eager local x x' r X.
  unfold valSigsWigsDel in X.
  destruct (len verfers <? thsize th) eqn:SZ; [inv X; split; [apply ext_refl|intros; discriminate]|].
  apply bindm_inv in X. destruct X as [(x1 & sg1 & A & X)|(ee & A & B)].
  2:{ assert (x' = x) as ->.
      { destruct (negb local && locallyMembered cf k); [inv A; reflexivity|discriminate]. }
      subst. split; [apply ext_refl|intros; discriminate]. }
  assert (F1 : x1 = x /\ incl sg1 sg0).
  { destruct (negb local && locallyMembered cf k).
    - destruct (contribIndex cf d x k verfers); inv A. split; [reflexivity|].
      intros z I. apply filter_In in I. tauto.
    - inv A. split; [reflexivity|apply incl_refl]. }
  destruct F1 as (-> & I1). clear A.
  destruct (verifySigs N (vrfy E) (e_raw e) sg1 verfers) as [vs is] eqn:VS.
  apply verifySigs_spec in VS. destruct VS as (-> & V1 & V2 & V3).
  destruct (isnil (map sg_index vs)) eqn:NI; [inv X; split; [apply ext_refl|intros; discriminate]|].
  assert (NE : vs <> []) by (intros ->; discriminate). clear NI.
  apply bindm_inv in X. destruct X as [(x1 & delpre & A & X)|(ee & A & B)].
  2:{ assert (x' = x) as ->.
      { destruct (e_ilk e); try discriminate. destruct (e_delpre e); [discriminate|inv A; reflexivity]. }
      subst. split; [apply ext_refl|intros; discriminate]. }
  assert (F2 : x1 = x /\ delpre = match e_ilk e with Dip => e_delpre e | Drt => k_delpre k | _ => None end /\ (e_ilk e = Dip -> delpre <> None)).
  { destruct (e_ilk e); try (inv A; repeat split; auto; discriminate).
    destruct (e_delpre e); inv A. repeat split; auto. discriminate. }
  destruct F2 as (-> & D1 & D2). clear A.
  destruct (negb local && (locallyOwned cf k || locallyWitnessed cf k wits || locallyDelegated cf delpre)) eqn:MF.
  { inv X. split; [apply ext_MF|intros; discriminate]. }
  assert (SRC : local = true \/
    (locallyOwned cf k = false /\ locallyWitnessed cf k wits = false /\ locallyDelegated cf delpre = false)).
  { destruct local; [left; reflexivity|right]. cbn in MF. apply orb_false_iff in MF. destruct MF as [MF ->].
    apply orb_false_iff in MF. tauto. }
  destruct (verifySigs N (vrfy E) (e_raw e) wg0 wits) as [ws wis] eqn:WS.
  apply verifySigs_spec in WS. destruct WS as (-> & W1 & W2 & W3).
  destruct (satisfy th (map sg_index vs)) eqn:SAT; cbn [negb] in X.
  2:{ inv X. split; [apply ext_PS|intros; discriminate]. }
  match type of X with (if ?b then _ else _) _ = _ => destruct b eqn:RO end.
  { inv X. split; [apply ext_PS|intros; discriminate]. }
  assert (ROT : isRot (e_ilk e) = true -> satisfy (k_nt k) (exposeds E (k_ndigs k) verfers vs) = true).
  { intros R. rewrite R in RO. cbn in RO. apply negb_false_iff in RO. exact RO. }
  fold (isLocal cf k wits) in X.
  apply bindm_inv in X. destruct X as [(x1 & u & A & X)|(ee & A & B)].
  2:{ subst. split; [|intros; discriminate].
      destruct (isnil wits); [destruct (negb (toad =? 0)); inv A; apply ext_refl|].
      destruct (negb (isLocal cf k wits)); [|inv A].
      destruct ((toad <? 1) || (len wits <? toad)); [inv A; apply ext_refl|].
      destruct (len (map sg_index ws) <? toad); [|inv A]. inv A. apply ext_PW. }
  assert (F3 : x1 = x /\ (wits = [] -> toad = 0) /\
     (wits <> [] -> isLocal cf k wits = false -> 1 <= toad <= len wits /\ toad <= len ws)).
  { destruct (isnil wits) eqn:NW.
    - apply isnil_true in NW. destruct (toad =? 0) eqn:T0; inv A. apply N.eqb_eq in T0.
      repeat split; auto; intros; congruence.
    - apply isnil_false in NW. destruct (isLocal cf k wits) eqn:L; cbn [negb] in A.
      + inv A. repeat split; intros; congruence.
      + destruct ((toad <? 1) || (len wits <? toad)) eqn:TB; [inv A|].
        destruct (len (map sg_index ws) <? toad) eqn:TL.
        * destruct (negb (etab_mem (row e) (pwes x)) && negb (k_cues k)); inv A.
        * inv A. apply orb_false_iff in TB. destruct TB as [T1 T2].
          apply N.ltb_ge in T1. apply N.ltb_ge in T2. apply N.ltb_ge in TL. rewrite len_map in TL.
          repeat split; auto; intros; congruence. }
  destruct F3 as (-> & NT & TO). clear A.
  match type of X with (if ?b then _ else _) _ = _ => destruct b eqn:DE end.
  { inv X. split; [apply ext_Del|intros; discriminate]. }
  apply bindm_inv in X. destruct X as [(x1 & cp & A & X)|(ee & A & B)].
  2:{ apply valdel_inv in A. subst. split; [tauto|intros; discriminate]. }
  apply valdel_inv in A. destruct A as (X1 & X2). inv X. split; [exact X1|].
  intros sg wg dpre cpl Y. inv Y. destruct (X2 _ eq_refl) as (Q & DEL). split; [exact Q|].
  constructor; auto.
  - apply N.ltb_ge in SZ. exact SZ.
  - eapply incl_tran; eauto.
Qed.

(** ** Acceptance *)
Lemma logEvent_spec : forall cf now k e sg wg wits first cpl dater local d x d' x' r,
  logEvent cf now k e sg wg wits first cpl dater local (d, x) = ((d', x'), r) ->
  ext e x x' /\ (exists a, evts x' (e_pre e) (e_said e) = Some a) /\
  incl sg (getSigs x' (e_pre e) (e_said e)) /\ incl wg (getWigs x' (e_pre e) (e_said e)) /\
  kels d' = fset (kels d) (e_pre e) (kadd (kels d (e_pre e)) (N.to_nat (e_sn e)) (e_said e)) /\
  states d' = states d /\ kevers d' = kevers d /\
  (wits = [] -> kwits d' = kwits d) /\
  (if first then
     fels d' = fset (fels d) (e_pre e) (fels d (e_pre e) ++ [e_said e]) /\
     fons d' = aset (fons d) (e_pre e) (e_said e) (Some (len (fels d (e_pre e)))) /\
     r = Some (len (fels d (e_pre e)), match dater with Some t => t | None => now end)
   else fels d' = fels d /\ fons d' = fons d /\ r = None).
Proof.
  intros cf now k e sg wg wits first cpl dater local d x d' x' r X. unfold logEvent in X. cbv zeta in X.
  set (x1 := set_dtss (aput (dtss x) (e_pre e) (e_said e) now) x) in X.
  set (x2 := putWigs (e_pre e) (e_said e) wg (putSigs (e_pre e) (e_said e) sg x1)) in X.
  set (x3 := set_evts (aput (evts x2) (e_pre e) (e_said e) e) x2) in X.
  set (d1 := match wits with [] => d | _ => _ end) in X.
  set (x4 := match k_delpre k with Some _ => _ | None => x3 end) in X.
  set (x5 := match esrs x4 (e_pre e) (e_said e) with Some _ => _ | None => _ end) in X.
  assert (Q4 : quiet x3 x4).
  { subst x4. destruct (k_delpre k); [|apply quiet_refl]. destruct cpl; [|apply quiet_refl].
    destruct (negb (ilk_eqb (e_ilk e) Ixn) && negb (locallyOwned cf k) && negb (locallyWitnessed cf k wits));
      [apply quiet_set|apply quiet_refl]. }
  assert (E5 : evts x5 = evts x4 /\ sigs x5 = sigs x4 /\ wigs x5 = wigs x4).
  { subst x5. destruct (esrs x4 (e_pre e) (e_said e)) as [l|]; [destruct (local && negb l)|]; auto. }
  destruct E5 as (E5a & E5b & E5c).
  assert (D1 : kels d1 = kels d /\ states d1 = states d /\ kevers d1 = kevers d /\ fels d1 = fels d /\ fons d1 = fons d /\ (wits = [] -> kwits d1 = kwits d)).
  { subst d1. destruct wits; repeat split; try reflexivity; intros; discriminate. }
  destruct D1 as (D1a & D1b & D1c & D1d & D1e & D1f).
  assert (V3 : exists a, evts x3 (e_pre e) (e_said e) = Some a).
  { subst x3. cbn [evts set_evts]. unfold aput. destruct (evts x2 (e_pre e) (e_said e)) eqn:Z; [eauto|].
    rewrite aset_same. eauto. }
  assert (X3 : ext e x x3).
  { subst x3. eapply ext_trans; [|apply ext_evts]. subst x2.
    eapply ext_trans; [|apply ext_putWigs]. eapply ext_trans; [|apply ext_putSigs]. apply ext_same; reflexivity. }
  assert (S3 : incl sg (getSigs x3 (e_pre e) (e_said e)) /\ incl wg (getWigs x3 (e_pre e) (e_said e))).
  { split.
    - unfold getSigs. change (sigs x3) with (sigs x2). fold (getSigs x2 (e_pre e) (e_said e)). subst x2.
      destruct (ext_putWigs e (e_pre e) (e_said e) wg (putSigs (e_pre e) (e_said e) sg x1)) as (_ & _ & I & _).
      eapply incl_tran; [apply getSigs_put|apply I].
    - unfold getWigs. change (wigs x3) with (wigs x2). fold (getWigs x2 (e_pre e) (e_said e)). subst x2.
      apply getWigs_put. }
  assert (X5 : ext e x x5 /\ (exists a, evts x5 (e_pre e) (e_said e) = Some a) /\
     incl sg (getSigs x5 (e_pre e) (e_said e)) /\ incl wg (getWigs x5 (e_pre e) (e_said e))).
  { split; [|unfold getSigs, getWigs in *; rewrite E5a, E5b, E5c, Q4; cbn [evts sigs wigs set_aess]; tauto].
    eapply ext_trans; [exact X3|]. apply ext_same; [rewrite E5a|rewrite E5b|rewrite E5c]; rewrite Q4; reflexivity. }
  destruct X5 as (X5 & V5 & S5 & W5).
  clearbody x5 d1. clear - X X5 V5 S5 W5 D1a D1b D1c D1d D1e D1f.
  destruct first; inv X; cbn [kels fels fons kwits states kevers set_kels set_fels set_fons set_dtss evts].
  - rewrite D1a, D1b, D1c, D1d, D1e. repeat split; auto; try apply X5.
  - rewrite D1a, D1b, D1c. repeat split; auto; try apply X5.
Qed.

Definition withDelFn (k : kever) (delpre : option N) (fn dts : N) : kever :=
  mkKever (k_vn k) (k_pre k) (k_sn k) (k_evt k) (k_ilk k) (k_tholder k) (k_keys k)
    (k_ndigs k) (k_nt k) (k_toad k) (k_wits k) (k_cuts k) (k_adds k) (k_estOnly k)
    (k_dnd k) (k_lastS k) (k_lastD k) delpre fn dts (k_cues k).

(** How the key state changes when [e] is accepted. *)
Inductive tr (E : env) (d : acc) (x : aux) (e : evt) : option kever -> kever -> Prop :=
| tr_icp : forall k0 delpre fn dts, kget d x (e_pre e) = None -> isIncept (e_ilk e) = true ->
    incept E e = Ok k0 -> tr E d x e None (withDelFn k0 delpre fn dts)
| tr_rot : forall k wits cuts adds fn dts, kget d x (e_pre e) = Some k -> transferable E k = true ->
    e_pre e = k_pre k -> isRot (e_ilk e) = true -> (k_delpre k <> None -> e_ilk e = Drt) ->
    (e_sn e <= k_sn k + 1) ->
    (e_sn e = k_sn k + 1 \/ (e_ilk e = Rot /\ k_lastS k < e_sn e) \/ (e_ilk e = Drt /\ k_lastS k <= e_sn e)) ->
    rotate d x k e = Ok (wits, cuts, adds) ->
    tr E d x e (Some k)
      (mkKever (k_vn k) (k_pre k) (e_sn e) e (e_ilk e) (e_kt e) (e_keys e) (e_ndigs e)
         (e_nt e) (e_bt e) wits cuts adds (k_estOnly k) (k_dnd k) (e_sn e) (e_said e)
         (k_delpre k) fn dts (k_cues k))
| tr_ixn : forall k fn dts, kget d x (e_pre e) = Some k -> transferable E k = true ->
    e_pre e = k_pre k -> e_ilk e = Ixn -> k_estOnly k = false -> e_sn e = k_sn k + 1 ->
    e_prior e = Some (e_said (k_evt k)) ->
    tr E d x e (Some k)
      (mkKever (k_vn k) (k_pre k) (e_sn e) e (e_ilk e) (k_tholder k) (k_keys k) (k_ndigs k)
         (k_nt k) (k_toad k) (k_wits k) (k_cuts k) (k_adds k) (k_estOnly k) (k_dnd k)
         (k_lastS k) (k_lastD k) (k_delpre k) fn dts (k_cues k)).

Record accept (E : env) (cf : conf) (m : msg) (d : acc) (x : aux) (d' : acc) (x' : aux) (r : res unit)
    (ko : option kever) (k' : kever) (sg wg : list siger) (delpre : option N) (cpl : option (N * N)) : Prop := mkAccept {
  a_tr : tr E d x (m_evt m) ko k';
  a_valid : valid E cf d x (match ko with Some k => k | None => k' end) (m_evt m) (m_sigers m)
              (k_keys k') (k_tholder k') (m_wigers m) (k_toad k') (k_wits k') (m_local m) sg wg delpre cpl;
  a_delpre : ko = None -> k_delpre k' = delpre;
  a_fn : k_fn k' = len (fels d (e_pre (m_evt m)));
  a_ext : ext (m_evt m) x x';
  a_evt : exists a, evts x' (e_pre (m_evt m)) (e_said (m_evt m)) = Some a;
  a_sigs : incl sg (getSigs x' (e_pre (m_evt m)) (e_said (m_evt m)));
  a_wigs : incl wg (getWigs x' (e_pre (m_evt m)) (e_said (m_evt m)));
  a_kels : kels d' = fset (kels d) (e_pre (m_evt m))
             (kadd (kels d (e_pre (m_evt m))) (N.to_nat (e_sn (m_evt m))) (e_said (m_evt m)));
  a_fels : fels d' = fset (fels d) (e_pre (m_evt m)) (fels d (e_pre (m_evt m)) ++ [e_said (m_evt m)]);
  a_fons : fons d' = aset (fons d) (e_pre (m_evt m)) (e_said (m_evt m)) (Some (len (fels d (e_pre (m_evt m)))));
  a_pin : (r = Ok tt /\ exists st, kstate k' = Ok st /\
             kevers d' = fset (kevers d) (k_pre k') (Some k') /\ states d' = fset (states d) (k_pre k') (Some st)) \/
          (exists ex, r = Err ex /\ kstate k' = Err ex /\ states d' = states d /\
             kevers d' = match ko with None => kevers d | Some _ => fset (kevers d) (k_pre k') (Some k') end) }.

Definition said_ok (x : aux) : Prop := forall p s a, evts x p s = Some a -> e_said a = s.

Lemma newKever_inv : forall E cf m d x d' x' r, kget d x (e_pre (m_evt m)) = None ->
  isIncept (e_ilk (m_evt m)) = true ->
  newKever E cf m (d, x) = ((d', x'), r) ->
  (d' = d /\ ext (m_evt m) x x' /\ exists ex, r = Err ex) \/
  exists ko k' sg wg delpre cpl, accept E cf m d x d' x' r ko k' sg wg delpre cpl.
Proof.
  intros E cf m d x d' x' r KG IC X. unfold newKever in X.
  destruct (isnil (m_sigers m)); [inv X; left; eauto using ext_refl|].
  rewrite IC in X. cbn [negb] in X.
  destruct (incept E (m_evt m)) as [k|ex] eqn:IN; [|inv X; left; eauto using ext_refl].
  destruct (valSigsWigsDel E cf (m_now m) d k (m_evt m) (m_sigers m) (e_keys (m_evt m)) (k_tholder k)
    (m_wigers m) (k_toad k) (k_wits k) (m_seal m) (m_eager m) (m_local m) x) as [x1 o] eqn:V.
  apply val_inv in V. destruct V as (V1 & V2).
  destruct o as [[[[sg wg] delpre] cpl]|ex]; [|inv X; left; eauto].
  destruct (V2 _ _ _ _ eq_refl) as (Q & VD). clear V2.
  fold (withDelFn k delpre (k_fn k) (k_dts k)) in X.
  destruct (logEvent cf (m_now m) (withDelFn k delpre (k_fn k) (k_dts k)) (m_evt m) sg wg (e_wits (m_evt m))
    true cpl (m_dater m) (m_local m) (d, x1)) as [[d2 x2] o] eqn:L.
  apply logEvent_spec in L. destruct L as (L1 & L2 & L3 & L4 & L5 & L6 & L7 & _ & L8 & L9 & L10). subst o.
  set (fn := len (fels d (e_pre (m_evt m)))) in *. set (dts := match m_dater m with Some t => t | None => _ end) in *.
  cbn [withDelFn k_vn k_pre k_sn k_evt k_ilk k_tholder k_keys k_ndigs k_nt k_toad k_wits k_cuts k_adds k_estOnly
       k_dnd k_lastS k_lastD k_cues] in X.
  fold (withDelFn k delpre fn dts) in X.
  assert (KF : k_pre k = e_pre (m_evt m) /\ k_keys k = e_keys (m_evt m)).
  { unfold incept in IN. repeat match type of IN with (if ?b then _ else _) = _ => destruct b; [discriminate|] end.
    inv IN. auto. }
  destruct KF as (KF1 & KF2).
  right. exists None, (withDelFn k delpre fn dts), sg, wg, delpre, cpl.
  assert (VD' : valid E cf d x (withDelFn k delpre fn dts) (m_evt m) (m_sigers m)
              (k_keys (withDelFn k delpre fn dts)) (k_tholder (withDelFn k delpre fn dts)) (m_wigers m)
              (k_toad (withDelFn k delpre fn dts)) (k_wits (withDelFn k delpre fn dts)) (m_local m) sg wg delpre cpl).
  { destruct VD. rewrite <- KF2 in *. constructor; try assumption.
    rewrite v_delpre0. destruct (e_ilk (m_evt m)); try reflexivity; discriminate. }
  assert (XX : ext (m_evt m) x x2) by (eapply ext_trans; [exact V1|exact L1]).
  unfold pinState in X. destruct (kstate (withDelFn k delpre fn dts)) as [st|ex] eqn:KS; inv X;
    constructor; auto; try exact VD'; try (apply tr_icp; assumption); try apply XX;
    cbn [kels fels fons kevers states set_kels set_fels set_fons set_kevers set_states]; auto.
  - left. split; [reflexivity|]. exists st. split; [exact KS|]. cbn. rewrite L6, L7. auto.
  - right. exists ex. auto.
Qed.

Lemma update_inv : forall E cf m k d x d' x' r, kget d x (e_pre (m_evt m)) = Some k ->
  e_sn (m_evt m) <= k_sn k + 1 ->
  (e_sn (m_evt m) = k_sn k + 1 \/ (e_ilk (m_evt m) = Rot /\ k_lastS k < e_sn (m_evt m)) \/
   (e_ilk (m_evt m) = Drt /\ k_lastS k <= e_sn (m_evt m))) ->
  update E cf m k (d, x) = ((d', x'), r) ->
  (d' = d /\ ext (m_evt m) x x' /\ exists ex, r = Err ex) \/
  exists ko k' sg wg delpre cpl, accept E cf m d x d' x' r ko k' sg wg delpre cpl.
Proof.
  intros E cf m k d x d' x' r KG SN CO X. unfold update in X.
  assert (DONE : forall ex, ((d, x), Err ex) = ((d', x'), r) -> d' = d /\ ext (m_evt m) x x' /\ exists ex, r = Err ex).
  { intros ex Y; inv Y. eauto using ext_refl. }
  destruct (transferable E k) eqn:TF; cbn [negb] in X; [|left; eauto].
  destruct (N.eqb_spec (e_pre (m_evt m)) (k_pre k)) as [EP|]; cbn [negb] in X; [|left; eauto].
  destruct (isRot (e_ilk (m_evt m))) eqn:RO.
  - match type of X with (if ?b then _ else _) = _ => destruct b eqn:ND end; [left; eauto|].
    assert (DD : k_delpre k <> None -> e_ilk (m_evt m) = Drt).
    { intros Z. destruct (k_delpre k); [|congruence]. cbn in ND. apply negb_false_iff in ND. apply ilk_eqb_eq in ND. exact ND. }
    destruct (rotate d x k (m_evt m)) as [[[wits cuts] adds]|ex] eqn:R; [|left; eauto].
    destruct (valSigsWigsDel E cf (m_now m) d k (m_evt m) (m_sigers m) (e_keys (m_evt m)) (e_kt (m_evt m))
      (m_wigers m) (e_bt (m_evt m)) wits (m_seal m) (m_eager m) (m_local m) x) as [x1 o] eqn:V.
    apply val_inv in V. destruct V as (V1 & V2).
    destruct o as [[[[sg wg] delpre] cpl]|ex]; [|inv X; left; eauto].
    destruct (V2 _ _ _ _ eq_refl) as (Q & VD). clear V2.
    destruct (logEvent cf (m_now m) k (m_evt m) sg wg wits true cpl (m_dater m) (m_local m) (d, x1)) as [[d2 x2] o] eqn:L.
    apply logEvent_spec in L. destruct L as (L1 & L2 & L3 & L4 & L5 & L6 & L7 & _ & L8 & L9 & L10). subst o.
    match type of X with pinState ?kk _ = _ => set (k' := kk) in * end.
    right. exists (Some k), k', sg, wg, delpre, cpl.
    assert (XX : ext (m_evt m) x x2) by (eapply ext_trans; [exact V1|exact L1]).
    unfold pinState in X. destruct (kstate k') as [st|ex] eqn:KS; inv X;
      constructor; auto; try exact VD; try (apply (tr_rot E d x (m_evt m) k); assumption); try apply XX;
      cbn [kels fels fons kevers states set_kels set_fels set_fons set_kevers set_states]; auto; try discriminate.
    + left. split; [reflexivity|]. exists st. split; [exact KS|]. rewrite L6, L7. auto.
    + right. exists ex. rewrite L7. auto.
  - destruct (ilk_eqb (e_ilk (m_evt m)) Ixn) eqn:IX; [|left; eauto]. apply ilk_eqb_eq in IX.
    destruct (k_estOnly k) eqn:EO; [left; eauto|].
    destruct (N.eqb_spec (e_sn (m_evt m)) (k_sn k + 1)) as [ES|]; cbn [negb] in X; [|left; eauto].
    destruct (compare (k_evt k) (e_prior (m_evt m))) eqn:CP; cbn [negb] in X; [|left; eauto].
    destruct (valSigsWigsDel E cf (m_now m) d k (m_evt m) (m_sigers m) (k_keys k) (k_tholder k)
      (m_wigers m) (k_toad k) (k_wits k) None (m_eager m) (m_local m) x) as [x1 o] eqn:V.
    apply val_inv in V. destruct V as (V1 & V2).
    destruct o as [[[[sg wg] delpre] cpl]|ex]; [|inv X; left; eauto].
    destruct (V2 _ _ _ _ eq_refl) as (Q & VD). clear V2.
    destruct (logEvent cf (m_now m) k (m_evt m) sg wg [] true None None true (d, x1)) as [[d2 x2] o] eqn:L.
    apply logEvent_spec in L. destruct L as (L1 & L2 & L3 & L4 & L5 & L6 & L7 & _ & L8 & L9 & L10). subst o.
    match type of X with pinState ?kk _ = _ => set (k' := kk) in * end.
    right. exists (Some k), k', sg, wg, delpre, cpl.
    assert (XX : ext (m_evt m) x x2) by (eapply ext_trans; [exact V1|exact L1]).
    assert (PR : e_prior (m_evt m) = Some (e_said (k_evt k))).
    { unfold compare in CP. destruct (e_prior (m_evt m)); [|discriminate]. apply N.eqb_eq in CP. rewrite CP. reflexivity. }
    assert (TR : tr E d x (m_evt m) (Some k) k').
    { pose proof (tr_ixn E d x (m_evt m) k (k_fn k') (k_dts k') KG TF EP IX EO ES PR) as TR. rewrite EO in TR. exact TR. }
    unfold pinState in X. destruct (kstate k') as [st|ex] eqn:KS; inv X;
      constructor; auto; try exact VD; try exact TR; try apply XX;
      cbn [kels fels fons kevers states set_kels set_fels set_fons set_kevers set_states]; auto; try discriminate.
    + left. split; [reflexivity|]. exists st. split; [exact KS|]. rewrite L6, L7. auto.
    + right. exists ex. rewrite L7. auto.
Qed.

Lemma same_acc_refl : forall d, same_acc d d.
Proof. intros. repeat split; auto. Qed.
Lemma same_acc_trans : forall a b c, same_acc a b -> same_acc b c -> same_acc a c.
Proof.
  intros a b c (A1 & A2 & A3 & A4 & A5 & A6) (B1 & B2 & B3 & B4 & B5 & B6).
  repeat split; intros; [rewrite B1|rewrite B2|rewrite B3|rewrite B4|rewrite B5|rewrite B6]; auto.
Qed.

(** No acceptance took place. *)
Definition unch (e : evt) (d : acc) (x : aux) (d' : acc) (x' : aux) : Prop :=
  ext e x x' /\
  (states d' = states d /\ kevers d' = kevers d /\ fels d' = fels d /\ fons d' = fons d) /\
  (said_ok x -> same_acc d d').
Lemma unch_ext : forall e d x x', ext e x x' -> unch e d x d x'.
Proof. intros. split; [assumption|]. split; auto using same_acc_refl. Qed.

Lemma dup_log : forall cf now k e sg wg d x d' x' o,
  logEvent cf now k e sg wg [] false None None true (d, x) = ((d', x'), o) ->
  (said_ok x -> In (e_said e) (krow (kels d (e_pre e)) (e_sn e))) -> unch e d x d' x'.
Proof.
  intros cf now k e sg wg d x d' x' o L I0. apply logEvent_spec in L.
  destruct L as (L1 & L2 & L3 & L4 & L5 & L6 & L7 & LW & L8 & L9 & L10).
  split; [exact L1|]. split; [rewrite L6, L7, L8, L9; auto|]. intros SO. pose proof (I0 SO) as I. clear I0.
  repeat split; intros; try (rewrite ?L6, ?L7, ?L8, ?L9, ?(LW eq_refl); reflexivity).
  rewrite L5. rewrite kadd_mem by exact I.
  destruct (fset_cases _ (kels d) (e_pre e) (kels d (e_pre e)) p) as [(-> & ->)|(_ & ->)]; reflexivity.
Qed.

Lemma process_inv : forall E cf m d x d' x' r,
  processEvent E cf m (d, x) = ((d', x'), r) ->
  unch (m_evt m) d x d' x' \/
  exists ko k' sg wg delpre cpl, accept E cf m d x d' x' r ko k' sg wg delpre cpl.
Proof.
  intros E cf m d x d' x' r X. unfold processEvent in X. cbv zeta in X.
  assert (DONE : forall rr, ((d, x), rr) = ((d', x'), r) -> unch (m_evt m) d x d' x').
  { intros ex Y; inv Y. apply unch_ext, ext_refl. }
  destruct (validPre E (e_pre (m_evt m))); cbn [negb] in X; [|left; eauto].
  destruct (kget d x (e_pre (m_evt m))) as [k|] eqn:KG.
  2:{ destruct (isIncept (e_ilk (m_evt m))) eqn:IC.
      - destruct (newKever_inv _ _ _ _ _ _ _ _ KG IC X) as [(-> & A & _)|A]; [left; apply unch_ext; assumption|right; exact A].
      - inv X. left. apply unch_ext, ext_OO. }
  destruct (isIncept (e_ilk (m_evt m))) eqn:IC.
  - destruct (N.eqb_spec (e_sn (m_evt m)) 0) as [S0|]; cbn [negb] in X; [|left; eauto].
    destruct (fetchEst (S (N.to_nat (e_sn (m_evt m)))) d x (e_pre (m_evt m)) (e_sn (m_evt m))) as [ee|] eqn:FE; [|left; eauto].
    destruct (N.eqb_spec (e_said ee) (e_said (m_evt m))) as [SE|]; [|inv X; left; apply unch_ext, ext_LD].
    destruct (verifySigs N (vrfy E) (e_raw (m_evt m)) (m_sigers m) (e_keys ee)) as [sg ?].
    destruct (verifySigs N (vrfy E) (e_raw (m_evt m)) (m_wigers m) (e_wits ee)) as [wg ?].
    destruct (isnil sg && isnil wg); [left; eauto|].
    destruct (logEvent cf (m_now m) k (m_evt m) sg wg [] false None None true (d, x)) as [[d2 x2] o] eqn:L.
    inv X. left. eapply dup_log; [exact L|].
    intros SO. cbn [fetchEst] in FE. destruct (klast (kels d (e_pre (m_evt m))) (e_sn (m_evt m))) as [s|] eqn:KL; [|discriminate].
    destruct (evts x (e_pre (m_evt m)) s) as [a|] eqn:EV; [|discriminate].
    destruct (isEst (e_ilk a)).
    + inv FE. apply SO in EV. apply klast_In in KL. rewrite <- SE, EV. exact KL.
    + rewrite S0 in FE. destruct (e_sn a =? 0); discriminate.
  - destruct (N.ltb_spec (k_sn k + 1) (e_sn (m_evt m))) as [LT|LE]; [inv X; left; apply unch_ext, ext_OO|].
    match type of X with (if ?b then _ else _) = _ => destruct b eqn:CO end.
    + assert (CO' : e_sn (m_evt m) = k_sn k + 1 \/ (e_ilk (m_evt m) = Rot /\ k_lastS k < e_sn (m_evt m)) \/
         (e_ilk (m_evt m) = Drt /\ k_lastS k <= e_sn (m_evt m))).
      { apply orb_true_iff in CO. destruct CO as [CO|CO].
        - apply orb_true_iff in CO. destruct CO as [CO|CO]; [left; apply N.eqb_eq; exact CO|].
          apply andb_true_iff in CO. destruct CO as [C1 C2]. apply ilk_eqb_eq in C1. apply N.ltb_lt in C2. auto.
        - apply andb_true_iff in CO. destruct CO as [C1 C2]. apply ilk_eqb_eq in C1. apply N.leb_le in C2. auto. }
      destruct (update_inv _ _ _ _ _ _ _ _ _ KG LE CO' X) as [(-> & A & _)|A]; [left; apply unch_ext; assumption|right; exact A].
    + match type of X with (if ?b then _ else _) = _ => destruct b eqn:DU end;
        [|inv X; left; apply unch_ext, ext_LD].
      destruct (klast (kels d (e_pre (m_evt m))) (e_sn (m_evt m))) as [s|] eqn:KL; [|discriminate].
      apply N.eqb_eq in DU. subst s.
      destruct (fetchEst (S (N.to_nat (e_sn (m_evt m)))) d x (e_pre (m_evt m)) (e_sn (m_evt m))) as [ee|] eqn:FE; [|left; eauto].
      destruct (verifySigs N (vrfy E) (e_raw (m_evt m)) (m_sigers m) (e_keys ee)) as [sg ?].
      destruct (fetchWits d x (e_pre (m_evt m)) (kback (kels d (e_pre (m_evt m))) (e_sn (m_evt m)))) as [ws|]; [|left; eauto].
      destruct (verifySigs N (vrfy E) (e_raw (m_evt m)) (m_wigers m) ws) as [wg ?].
      destruct (isnil sg && isnil wg); [left; eauto|].
      destruct (logEvent cf (m_now m) k (m_evt m) sg wg [] false None None true (d, x)) as [[d2 x2] o] eqn:L.
      inv X. left. eapply dup_log; [exact L|]. intros _. apply klast_In. exact KL.
Qed.
