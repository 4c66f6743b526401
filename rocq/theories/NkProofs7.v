(** Deciding whether a field map is well formed, for the examples; all theorems about native messages in one place. *)
From Verif Require Import Prelude B64Model B64Proofs MatterModel MatterProofs MatterInv MatterSpec MatterThms SubsModel SubsProofs SubsThms CtrModel CtrProofs CtrThms ThModel VerModel VerThms JsonModel JsonProofs SerModel SerSpec SerProofs SerInv SerThms PsProofs NmModel NmSpec NmProofs NmProofs2 NmProofs3 NmProofs4 NkModel NkSpec NkProofs NkProofs2 NkProofs3 NkProofs4 NkProofs5 NkProofs6.
Open Scope N_scope.
Ltac Zify.zify_post_hook ::= Z.div_mod_to_equations.
Notation val := JsonModel.val.
Notation versionage := VerModel.versionage.

(** ** Deciders *)
Definition primB (dex : list bytes) (s : bytes) : bool :=
  Reb64 s && match exfil s with Ok m => match infil m with Ok q => beq q s && memB (m_code m) dex | Err _ => false end | Err _ => false end.
Lemma primB_ok : forall dex s, primB dex s = true -> isPrimOf dex s.
Proof.
  intros dex s H. unfold primB in H. apply andb_true_iff in H. destruct H as [B H]. destruct (exfil s) as [m|] eqn:E; [|discriminate]. destruct (infil m) as [q|] eqn:Q; [|discriminate]. apply andb_true_iff in H. destruct H as [H1 H2].
  apply beq_eq in H1. subst q. split; [exact B|]. exists m. split; [exact E|]. split; [exact Q|]. apply SerProofs.memB_In. exact H2.
Qed.
Definition hexnum (s : bytes) : N := match hexint s with Ok n => n | Err _ => 0 end.
Definition numB (s : bytes) : bool := (hexnum s <? 256 ^ 17) && beq s (hexstr (hexnum s)).
Lemma numB_ok : forall s, numB s = true -> isNumber s.
Proof. intros s H. unfold numB in H. apply andb_true_iff in H. destruct H as [H1 H2]. apply beq_eq in H2. apply N.ltb_lt in H1. exists (hexnum s). split; assumption. Qed.
Definition textB (f : bytes -> bool) (v : val) : bool := match v with VStr s => f s | _ => false end.
Lemma textB_ok : forall f (P : bytes -> Prop) v, (forall s, f s = true -> P s) -> textB f v = true -> text P v.
Proof. intros f P v F H. destruct v as [ | | |s| | ]; try discriminate. exists s. split; [reflexivity|]. apply F. exact H. Qed.
Fixpoint allB (f : bytes -> bool) (l : list val) : bool := match l with [] => true | v :: l => textB f v && allB f l end.
Lemma allB_ok : forall f (P : bytes -> Prop) l, (forall s, f s = true -> P s) -> allB f l = true -> exists t, l = map VStr t /\ Forall P t.
Proof.
  intros f P l F. induction l as [|v l IH]; intros H; [exists []; split; [reflexivity|constructor]|]. cbn [allB] in H. apply andb_true_iff in H. destruct H as [H1 H2]. destruct (IH H2) as (t & -> & T).
  destruct (textB_ok f P v F H1) as (s & -> & S). exists (s :: t). split; [reflexivity|constructor; assumption].
Qed.
Fixpoint sameTexts (a b : list val) : bool := match a, b with [], [] => true | VStr x :: a, VStr y :: b => beq x y && sameTexts a b | _, _ => false end.
Lemma sameTexts_ok : forall a b, sameTexts a b = true -> a = b.
Proof.
  induction a as [|x a IH]; intros [|y b] H; try discriminate; [reflexivity|destruct x; discriminate|]. cbn [sameTexts] in H. destruct x as [ | | |x| | ]; try discriminate. destruct y as [ | | |y| | ]; try discriminate.
  apply andb_true_iff in H. destruct H as [H1 H2]. apply beq_eq in H1. subst. rewrite (IH _ H2). reflexivity.
Qed.
Definition tholdB (v : val) : bool :=
  match valSith v with
  | Ok s => match processSith s with
            | Ok t => match sithVal (sithOf t), v with VStr a, VStr b => beq a b | VList a, VList b => sameTexts a b | _, _ => false end
            | Err _ => false end
  | Err _ => false end.
Lemma tholdB_ok : forall v, tholdB v = true -> isThreshold v.
Proof.
  intros v H. unfold tholdB in H. destruct (valSith v) as [s|] eqn:S; [|discriminate]. destruct (processSith s) as [t|] eqn:T; [|discriminate]. exists s, t. split; [exact S|]. split; [exact T|].
  destruct (sithVal (sithOf t)) as [ | | |x|x| ]; try discriminate; destruct v as [ | | |y|y| ]; try discriminate; [apply beq_eq in H; subst; reflexivity|apply sameTexts_ok in H; subst; reflexivity].
Qed.
Definition dateB (s : bytes) : bool := (len s =? 32) && forallb (fun x => ((48 <=? x) && (x <=? 57)) || existsb (N.eqb x) (s2b "T:.+-")) s.
Lemma dateB_ok : forall s, dateB s = true -> isDate s.
Proof.
  intros s H. apply andb_true_iff in H. destruct H as [H1 H2]. apply N.eqb_eq in H1. split; [exact H1|]. rewrite forallb_forall in H2. apply Forall_forall. intros x I. specialize (H2 x I). apply orb_true_iff in H2. destruct H2 as [H2|H2].
  - apply andb_true_iff in H2. destruct H2 as [A B]. apply N.leb_le in A, B. left. split; assumption.
  - apply existsb_exists in H2. destruct H2 as (y & Y & E). apply N.eqb_eq in E. subst y. right. exact Y.
Qed.
Definition routeB (s : bytes) : bool := utf8 s && negb (existsb (N.eqb 10) s) && (existsb (N.eqb 47) s || negb (existsb (N.eqb 45) s)).
Lemma existsb_eq : forall x s, existsb (N.eqb x) s = true <-> In x s.
Proof. intros x s. rewrite existsb_exists. split; [intros (y & I & E); apply N.eqb_eq in E; subst; exact I|intros I; exists x; split; [exact I|apply N.eqb_refl]]. Qed.
Lemma routeB_ok : forall s, routeB s = true -> isRoute s.
Proof.
  intros s H. apply andb_true_iff in H. destruct H as [H H3]. apply andb_true_iff in H. destruct H as [H1 H2]. split; [exact H1|]. split.
  - intros I. apply existsb_eq in I. rewrite I in H2. discriminate.
  - apply orb_true_iff in H3. destruct H3 as [H3|H3]; [left; apply existsb_eq; exact H3|right; intros I; apply existsb_eq in I; rewrite I in H3; discriminate].
Qed.
Definition sealFieldB (kv : bytes * val) : bool :=
  textB (if beq (fst kv) (s2b "s") then numB else if memB (fst kv) [s2b "i"; s2b "bi"] then primB PreDex else if beq (fst kv) (s2b "t") then primB [s2b "Y"; s2b "0O"] else primB DigDex) (snd kv).
Definition sealB (v : val) : bool := match v with VMap m => existsb (fun k => if list_eq_dec list_N_dec k (keysOf m) then true else false) sealLabels && forallb sealFieldB m | _ => false end.
Lemma sealB_ok : forall v, sealB v = true -> isSeal v.
Proof.
  intros v H. destruct v as [ | | | | |m]; try discriminate. apply andb_true_iff in H. destruct H as [H1 H2]. exists m. split; [reflexivity|]. split.
  - apply existsb_exists in H1. destruct H1 as (k & I & E). destruct (list_eq_dec list_N_dec k (keysOf m)) as [->|]; [exact I|discriminate].
  - rewrite forallb_forall in H2. apply Forall_forall. intros kv I. specialize (H2 kv I). unfold sealFieldB in H2. unfold sealField. destruct (beq (fst kv) (s2b "s")); [exact (textB_ok _ _ _ numB_ok H2)|].
    destruct (memB (fst kv) [s2b "i"; s2b "bi"]); [exact (textB_ok _ _ _ (primB_ok _) H2)|]. destruct (beq (fst kv) (s2b "t")); exact (textB_ok _ _ _ (primB_ok _) H2).
Qed.
Lemma sealsSize_app : forall a b, sealsSize (a ++ b) = sealsSize a + sealsSize b.
Proof. intros a b. induction a as [|x a IH]; cbn [sealsSize fold_right app]; [reflexivity|]. change (fold_right (fun e n => sealSize e + n) 0 (a ++ b)) with (sealsSize (a ++ b)). rewrite IH. unfold sealsSize. lia. Qed.
Lemma runs_ok : forall l, (sealsSize l <=? 4 * 4095) = true -> smallRuns l.
Proof. intros l H a run b k -> _. apply N.leb_le in H. rewrite !sealsSize_app in H. lia. Qed.
Definition fieldB (l : bytes) (v : val) : bool :=
  match dget fkinds l with
  | Some FDig => textB (primB DigDex) v
  | Some FPre => textB (primB PreDex) v
  | Some FNonce => textB (primB NonceDex) v
  | Some FNum => textB numB v
  | Some FThold => tholdB v
  | Some FPrims => match v with VList es => allB (primB (map fst Sizes)) es | _ => false end
  | Some FDate => textB dateB v
  | Some FPath => textB routeB v
  | Some FTraits => match v with VList es => allB (fun s => memB s TraitDex) es | _ => false end
  | Some FMap => match v with VMap m => plainB (VMap m) | _ => false end
  | Some FAttr => match v with VMap m => plainB (VMap m) | VList es => forallb sealB es && (sealsSize es <=? 4 * 4095) | _ => false end
  | Some _ => true
  | None => false
  end.
Lemma fieldB_ok : forall l v, fieldB l v = true -> fieldOk l v.
Proof.
  intros l v H. unfold fieldB in H. unfold fieldOk.
  assert (K : forall ls k, In l ls -> Forall (fun x => dget fkinds x = Some k) ls -> dget fkinds l = Some k) by (intros ls k I F; rewrite Forall_forall in F; apply F; exact I).
  do 10 (try split).
  - intros I. rewrite (K _ FDig I) in H by (repeat constructor). exact (textB_ok _ _ _ (primB_ok _) H).
  - intros I. rewrite (K _ FPre I) in H by (repeat constructor). exact (textB_ok _ _ _ (primB_ok _) H).
  - intros ->. change (textB (primB NonceDex) v = true) in H. exact (textB_ok _ _ _ (primB_ok _) H).
  - intros I. rewrite (K _ FNum I) in H by (repeat constructor). exact (textB_ok _ _ _ numB_ok H).
  - intros I. rewrite (K _ FThold I) in H by (repeat constructor). exact (tholdB_ok _ H).
  - intros I. rewrite (K _ FPrims I) in H by (repeat constructor). destruct v as [ | | | |es| ]; try discriminate. destruct (allB_ok _ _ _ (primB_ok _) H) as (t & -> & F). exists t. split; [reflexivity|exact F].
  - intros ->. change (textB dateB v = true) in H. exact (textB_ok _ _ _ dateB_ok H).
  - intros I. rewrite (K _ FPath I) in H by (repeat constructor). exact (textB_ok _ _ _ routeB_ok H).
  - intros ->. rewrite (K [s2b "c"] FTraits (or_introl eq_refl)) in H by (repeat constructor). destruct v as [ | | | |es| ]; try discriminate.
    destruct (allB_ok _ (fun s => In s TraitDex) _ (fun s X => proj1 (SerProofs.memB_In _ _) X) H) as (t & -> & F). exists t. split; [reflexivity|exact F].
  - intros ->. rewrite (K [s2b "q"] FMap (or_introl eq_refl)) in H by (repeat constructor). destruct v as [ | | | | |m]; try discriminate. exists m. split; [reflexivity|]. exact (plainB_ok _ H).
  - intros ->. rewrite (K [s2b "a"] FAttr (or_introl eq_refl)) in H by (repeat constructor). destruct v as [ | | | |es|m]; try discriminate; [right|left; exists m; split; [reflexivity|exact (plainB_ok _ H)]].
    apply andb_true_iff in H. destruct H as [H1 H2]. exists es. split; [reflexivity|]. split; [|exact (runs_ok _ H2)]. rewrite forallb_forall in H1. apply Forall_forall. intros e I. exact (sealB_ok _ (H1 e I)).
Qed.
Definition wfB (sd : sad) : bool :=
  match dget sd (s2b "t") with
  | Some (VStr ilk) => match ilkget Fields_KERI_2 (Some ilk) with
                       | Some fd => (if list_eq_dec list_N_dec (keysOf sd) (keysOf (f_alls fd)) then true else false) && forallb (fun kv => fieldB (fst kv) (snd kv)) sd
                       | None => false end
  | _ => false end.
Lemma wfB_ok : forall sd, wfB sd = true -> wellFormed sd.
Proof.
  intros sd H. unfold wfB in H. destruct (dget sd (s2b "t")) as [[ | | |ilk| | ]|] eqn:T; try discriminate. destruct (ilkget Fields_KERI_2 (Some ilk)) as [fd|] eqn:F; [|discriminate].
  apply andb_true_iff in H. destruct H as [H1 H2]. destruct (list_eq_dec list_N_dec (keysOf sd) (keysOf (f_alls fd))) as [E|]; [|discriminate]. exists ilk, fd. split; [exact T|]. split; [exact (ilkget_In2 _ _ _ F)|]. split; [exact E|].
  rewrite forallb_forall in H2. apply Forall_forall. intros kv I. exact (fieldB_ok _ _ (H2 kv I)).
Qed.
