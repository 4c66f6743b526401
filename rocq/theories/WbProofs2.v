(** Each operation on numbered entries and on ordered sets, with flat keys. *)
From Coq Require Import Lia ZifyClasses ZifyInst ZifyN Zify.
From Verif Require Import Prelude Lex SubsModel SubsProofs DbModel DbSpec DbProofs DbRef DbOn DbOn2 WbModel WbSpec WbProofs.
Ltac Zify.zify_post_hook ::= Z.div_mod_to_equations.
Open Scope N_scope.

Lemma onKey_ne : forall sep k n, onKey sep k n <> [].
Proof. intros sep k n. unfold onKey. destruct k; discriminate. Qed.
Lemma isnil_onKey : forall sep k n, isnil (onKey sep k n) = false.
Proof. intros sep k n. unfold onKey. destruct k; reflexivity. Qed.

(** values at consecutive free numbers *)
Lemma setFrom_free : forall sep key vals ion st r0, goodsep sep -> (forall j, ion <= j -> get (suffix sep key j) st = None) ->
  putFrom sep false key ion vals st r0 = (setFrom sep key ion vals st, negb (isnil vals) || r0).
Proof.
  intros sep key vals. induction vals as [|v vals IH]; intros ion st r0 GS H; [reflexivity|]. cbn [putFrom setFrom isnil negb orb].
  pose proof (put_none (suffix sep key ion) v st (H ion (N.le_refl _))) as E. pose proof (put_true_ok (suffix sep key ion) v st) as T.
  rewrite <- E. destruct (put true (suffix sep key ion) v st) as [st' b] eqn:P. cbn in T. subst b.
  assert (D : dictSet (suffix sep key ion) v st = st') by (unfold dictSet; rewrite P; reflexivity). rewrite D, IH; [|exact GS|].
  - destruct vals; reflexivity.
  - intros j L. rewrite <- D, get_set_other; [apply H; lia|]. intros X. unfold suffix in X. apply onKey_inj in X; [|exact GS]. lia.
Qed.
Lemma setFrom_over : forall sep key vals ion st r0,
  putFrom sep true key ion vals st r0 = (setFrom sep key ion vals st, negb (isnil vals) || r0).
Proof.
  intros sep key vals. induction vals as [|v vals IH]; intros ion st r0; [reflexivity|]. cbn [putFrom setFrom isnil negb orb].
  pose proof (put_true_ok (suffix sep key ion) v st) as T. unfold dictSet. destruct (put true (suffix sep key ion) v st) as [st' b]. cbn in T. subst b. cbn [fst]. rewrite IH. destruct vals; reflexivity.
Qed.
Lemma append_free : forall sep key vals ion st, goodsep sep -> (forall j, ion <= j -> get (suffix sep key j) st = None) ->
  appendFrom sep key ion vals st = Ok (setFrom sep key ion vals st) /\ wappendFrom sep key ion vals st = (setFrom sep key ion vals st, Ok tt).
Proof.
  intros sep key vals. induction vals as [|v vals IH]; intros ion st GS H; [split; reflexivity|]. cbn [appendFrom wappendFrom setFrom].
  pose proof (put_none (suffix sep key ion) v st (H ion (N.le_refl _))) as E. pose proof (put_true_ok (suffix sep key ion) v st) as T. unfold dictHas. rewrite (H ion (N.le_refl _)).
  rewrite <- E. destruct (put true (suffix sep key ion) v st) as [st' b] eqn:P. cbn in T. subst b. cbn [negb].
  assert (D : dictSet (suffix sep key ion) v st = st') by (unfold dictSet; rewrite P; reflexivity). rewrite D. apply IH; [exact GS|].
  intros j L. rewrite <- D, get_set_other; [apply H; lia|]. intros X. unfold suffix in X. apply onKey_inj in X; [|exact GS]. lia.
Qed.
Lemma lookup_above : forall n l, tnext l <= n -> lookup n l = None.
Proof.
  intros n l L. apply tnext_le in L. unfold lookup. induction l as [|[m v] l IH]; [reflexivity|]. inversion L; subst. cbn [find fst] in *. destruct (N.eqb_spec m n); [lia|]. apply IH. assumption.
Qed.
Lemma osetV_nil : forall vals seen, vals <> [] -> osetV seen vals = [] -> exists x, In x seen.
Proof.
  intros vals. induction vals as [|v vals IH]; intros seen NE E; [congruence|]. cbn in E. destruct (memV v seen) eqn:M; [|discriminate]. apply memV_In in M. exists v. exact M.
Qed.
Lemma afterMax_eq : forall l, afterMax l = tnext (map (fun e => (wnum e, wval e)) l).
Proof. intros l. unfold afterMax, tnext. generalize 0. induction l as [|e l IH]; intros n; [reflexivity|]. cbn [fold_left map fst]. apply IH. Qed.
Lemma fold_last : forall (l : list (bytes * N * bytes)) x, fold_left (fun _ e => Some (wval e)) l x = match olast (map wval l) with Some v => Some v | None => x end.
Proof.
  induction l as [|e l IH]; intros x; [reflexivity|]. cbn [fold_left map]. rewrite IH, olast_cons. destruct (olast (map wval l)); reflexivity.
Qed.
Lemma findVal_eq : forall sep key val l r, walk (splitOnKey sep) key l = Ok r ->
  findVal sep key val l = Ok (match find (fun e => beq (wval e) val) r with Some e => Some (wkey e) | None => None end).
Proof.
  intros sep key val l. induction l as [|[ck v] l IH]; intros r E; cbn [walk findVal] in *; [inversion E; reflexivity|]. unfold unsuffix.
  destruct (splitOnKey sep ck) as [[k n]|]; cbn [bind] in *; [|discriminate]. destruct (beq k key); [|inversion E; reflexivity].
  destruct (walk (splitOnKey sep) key l) as [r'|]; cbn [bind] in E; [|discriminate]. inversion E; subst. cbn [find wval wkey fst snd]. destruct (beq v val); [reflexivity|]. apply IH. reflexivity.
Qed.

Section Flat.
Variable sep : N.
Variable K : bytes -> Prop.
Hypothesis GS : goodsep sep.
Hypothesis FL : flat sep K.

Lemma walk_view : forall k st, wf sep K st -> K k ->
  exists r, wset sep k 0 st = Ok r /\ map (fun e => (wnum e, wval e)) r = view sep k st /\ scan sep k (setRange (suffix sep k 0) st) = Ok (view sep k st).
Proof.
  intros k st W KK. pose proof (scan0 sep K GS FL k st W KK) as S. unfold wset. rewrite irangeMin_eq by apply W.
  pose proof (walk_scan sep k (setRange (suffix sep k 0) st)) as E. rewrite S in E. change (walk (unsuffix sep)) with (walk (splitOnKey sep)).
  destruct (walk (splitOnKey sep) k (setRange (suffix sep k 0) st)) as [r|]; cbn [bind] in E; [|discriminate]. exists r. apply ok_inj in E. auto.
Qed.
Lemma free_above : forall k st n, wf sep K st -> tnext (view sep k st) <= n -> forall j, n <= j -> get (suffix sep k j) st = None.
Proof. intros k st n W L j LJ. unfold suffix. rewrite (get_view sep K GS k j st W). apply lookup_above. lia. Qed.
Lemma map_wval : forall (r : list (bytes * N * bytes)) l, map (fun e => (wnum e, wval e)) r = l -> map wval r = map snd l.
Proof. intros r l <-. rewrite map_map. reflexivity. Qed.

Lemma sop_agrees : forall o st, wf sep K st -> K (sop_key o) -> agrees (wdo_sop sep o st) (do_sop sep o st) st.
Proof.
  intros o st W KK. pose proof (K_ne sep K FL _ KK) as KN. pose proof (walk_view _ st W KK) as (r & R1 & R2 & R3). pose proof (map_wval _ _ R2) as RV.
  assert (NX : afterMax r = nextIon (view sep (sop_key o) st)) by (rewrite afterMax_eq, R2; apply tnext_asc, (view_asc sep K GS); exact W).
  assert (FR : forall j, nextIon (view sep (sop_key o) st) <= j -> get (suffix sep (sop_key o) j) st = None).
  { intros j L. eapply free_above; [exact W| |exact L]. rewrite <- NX, afterMax_eq, R2. lia. }
  destruct o as [k vals|k vals|k v|k|k v]; cbn [wdo_sop do_sop sop_key] in *.
  - unfold wputIoSetVals, putIoSetVals. rewrite KN. destruct (isnil vals) eqn:NV; [cbn; auto|]. cbn [orb]. rewrite R1, R3. cbn [bind]. rewrite RV, NX. cbv zeta.
    set (new := filter _ _). rewrite setFrom_free by assumption. destruct (isnil new) eqn:NN; [|cbn; auto]. apply isnil_true in NN. rewrite NN. cbn. auto.
  - unfold wpinIoSetVals, pinIoSetVals. rewrite KN. destruct (isnil vals) eqn:NV; [cbn; auto|]. cbn [orb].
    assert (A : agrees (wremIoSet sep k st) (remIoSet sep k st) st).
    { unfold wremIoSet, remIoSet. rewrite KN. exact (del_agrees sep k (suffix sep k 0) st true (proj1 W)). }
    destruct (wremIoSet sep k st) as [[st1 d] [b|e]]; destruct (remIoSet sep k st) as [[st2 b2]|e2]; cbn [agrees fst snd] in A; destruct A as [A1 A2]; try discriminate; subst.
    + cbn [bind]. rewrite setFrom_over. cbn. split; [reflexivity|]. rewrite orb_false_r. f_equal. destruct (isnil (osetV [] vals)) eqn:NO; [|reflexivity]. apply isnil_true in NO.
      apply osetV_nil in NO; [destruct NO as (x & [])|]. apply isnil_false in NV. exact NV.
    + cbn. split; [reflexivity|exact A2].
  - unfold waddIoSetVal, addIoSetVal. rewrite KN, R1, R3. cbn [bind]. rewrite RV, NX. destruct (memV v (map snd (view sep k st))); [cbn; auto|].
    unfold dictSet. rewrite (put_none _ _ _ (FR _ (N.le_refl _))). pose proof (put_true_ok (suffix sep k (nextIon (view sep k st))) v st) as T. rewrite (put_none _ _ _ (FR _ (N.le_refl _))) in T.
    destruct (put false (suffix sep k (nextIon (view sep k st))) v st) as [st' b]. cbn in T. subst b. cbn. auto.
  - unfold wremIoSet, remIoSet. rewrite KN. exact (del_agrees sep k (suffix sep k 0) st true (proj1 W)).
  - unfold wremIoSetVal, remIoSetVal. rewrite KN, R3. cbn [bind]. unfold wset in R1. change (walk (unsuffix sep)) with (walk (splitOnKey sep)) in R1. rewrite (findVal_eq _ _ _ _ _ R1), <- R2.
    assert (KEYS : Forall (fun e => wkey e = suffix sep k (wnum e) /\ exists w, In (wkey e, w) st) r).
    { rewrite irangeMin_eq in R1 by apply W. pose proof (setRange_wf sep K (suffix sep k 0) st W) as W'.
      assert (SUB : forall e, In e (setRange (suffix sep k 0) st) -> In e st). { intros e IN. rewrite <- (before_setRange (suffix sep k 0) st). apply in_or_app. right. exact IN. }
      revert R1 W' SUB. clear - GS. revert r. induction (setRange (suffix sep k 0) st) as [|e l IH]; intros r R1 W' SUB; cbn [walk] in R1; [inversion R1; constructor|].
      apply (wf_cons sep K) in W'. destruct W' as (k' & n & v & -> & _ & _ & W' & _). rewrite split_onKey in R1 by exact GS. cbn [bind] in R1.
      destruct (beq_spec k' k) as [->|NE]; [|inversion R1; constructor]. destruct (walk (splitOnKey sep) k l) as [r'|]; cbn [bind] in R1; [|discriminate]. inversion R1; subst. constructor.
      - cbn. split; [reflexivity|]. exists v. apply SUB. left. reflexivity.
      - apply IH; [reflexivity|exact W'|]. intros e IN. apply SUB. right. exact IN. }
    assert (FE : match find (fun e => beq (wval e) v) r with
                 | Some e => find (fun e => beq v (snd e)) (map (fun e => (wnum e, wval e)) r) = Some (wnum e, wval e) /\ In e r
                 | None => find (fun e => beq v (snd e)) (map (fun e => (wnum e, wval e)) r) = None end).
    { clear. induction r as [|e r IH]; [reflexivity|]. cbn [find map snd]. replace (beq v (wval e)) with (beq (wval e) v) by (destruct (beq_spec (wval e) v), (beq_spec v (wval e)); congruence).
      destruct (beq (wval e) v); [split; [reflexivity|left; reflexivity]|]. destruct (find (fun e => beq (wval e) v) r); [|exact IH]. destruct IH as [I1 I2]. split; [exact I1|right; exact I2]. }
    destruct (find (fun e => beq (wval e) v) r) as [e|].
    + destruct FE as [FE IN]. rewrite FE. rewrite Forall_forall in KEYS. destruct (KEYS _ IN) as (KE & w & INS). rewrite KE in *. cbn [agrees marked fst snd].
      unfold dictDel. destruct (del (suffix sep k (wnum e)) st) as [st' b] eqn:DL. cbn [fst]. split; [reflexivity|]. f_equal.
      assert (HD : dictHas (suffix sep k (wnum e)) st = true).
      { unfold dictHas. destruct (get (suffix sep k (wnum e)) st) eqn:G; [reflexivity|]. exfalso. clear - INS G. induction st as [|[c x] st IH]; [destruct INS|]. cbn in G. destruct (beq_spec c (suffix sep k (wnum e))); [discriminate|].
        destruct INS as [X|INS]; [congruence|]. auto. }
      rewrite has_del, DL in HD. symmetry. exact HD.
    + rewrite FE. cbn. auto.
Qed.

Lemma sreads : forall st k ion, wf sep K st -> wgetIoSet sep k ion st = getIoSet sep k ion st /\ wgetIoSetLast sep k st = getIoSetLast sep k st /\ wcntIoSet sep k ion st = cntIoSet sep k ion st.
Proof.
  intros st k ion W. unfold wgetIoSet, getIoSet, wgetIoSetLast, getIoSetLast, wcntIoSet, cntIoSet, wset. rewrite !irangeMin_eq by apply W. change (walk (unsuffix sep)) with (walk (splitOnKey sep)).
  rewrite <- !walk_scan. destruct (isnil k); [auto|].
  split; [|split].
  - destruct (walk _ k (setRange (suffix sep k ion) st)); cbn [bind]; [|reflexivity]. rewrite map_map. reflexivity.
  - destruct (walk _ k (setRange (suffix sep k 0) st)) as [q|]; cbn [bind]; [|reflexivity]. rewrite fold_last, map_map. cbn [snd]. change (fun x => wval x) with (@wval N). destruct (olast (map (@wval N) q)); reflexivity.
  - destruct (walk _ k (setRange (suffix sep k ion) st)); cbn [bind]; [|reflexivity]. unfold len. rewrite map_length. reflexivity.
Qed.

(** ** Numbered entries *)
Lemma append_agrees : forall k v st, wf sep K st -> K k -> agrees (wappendOnVal sep k v st) (appendOnVal sep k v st) st.
Proof.
  intros k v st W KK. pose proof (K_ne sep K FL _ KK) as KN. unfold wappendOnVal, appendOnVal. rewrite KN. cbn iota.
  pose proof small_max as SM. rewrite le_part by apply W. set (mx := onKey sep k MaxON).
  assert (SPL : forall e, In e st -> exists k' n, fst e = onKey sep k' n /\ small n /\ K k'). { intros e IN. destruct W as [_ W]. rewrite Forall_forall in W. destruct (W _ IN) as (k' & n & A & B & C). exists k', n. auto. }
  assert (INB : forall e, In e (before mx st) -> In e st). { intros e IN. rewrite <- (before_setRange mx st). apply in_or_app. left. exact IN. }
  (* what follows the choice of the ordinal *)
  assert (FIN : forall on, agrees (match wputVal (onKey sep k on) v st with (st', d, Ok true) => (st', d, Ok on) | (st', d, Ok false) => (st', d, Err ValueError) | (st', d, Err e) => (st', d, Err e) end)
                  (let '(st', b) := put false (onKey sep k on) v st in raise_if (negb b) ValueError (Ok (st', on))) st).
  { intros on. rewrite wput_eq by (apply W || apply onKey_ne). unfold putVal. rewrite isnil_onKey. pose proof (put_false_same (onKey sep k on) v st) as PS.
    destruct (put false (onKey sep k on) v st) as [st' b]. cbn [fst snd] in *. destruct b; cbn; [auto|]. split; [exact (PS eq_refl)|reflexivity]. }
  (* the last entry before the greatest ordinal *)
  assert (LAST : forall X Y : Type, forall (f : N -> X) (z : X), True) by (intros; exact Logic.I). clear LAST.
  assert (LB : forall ck w, olast (before mx st) = Some (ck, w) -> exists k' n, ck = onKey sep k' n /\ (k' = k -> n < MaxON)).
  { intros ck w OL. destruct (olast_cases _ (before mx st)) as [(E & X)|(a & x & E & X)]; rewrite X in OL; [discriminate|]. inversion OL; subst x.
    assert (IN : In (ck, w) (before mx st)) by (rewrite E; apply in_or_app; right; left; reflexivity). destruct (SPL _ (INB _ IN)) as (k' & n & A & B & C). exists k', n. split; [exact A|]. intros ->.
    pose proof (takewhile_all _ (fun e : bytes * bytes => bltb (fst e) mx) st) as T. rewrite Forall_forall in T. specialize (T _ IN). cbn [fst] in T. cbn [fst] in A. rewrite A in T. unfold mx in T. rewrite onKey_lt in T by assumption. apply N.ltb_lt. exact T. }
  destruct (setRange mx st) as [|[ck w] rest] eqn:SR.
  - rewrite app_nil_r. assert (E : before mx st = st) by (pose proof (before_setRange mx st) as B; rewrite SR, app_nil_r in B; exact B). rewrite E in *.
    destruct (olast st) as [[ck w]|]; [|apply FIN]. destruct (LB ck w eq_refl) as (k' & n & -> & LT). rewrite split_onKey by exact GS. cbn [bind].
    destruct (beq_spec k' k) as [->|NE]; [|apply FIN]. destruct (N.leb_spec MaxON n) as [Q|Q]; [specialize (LT eq_refl); lia|]. apply FIN.
  - assert (INR : In (ck, w) st). { rewrite <- (before_setRange mx st), SR. apply in_or_app. right. left. reflexivity. }
    destruct (SPL _ INR) as (k' & n & A & B & C). cbn [fst] in A. subst ck. rewrite split_onKey by exact GS. cbn [bind]. destruct (beq_spec (onKey sep k' n) mx) as [E|NE].
    + unfold mx in E. apply onKey_inj in E; [|exact GS]. destruct E as [-> ->]. rewrite olast_app, split_onKey by exact GS. cbn [bind]. rewrite beq_refl. rewrite N.leb_refl. cbn. auto.
    + rewrite app_nil_r. assert (NK : k' <> k).
      { intros ->. pose proof (setRange_ge sep K mx st W) as GE. rewrite SR in GE. inversion GE; subst. cbn [fst] in H1. unfold mx in H1. rewrite onKey_lt in H1 by assumption. apply N.ltb_ge in H1. pose proof (max_small _ B).
        apply NE. unfold mx. f_equal. lia. }
      destruct (beq_spec k' k) as [X|_]; [congruence|]. destruct (olast (before mx st)) as [[c2 w2]|]; [|apply FIN].
      destruct (LB c2 w2 eq_refl) as (k2 & n2 & -> & LT). rewrite split_onKey by exact GS. cbn [bind]. destruct (beq_spec k2 k) as [->|NE2]; [|apply FIN]. destruct (N.leb_spec MaxON n2) as [Q|Q]; [specialize (LT eq_refl); lia|]. apply FIN.
Qed.
Lemma oop_agrees : forall o st, wf sep K st -> K (oop_key o) -> fst (fst (wdo_oop sep o st)) = fst (do_oop sep o st) /\ snd (wdo_oop sep o st) = Ok (snd (do_oop sep o st)).
Proof.
  intros o st W KK. pose proof (K_ne sep K FL _ KK) as KN. destruct o as [k n v|k n v|k v|k n|k n]; cbn [wdo_oop do_oop oop_key] in *.
  - unfold wputOnVal, putOnVal. rewrite KN, wput_eq by (apply W || apply onKey_ne). unfold putVal. rewrite isnil_onKey. destruct (put false (onKey sep k n) v st). cbn. auto.
  - unfold wpinOnVal, pinOnVal. rewrite KN, wset_eq by apply onKey_ne. unfold setVal. rewrite isnil_onKey. destruct (put true (onKey sep k n) v st). cbn. auto.
  - pose proof (append_agrees k v st W KK) as A. destruct (wappendOnVal sep k v st) as [[s d] x]. destruct (appendOnVal sep k v st) as [[s2 m]|e]; cbn in A; destruct A as [A1 A2]; subst; cbn; auto.
  - unfold wremOn, remOn. rewrite KN, wrem_eq. unfold remVal. rewrite isnil_onKey. destruct (del (onKey sep k n) st). cbn. auto.
  - unfold wremOnAll, remOnAll. rewrite KN. pose proof (del_agrees sep k (onKey sep k n) st true (proj1 W)) as A. unfold marked.
    destruct (walk (splitOnKey sep) k (irangeMin (onKey sep k n) st)) as [r|e]; [destruct (isnil r)|];
      destruct ('(r0, b) <- scanDel sep k (setRange (onKey sep k n) st);; Ok (before (onKey sep k n) st ++ r0, b)) as [[s2 b]|e2]; cbn in A; destruct A as [A1 A2]; subst; cbn; try (inversion A2; subst); auto.
Qed.
Lemma wreads : forall st k n, sorted st -> k <> [] ->
  wgetOnVal sep k n st = Ok (getOnVal sep k n st) /\ wgetOnAll sep k n st = getOnAll sep k n st /\ wcntOnAll sep k n st = cntOnAll sep k n st.
Proof.
  intros st k n S NE. assert (KN : isnil k = false) by (apply isnil_false; exact NE). unfold wgetOnVal, getOnVal, wgetVal, wgetOnAll, getOnAll, wcntOnAll, cntOnAll. rewrite KN, isnil_onKey, !irangeMin_eq by exact S. cbn [orb].
  split; [reflexivity|]. split; [apply walk_scan|]. f_equal.
Qed.
Lemma wreadsDb : forall st t, sorted st ->
  wgetOnTop sep t st = getOnTop sep t st /\ wgetOnDb sep st = getOnDb sep st /\ wcntOnAll sep [] 0 st = cntOnDb sep st /\ wgetTopIoSet sep t st = getTopIoSet sep t st /\ wgetOnTopIoSet sep t st = getOnTopIoSet sep t st.
Proof.
  intros st t S. unfold wgetOnTop, getOnTop, wgetOnDb, getOnDb, wcntOnAll, cntOnDb, wgetOnTopIoSet, getOnTopIoSet, wgetTopIoSet, getTopIoSet. rewrite wtop_eq by exact S. cbn [isnil]. rewrite irangeMin_eq by exact S.
  split; [reflexivity|]. split; [reflexivity|]. split; [|split; reflexivity]. f_equal. set (l := setRange [] st). clearbody l. clear S t. induction l as [|[ck v] l IH]; [reflexivity|]. cbn [takewhile fst].
  destruct (splitOnKey sep ck) as [[k m]|]; [|reflexivity]. change (true || beq k []) with true. cbn iota. f_equal. exact IH.
Qed.
End Flat.
