(** Contacts and somebody else who writes: what is read was written. *)
From Verif Require Import Prelude ThModel ThProofs JsonModel JsonProofs Lex DbModel DbProofs OgModel OgSpec OgProofs.
Ltac Zify.zify_post_hook ::= Z.div_mod_to_equations.
Open Scope N_scope.

Section G.
Variable E : env.

(** a plan without signatures, or with one, of the data written next and not touched later *)
Definition nosig (ws : list write) : Prop := forall q cg, ~ In (WSig q cg) ws.
Definition onlyf (ws : list write) : Prop := Forall (fun w => match w with WFld _ _ | DFld _ => True | _ => False end) ws.
Definition form (p : bytes) (ws : list write) : Prop :=
  nosig ws \/ exists raw u v, ws = u ++ WSig p (sgn E raw) :: WDat p raw :: v /\ nosig u /\ onlyf v /\ p <> [] /\ long p = false.
Lemma onlyf_nosig ws : onlyf ws -> nosig ws.
Proof. intros H q cg I. unfold onlyf in H. rewrite Forall_forall in H. apply (H _ I). Qed.
Lemma onlyf_keeps ws : forall b, onlyf ws -> sig (run ws b) = sig b /\ dat (run ws b) = dat b.
Proof.
  induction ws as [|w ws IH]; intros b H; [auto|]. inversion H; subst. cbn [run fold_left]. destruct (IH (wr b w) H3) as [A B]. unfold run in *. rewrite A, B. destruct w; try contradiction; auto.
Qed.
Lemma pins_only p : forall l, onlyf (fst (pins p l)).
Proof.
  induction l as [|[f v] l IH]; [constructor|]. cbn [pins]. destruct v as [t|j]; [|constructor]. destruct (long (fkey p f)); [constructor|]. destruct (pins p l) as [ws r]. cbn in *. constructor; [exact Logic.I|exact IH].
Qed.
Lemma getc_pok b p o : getc E b p = Ok o -> p <> [] /\ long p = false.
Proof. unfold getc, load. destruct p as [|x p]; [discriminate|]. cbn [isnil]. destruct (long (x :: p)); [discriminate|]. intros _. split; [discriminate|reflexivity]. Qed.
Lemma nosig_nil : nosig []. Proof. intros q cg []. Qed.
Lemma update_form b p d : form p (fst (update E b p d)).
Proof.
  unfold update. destruct (getc E b p) as [o|e] eqn:G; [|left; apply nosig_nil]. destruct (getc_pok _ _ _ G) as [A B]. pose proof (pins_only p d) as O. destruct (pins p d) as [ws r]. cbn [fst] in *.
  right. eexists _, [], ws. split; [reflexivity|]. split; [apply nosig_nil|]. auto.
Qed.
Lemma nosig_app u v : nosig u -> nosig v -> nosig (u ++ v).
Proof. intros A B q cg I. apply in_app_or in I. destruct I; [eapply A|eapply B]; eauto. Qed.
Lemma form_pre p u ws : nosig u -> form p ws -> form p (u ++ ws).
Proof.
  intros N [F|(raw & x & y & -> & A & B & C)]; [left; apply nosig_app; assumption|]. right. exists raw, (u ++ x), y. rewrite app_assoc. split; [reflexivity|]. split; [apply nosig_app; assumption|auto].
Qed.
Lemma form_post p v ws : onlyf v -> form p ws -> form p (ws ++ v).
Proof.
  intros N [F|(raw & x & y & -> & A & B & C)]; [left; apply nosig_app; [exact F|apply onlyf_nosig; exact N]|]. right. exists raw, x, (y ++ v). rewrite <- app_assoc. split; [reflexivity|]. split; [exact A|].
  split; [apply Forall_app; auto|exact C].
Qed.
Lemma replace_form b p d : form p (fst (replace E b p d)).
Proof.
  unfold replace, andThen, remove. destruct (long p); [left; apply nosig_nil|]. destruct (update E (run [DSig p; DDat p; DTop p] b) p d) as [ws r] eqn:U. cbn [fst]. apply form_pre.
  - intros q cg [H|[H|[H|[]]]]; discriminate H.
  - pose proof (update_form (run [DSig p; DDat p; DTop p] b) p d) as F. rewrite U in F. exact F.
Qed.
Lemma plan_form b o : form (whom o) (fst (plan E b o)).
Proof.
  destruct o as [p d|p d|p f v|p f|p]; cbn [plan whom].
  - apply update_form.
  - apply replace_form.
  - unfold set. destruct (getc E b p) as [o|]; [|left; apply nosig_nil]. match goal with |- context [replace E b p ?d] => pose proof (replace_form b p d) as F; destruct (replace E b p d) as [ws [u|e]]; cbn [andThen fst] in * end; [|exact F].
    pose proof (pins_only p [(f, v)]) as O. destruct (pins p [(f, v)]) as [ws' r]. cbn [fst] in *. apply form_post; assumption.
  - unfold unset. destruct (getc E b p) as [[d|]|]; [|left; apply nosig_nil|left; apply nosig_nil]. destruct (dget d f); [|left; apply nosig_nil].
    match goal with |- context [replace E b p ?d] => pose proof (replace_form b p d) as F; destruct (replace E b p d) as [ws [u|e]]; cbn [andThen fst] in * end; [|exact F].
    destruct (long (fkey p f)); cbn [fst]; [rewrite app_nil_r; exact F|]. apply form_post; [constructor; [exact Logic.I|constructor]|exact F].
  - left. unfold remove. destruct (long p); [apply nosig_nil|]. intros q cg [H|[H|[H|[]]]]; discriminate H.
Qed.
Lemma plan_sig b o q cg : In (WSig q cg) (fst (plan E b o)) -> q = whom o /\ exists raw, cg = sgn E raw /\
  get q (dat (step E b o)) = Some raw /\ get q (sig (step E b o)) = Some cg /\ q <> [] /\ long q = false.
Proof.
  intros H. unfold step. destruct (plan_form b o) as [N|(raw & u & v & EQ & N & O & A & B)]; [exfalso; eapply N; eauto|]. rewrite EQ in *. apply in_app_or in H. destruct H as [H|H]; [exfalso; eapply N; eauto|].
  destruct H as [H|[H|H]]; [|discriminate H|exfalso; apply (onlyf_nosig _ O _ _ H)]. injection H as <- <-. split; [reflexivity|]. exists raw. split; [reflexivity|].
  rewrite run_app. cbn [run fold_left]. change (fold_left wr v ?x) with (run v x). destruct (onlyf_keeps v (wr (wr (run u b) (WSig (whom o) (sgn E raw))) (WDat (whom o) raw)) O) as [X Y].
  fold (run u b). rewrite X, Y. cbn [wr dat sig]. split; [apply get_sput_same; exact A|]. split; [apply get_sput_same; exact A|]. auto.
Qed.
Lemma wr_sig_in b w e : In e (sig (wr b w)) -> In e (sig b) \/ exists p cg, e = (p, cg) /\ w = WSig p cg.
Proof.
  destruct w; cbn; intros H; auto.
  - apply sput_in in H. destruct H as [->|H]; [right; eauto|auto].
  - left. eapply del_fst_in; eauto.
Qed.
Lemma run_sig_in ws : forall b e, In e (sig (run ws b)) -> In e (sig b) \/ exists p cg, e = (p, cg) /\ In (WSig p cg) ws.
Proof.
  induction ws as [|w ws IH]; intros b e H; [auto|]. cbn [run fold_left] in H. apply (IH (wr b w)) in H. destruct H as [H|(p & cg & -> & H)]; [|right; exists p, cg; split; [reflexivity|right; exact H]].
  apply wr_sig_in in H. destruct H as [H|(p & cg & -> & ->)]; [auto|]. right. exists p, cg. split; [reflexivity|left; reflexivity].
Qed.
Lemma hist_sig S l b : hist E S empty l b -> forall p cg, In (p, cg) (sig b) ->
  (forall raw, vfy E raw cg = false) \/ (exists r, S r /\ cg = sgn E r) \/ exists b' o q, In (b', o) l /\ In (WSig q cg) (fst (plan E b' o)).
Proof.
  induction 1 as [|l b o n H IH|l b w H IH W]; intros p cg I.
  - contradiction.
  - unfold crash in I. apply run_sig_in in I. destruct I as [I|(q & g & [= -> ->] & I)].
    + destruct (IH _ _ I) as [A|[A|(b' & o' & q & A & B)]]; [auto|auto|]. right. right. exists b', o', q. split; [apply in_or_app; auto|exact B].
    + right. right. exists b, o, q. split; [apply in_or_app; right; left; reflexivity|]. rewrite <- (firstn_skipn n). apply in_or_app. left. exact I.
  - apply wr_sig_in in I. destruct I as [I|(q & g & [= -> ->] & ->)]; [eapply IH; eauto|]. eapply W; reflexivity.
Qed.
Lemma other_field (d : dict) p q : forall f, f <> [105; 100] -> dget (dset d ID (Txt p)) f = dget (dset d ID (Txt q)) f.
Proof. intros f N. rewrite !dget_dset. apply beq_neq in N. change [105; 100] with ID in N. rewrite N. reflexivity. Qed.
Lemma genuine S l b p d : unforgeable E -> hist E S empty l b -> getc E b p = Ok (Some d) ->
  (exists r e, S r /\ loads E r = Ok e /\ forall f, f <> [105; 100] -> dget d f = dget e f) \/
  exists b' o e, In (b', o) l /\ getc E (step E b' o) (whom o) = Ok (Some e) /\ forall f, f <> [105; 100] -> dget d f = dget e f.
Proof.
  intros [U1 U2] H G. pose proof (getc_pok _ _ _ G) as [A B]. unfold getc, load in G. destruct p as [|x p]; [congruence|]. cbn [isnil] in G. rewrite B in G.
  destruct (get (x :: p) (dat b)) as [raw|]; [|discriminate G]. destruct (get (x :: p) (sig b)) as [cg|] eqn:GS; [|discriminate G]. destruct (vfy E raw cg) eqn:V; [|discriminate G].
  destruct (loads E raw) as [d0|] eqn:L; [|discriminate G]. cbn in G. injection G as <-. pose proof (U1 _ _ V) as C. apply get_In in GS. destruct (hist_sig S l b H _ _ GS) as [Z|[(r & R1 & R2)|(b' & o & q & I1 & I2)]].
  - rewrite Z in V. discriminate V.
  - left. exists raw, d0. rewrite C in R2. apply U2 in R2. subst r. split; [exact R1|]. split; [exact L|]. intros f N. rewrite dget_dset. apply beq_neq in N. change [105; 100] with ID in N. rewrite N. reflexivity.
  - right. destruct (plan_sig _ _ _ _ I2) as (-> & raw' & C' & D1 & D2 & D3 & D4). rewrite C in C'. apply U2 in C'. subst raw'.
    exists b', o, (dset d0 ID (Txt (whom o))). split; [exact I1|]. split; [|intros f N; apply other_field; exact N].
    unfold getc, load. destruct (whom o) as [|y q]; [congruence|]. cbn [isnil]. rewrite D4, D1, D2, V, L. reflexivity.
Qed.
End G.
