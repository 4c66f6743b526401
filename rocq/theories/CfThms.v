(** Properties of configuration files. *)
From Coq Require Import Lia.
From Verif Require Import Prelude CfModel CfSpec CfProofs.
Open Scope N_scope.

(** A codec of numbers for the examples; numbers above 9 cannot be serialised. *)
Definition C9 : codec N := mkCodec N (fun m d => if d <=? 9 then Some [48 + d; 10] else None) (fun m s => match s with [c; _] => Some (c - 48) | _ => None end) 0.
Lemma c9_faithful : faithful C9 /\ superset C9.
Proof.
  split.
  - intros m d s. cbn [enc dec C9]. destruct (d <=? 9) eqn:E; [|discriminate]. intros Q. injection Q as <-. split; [discriminate|]. change (Some (48 + d - 48) = Some d). rewrite N.add_comm, N.add_sub. reflexivity.
  - intros d s. cbn [enc dec C9]. destruct (d <=? 9) eqn:E; [|discriminate]. intros Q. injection Q as <-. change (Some (48 + d - 48) = Some d). rewrite N.add_comm, N.add_sub. reflexivity.
Qed.
Definition F5 : cfile := mkCfile true EJson false [53; 10].

Lemma c145_back : forall D (C : codec D), faithful C -> forall F d h F', put C F d h = (F', None) ->
  get C F' h = inl d /\ get C (reopened F' (f_disk F')) h = inl d /\
  (superset C -> h = Some false -> get C F' (Some true) = inl d).
Proof.
  intros D C FA F d h F' P. destruct (put_ok D C F d h F' P) as (O1 & m & s & M & E & ->). destruct (FA m d s E) as (NE & DE).
  assert (X : get C (mkCfile true (f_ext F) (f_human F) s) h = inl d).
  { unfold get. cbn [f_open f_disk]. destruct s as [|c s]; [destruct (NE eq_refl)|]. change (fmtOf _ h) with (fmtOf F h). rewrite M, DE. reflexivity. }
  split; [exact X|]. split; [exact X|]. intros SU ->. unfold get. cbn [f_open f_disk]. destruct s as [|c s]; [destruct (NE eq_refl)|].
  unfold fmtOf, humanOf in *. cbn [f_ext]. destruct (f_ext F); inversion M; subst.
  - rewrite (SU d (c :: s) E). reflexivity.
  - rewrite DE. reflexivity.
  - rewrite DE. reflexivity.
Qed.


Lemma c145_closed : forall D (C : codec D) F d h, f_open F = false ->
  put C F d h = (F, Some NotOpen) /\ get C F h = inr NotOpen /\ forall s, In s (fst (puts C F d h)) -> s = f_disk F.
Proof.
  intros D C F d h O1. unfold put, puts, get. rewrite O1. cbn. split; [destruct F; cbn in *; subst; reflexivity|]. split; [reflexivity|]. intros s [<-|[]]. reflexivity.
Qed.


Lemma c145_failed_refuted : (forall D (C : codec D) F d h F' e h', f_open F = true -> put C F d h = (F', Some e) -> f_disk F' = [] /\ get C F' h' = inl (empty C)) /\
  get C9 F5 None = inl 5 /\ snd (put C9 F5 10 None) = Some BadData /\ get C9 (fst (put C9 F5 10 None)) None = inl 0.
Proof.
  split; [|split; [reflexivity|split; reflexivity]].
  intros D C F d h F' e h' O1. unfold put, puts, get. rewrite O1. destruct (fmtOf F h) as [m|]; [destruct (enc C m d) as [s|]|]; cbn [fst snd]; intros Q; inversion Q; subst; split; reflexivity.
Qed.

Lemma c145_crash_refuted : (forall D (C : codec D) F d h h', f_open F = true -> exists s, In s (fst (puts C F d h)) /\ get C (reopened F s) h' = inl (empty C)) /\
  get C9 F5 None = inl 5 /\ snd (put C9 F5 7 None) = None /\ get C9 (fst (put C9 F5 7 None)) None = inl 7 /\ In [] (fst (puts C9 F5 7 None)) /\
  get C9 (reopened F5 []) None = inl 0.
Proof.
  split.
  - intros D C F d h h' O1. exists []. split; [|reflexivity]. unfold puts. rewrite O1. destruct (fmtOf F h) as [m|]; [destruct (enc C m d) as [s|]|]; cbn; auto.
  - split; [reflexivity|]. split; [reflexivity|]. split; [reflexivity|]. split; [cbn; auto|reflexivity].
Qed.

Lemma c145_crash_partial : forall D (C : codec D) F d h F' s, put C F d h = (F', None) -> In s (fst (puts C F d h)) ->
  s = f_disk F \/ exists t, f_disk F' = s ++ t.
Proof.
  intros D C F d h F' s P I1. destruct (put_ok D C F d h F' P) as (O1 & m & q & M & E & ->). unfold puts in I1. rewrite O1, M, E in I1. cbn [fst f_disk] in *.
  destruct I1 as [<-|[<-|I1]]; [left; reflexivity|right; exists q; reflexivity|]. apply in_map_iff in I1. destruct I1 as (n & <- & _). right. exists (skipn n q). symmetry. apply firstn_skipn.
Qed.


Lemma c145_setting : forall D (C : codec D) F d, puts C F d None = puts C F d (Some (f_human F)) /\ get C F None = get C F (Some (f_human F)) /\
  (f_open F = true -> f_ext F = EJson -> forall s, enc C (if f_human F then Hjson else Json) d = Some s -> f_disk (fst (put C F d None)) = s).
Proof.
  intros D C F d. split; [reflexivity|]. split; [reflexivity|]. intros O1 E1 s E. unfold put, puts. rewrite O1. unfold fmtOf. rewrite E1. cbn [humanOf]. rewrite E. cbn [fst f_disk]. apply last_prefixes.
Qed.

