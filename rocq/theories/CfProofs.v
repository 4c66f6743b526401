(** Proofs about configuration files. *)
From Coq Require Import Lia.
From Verif Require Import Prelude CfModel CfSpec.
Open Scope N_scope.

Lemma last_prefixes : forall (s x : bytes) l, last (l ++ map (fun n => firstn n s) (seq 0 (S (List.length s)))) x = s.
Proof.
  intros s x l. rewrite seq_S. rewrite map_app. rewrite app_assoc. cbn [map]. rewrite last_last. cbn [Nat.add]. apply firstn_all.
Qed.
Lemma put_ok : forall D (C : codec D) F d h F', put C F d h = (F', None) -> f_open F = true /\ exists m s, fmtOf F h = Some m /\ enc C m d = Some s /\ F' = mkCfile true (f_ext F) (f_human F) s.
Proof.
  intros D C F d h F'. unfold put, puts. destruct (f_open F); [|discriminate]. destruct (fmtOf F h) as [m|]; [|discriminate]. destruct (enc C m d) as [s|] eqn:E; [|discriminate].
  cbn [fst snd]. rewrite last_prefixes. intros Q. inversion Q; subst. split; [reflexivity|]. exists m, s. auto.
Qed.
