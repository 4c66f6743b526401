(** Properties of configuration files. *)
From Verif Require Import Prelude CfModel CfSpec CfProofs CfThms.
From Coq Require Import Lia.
Open Scope N_scope.

(** C145.  What was put is what get gives, at once and after the file is opened again; also if it was put as JSON and is got as
    HJSON. *)
Theorem C145_back : forall D (C : codec D), faithful C -> forall F d h F', put C F d h = (F', None) ->
  get C F' h = inl d /\ get C (reopened F' (f_disk F')) h = inl d /\
  (superset C -> h = Some false -> get C F' (Some true) = inl d).
Proof. exact c145_back. Qed.
Print Assumptions C145_back.

Example C145_back_example : faithful C9 /\ superset C9 /\ exists F', put C9 F5 7 (Some false) = (F', None) /\ f_disk F' = [55; 10].
Proof. split; [exact (proj1 c9_faithful)|]. split; [exact (proj2 c9_faithful)|]. eexists. split; reflexivity. Qed.

(** C145.  A file that is not open is not changed, and neither put nor get claims success. *)
Theorem C145_closed : forall D (C : codec D) F d h, f_open F = false ->
  put C F d h = (F, Some NotOpen) /\ get C F h = inr NotOpen /\ forall s, In s (fst (puts C F d h)) -> s = f_disk F.
Proof. exact c145_closed. Qed.
Print Assumptions C145_closed.

Example C145_closed_example : put C9 (mkCfile false EJson false [53; 10]) 7 None = (mkCfile false EJson false [53; 10], Some NotOpen).
Proof. reflexivity. Qed.

(** C145, refuted for put that fails: if the data cannot be serialised, or the extension is none of the three, the file is empty
    afterwards, and get says, without error, that the configuration is empty. *)
Theorem C145_failed_refuted : (forall D (C : codec D) F d h F' e h', f_open F = true -> put C F d h = (F', Some e) -> f_disk F' = [] /\ get C F' h' = inl (empty C)) /\
  get C9 F5 None = inl 5 /\ snd (put C9 F5 10 None) = Some BadData /\ get C9 (fst (put C9 F5 10 None)) None = inl 0.
Proof. exact c145_failed_refuted. Qed.
Print Assumptions C145_failed_refuted.

(** C145, refuted for crashes: in every put to an open file there is a point at which a crash leaves an empty file, which get reads as an empty
    configuration, neither the old nor the new. *)
Theorem C145_crash_refuted : (forall D (C : codec D) F d h h', f_open F = true -> exists s, In s (fst (puts C F d h)) /\ get C (reopened F s) h' = inl (empty C)) /\
  get C9 F5 None = inl 5 /\ snd (put C9 F5 7 None) = None /\ get C9 (fst (put C9 F5 7 None)) None = inl 7 /\ In [] (fst (puts C9 F5 7 None)) /\
  get C9 (reopened F5 []) None = inl 0.
Proof. exact c145_crash_refuted. Qed.
Print Assumptions C145_crash_refuted.

(** C145.  A crash leaves the old content, or a beginning of the new.  Partial: it should leave one of them whole. *)
Theorem C145_crash_partial : forall D (C : codec D) F d h F' s, put C F d h = (F', None) -> In s (fst (puts C F d h)) ->
  s = f_disk F \/ exists t, f_disk F' = s ++ t.
Proof. exact c145_crash_partial. Qed.
Print Assumptions C145_crash_partial.

Example C145_crash_example : fst (puts C9 F5 7 None) = [[53; 10]; []; []; [55]; [55; 10]].
Proof. reflexivity. Qed.

(** C145.  Without the argument human the setting of the Configer counts, for put and get alike. *)
Theorem C145_setting : forall D (C : codec D) F d, puts C F d None = puts C F d (Some (f_human F)) /\ get C F None = get C F (Some (f_human F)) /\
  (f_open F = true -> f_ext F = EJson -> forall s, enc C (if f_human F then Hjson else Json) d = Some s -> f_disk (fst (put C F d None)) = s).
Proof. exact c145_setting. Qed.
Print Assumptions C145_setting.

Example C145_setting_example : f_disk (fst (put C9 F5 7 None)) = [55; 10].
Proof. reflexivity. Qed.
