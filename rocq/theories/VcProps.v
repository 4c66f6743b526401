(** Credential verification *)
From Verif Require Import Prelude B64Model MatterModel SubsModel ThModel ThProofs KelModel TlModel TlSpec TlProofs TlInv TlThms VcModel VcSpec VcTel VcProofs VcInv VcLive VcThms.
Open Scope N_scope.

(** ** Saved credentials *)
Theorem C62_saved_grounded : forall E cf X h, let d := vruns E cf X h vdb0 in
  exists o, NoDup o /\ (forall s, saved d s = true <-> In s o)
    /\ forall l1 s l2, o = l1 ++ s :: l2 -> exists c h1 h2, h = h1 ++ h2 /\ sent h c /\ c_said c = s
         /\ acceptable X (truns E cf (telOf h1) tdb0) (fun s => In (VSchema s) h1) l1 (creds d) c
         /\ (oneCred h -> creds d s = Some c).
Proof. exact c62_saved_grounded. Qed.
Print Assumptions C62_saved_grounded.

Example C62_saved_grounded_ex : let d := yRun (yHist ++ [VSweep 10; VSweep 11]) in
  saved d 100 = true /\ saved d 200 = true /\ option_map c_said (creds d 200) = Some 200
  /\ saved (yRun (yHist ++ [yTel (xrev 100 1 102 10 101) 3; VSweep 10; VSweep 11])) 200 = false
  /\ saved (yRun (VCred (mkCred [8] 200 20 5 (Some 3) 8 (Some [Node 100 [I2I] None])) yAnc 5 :: tl (yHist ++ [VSweep 10; VSweep 11]))) 200 = false.
Proof. vm_compute. repeat split. Qed.

Theorem C62_saved_kept : forall E cf X h h' s, saved (vruns E cf X h vdb0) s = true ->
  saved (vruns E cf X (h ++ h') vdb0) s = true /\ exists c, creds (vruns E cf X h vdb0) s = Some c /\ creds (vruns E cf X (h ++ h') vdb0) s = Some c.
Proof. exact c62_saved_kept. Qed.
Print Assumptions C62_saved_kept.

Example C62_saved_kept_ex : saved (yRun (yHist ++ [VSweep 10; VSweep 11])) 100 = true
  /\ saved (yRun ((yHist ++ [VSweep 10; VSweep 11]) ++ [yTel (xrev 100 1 102 10 101) 3; VSweep 12])) 100 = true.
Proof. vm_compute. split; reflexivity. Qed.

(** a variant that is not valid for its schema is kept as the saved credential: it came first, while
    the registry was unknown, and was never verified *)
Theorem C62_variant_refuted : exists E cf X h s c, let d := vruns E cf X h vdb0 in
  saved d s = true /\ creds d s = Some c /\ validS X (c_schema c) (c_raw c) = false.
Proof. exact c62_variant_refuted. Qed.
Print Assumptions C62_variant_refuted.

(** an edge without operators to a credential issued to somebody else is accepted when the far
    credential came first as a variant that hides its issuee *)
Theorem C62_hidden_issuee_refuted : exists E cf X h c f n, let d := vruns E cf X h vdb0 in
  saved d (c_said c) = true /\ creds d (c_said c) = Some c /\ c_edges c = Some [Node n [] None]
  /\ sent h f /\ c_said f = n /\ (exists i, c_issuee f = Some i /\ i <> c_issuer c).
Proof. exact c62_hidden_issuee_refuted. Qed.
Print Assumptions C62_hidden_issuee_refuted.

(** ** Authority of the issuer *)
Theorem C63_issued_somewhere_partial : forall E cf X h s, saved (vruns E cf X h vdb0) s = true -> (forall r, delivered (telOf h) r -> t_ilk r = Vcp -> t_pre r <> s) ->
  exists e ii, delivered (telOf h) e /\ t_pre e = s /\ t_sn e = 0 /\ (t_ilk e = Iss \/ t_ilk e = Bis) /\ controls (telOf h) (registryOf e) ii /\ anchoredIn (telOf h) ii e.
Proof. exact c63_issued_somewhere_partial. Qed.
Print Assumptions C63_issued_somewhere_partial.

Example C63_issued_somewhere_partial_ex : saved (yRun (yHist ++ [VSweep 10; VSweep 11])) 200 = true
  /\ (forall r, delivered (telOf (yHist ++ [VSweep 10; VSweep 11])) r -> t_ilk r = Vcp -> t_pre r <> 200).
Proof.
  split; [vm_compute; reflexivity|]. intros r (v & a & bs & H) K. cbn in H. repeat (destruct H as [H|H]; [injection H as _ <- _ _; cbn in K; try discriminate K; cbn; discriminate|]). destruct H.
Qed.

(** A credential that names 9 as its issuer is saved although it is in a registry of 1 and nothing was
    ever anchored by 9. *)
Theorem C63_issuer_refuted : exists E cf X h c, let d := vruns E cf X h vdb0 in
  oneCred h /\ saved d (c_said c) = true /\ creds d (c_said c) = Some c /\ c_issuer c = 9
  /\ (forall ii, controls (telOf h) (c_reg c) ii -> ii = 1) /\ (forall v k, viewIn (telOf h) v -> v 9 k = None).
Proof. exact c63_issuer_refuted. Qed.
Print Assumptions C63_issuer_refuted.

(** A credential that names registry 10 of issuer 1 is saved although its only event is in registry 20,
    of 2. *)
Theorem C63_registry_refuted : exists E cf X h c, let d := vruns E cf X h vdb0 in
  oneCred h /\ saved d (c_said c) = true /\ creds d (c_said c) = Some c /\ c_issuer c = 1 /\ c_reg c = 10
  /\ (forall ii, controls (telOf h) (c_reg c) ii -> ii = c_issuer c)
  /\ (forall e, delivered (telOf h) e -> t_pre e = c_said c -> registryOf e = 20) /\ (forall ii, controls (telOf h) 20 ii -> ii = 2).
Proof. exact c63_registry_refuted. Qed.
Print Assumptions C63_registry_refuted.

(** ** Waiting credentials *)
Theorem C64_supplied_are_saved : forall E cf X h cs ts, oneCred h -> supplied E cf X h cs -> timely X (h ++ map VSweep ts) cs -> (List.length cs <= List.length ts)%nat ->
  forall c, In c cs -> saved (vruns E cf X (h ++ map VSweep ts) vdb0) (c_said c) = true.
Proof. exact c64_supplied_are_saved. Qed.
Print Assumptions C64_supplied_are_saved.

Example C64_supplied_are_saved_ex : oneCred yHist /\ supplied xE xCf yX yHist [yFar; yNear [I2I]] /\ timely yX (yHist ++ map VSweep [10; 11]) [yFar; yNear [I2I]]
  /\ saved (yRun yHist) 100 = false /\ saved (yRun yHist) 200 = false.
Proof.
  assert (Dl : forall e, delivered (telOf yHist) e -> In e [xvcp 20 2; xiss 200 201 20; xvcp 10 1; xiss 100 101 10]).
  { intros e (v & a & bs & H). cbn in H. repeat (destruct H as [H|H]; [injection H as _ <- _ _; cbn; tauto|]). destruct H. }
  split; [|split; [split|split; [split|]]].
  - apply (yOne [yFar; yNear [I2I]]); [|ysent]. intros x [<-|[<-|[]]] y [<-|[<-|[]]] H; try reflexivity; discriminate.
  - intros c [<-|[<-|[]]].
    + split; [exists yAnc, 6; cbn; tauto|]. split; [discriminate|]. split.
      * intros e H P. apply Dl in H. cbn in H. destruct H as [<-|[<-|[<-|[<-|[]]]]]; try discriminate P. reflexivity.
      * right. intros r H K P. apply Dl in H. cbn in H. destruct H as [<-|[<-|[<-|[<-|[]]]]]; try discriminate K; reflexivity.
    + split; [exists yAnc, 5; cbn; tauto|]. split; [discriminate|]. split.
      * intros e H P. apply Dl in H. cbn in H. destruct H as [<-|[<-|[<-|[<-|[]]]]]; try discriminate P. reflexivity.
      * right. intros r H K P. apply Dl in H. cbn in H. destruct H as [<-|[<-|[<-|[<-|[]]]]]; try discriminate K; reflexivity.
  - intros l1 c l2 H. destruct l1 as [|a [|b [|q l1]]]; cbn in H.
    + injection H as <- _. constructor; [vm_compute; discriminate|vm_compute; discriminate|cbn; tauto|reflexivity|]. exists []. split; [reflexivity|intros e []].
    + injection H as <- <- _. constructor; [vm_compute; discriminate|vm_compute; discriminate|cbn; tauto|reflexivity|]. eexists. split; [reflexivity|]. intros e [<-|[<-|[]]]; [left; reflexivity|]. right.
      exists 100, [I2I], None, yFar. split; [reflexivity|]. split; [cbn; tauto|]. split; [reflexivity|]. split.
      * constructor; [reflexivity| | | |].
        -- intros Q. discriminate (Q I2I (or_introl eq_refl)).
        -- intros [Q|[]]. discriminate.
        -- intros [Q|[]]. discriminate.
        -- intros (k1 & k2 & Q & _). destruct k1 as [|z [|z' k1]]; cbn in Q; discriminate.
      * split; [vm_compute; discriminate|]. split; [vm_compute; reflexivity|]. intros s' Q. discriminate.
    + injection H as _ _ H. discriminate.
    + injection H as _ _ H. discriminate.
  - intros x y t u H K T U. assert (B : forall z v, In z (yHist ++ map VSweep [10; 11]) -> timeOf z = Some v -> v <= 11).
    { intros z v Q W. cbn in Q. repeat (destruct Q as [<-|Q]; [first [discriminate W | injection W as <-; lia]|]). destruct Q. }
    specialize (B x t H T). unfold timeoutE. lia.
  - intros c e x t _ _ _ H T. assert (B : forall z v, In z (yHist ++ map VSweep [10; 11]) -> timeOf z = Some v -> v <= 11).
    { intros z v Q W. cbn in Q. repeat (destruct Q as [<-|Q]; [first [discriminate W | injection W as <-; lia]|]). destruct Q. }
    specialize (B x t H T). cbn [expiry yX]. lia.
  - split; vm_compute; reflexivity.
Qed.

Theorem C64_escrows_run_to_end : forall E cf X h now, snd (vsweep X now (vruns E cf X h vdb0)) = true.
Proof. exact c64_escrows_run_to_end. Qed.
Print Assumptions C64_escrows_run_to_end.

Example C64_escrows_run_to_end_ex : snd (vsweep yX 9 (yRun yHist)) = true /\ escs (yRun yHist) MRE = [(100, 6)] /\ escs (yRun yHist) MCE = [(200, 9)].
Proof. vm_compute. repeat split. Qed.

(** A credential with a salted edge block, or with its edges given by their said, is never saved. *)
Theorem C64_private_edges_refuted : forall E cf X h c, oneCred h -> sent h c -> (c_edges c = None \/ exists es, c_edges c = Some es /\ In (BadNode TypeError) es) ->
  saved (vruns E cf X h vdb0) (c_said c) = false.
Proof. exact c64_private_edges_refuted. Qed.
Print Assumptions C64_private_edges_refuted.

Example C64_private_edges_refuted_ex :
  snd (process yX (mkCred [7] 100 10 1 (Some 2) 7 (Some [Skip; BadNode TypeError])) yAnc 9 (yRun yHist)) = Some (XOther TypeError).
Proof. vm_compute. reflexivity. Qed.

(** ** The recorded anchor *)
Theorem C65_anchor_sent_partial : forall E cf X h s a, cancs (vruns E cf X h vdb0) s = Some a -> exists c now, In (VCred c a now) h /\ c_said c = s.
Proof. exact c65_anchor_sent_partial. Qed.
Print Assumptions C65_anchor_sent_partial.

Example C65_anchor_sent_partial_ex : cancs (yRun yHist) 100 = Some yAnc.
Proof. vm_compute. reflexivity. Qed.

Theorem C65_anchor_changed_refuted : exists E cf X h c a b now,
  saved (vruns E cf X h vdb0) (c_said c) = true /\ cancs (vruns E cf X h vdb0) (c_said c) = Some a
  /\ cancs (vruns E cf X (h ++ [VCred c b now]) vdb0) (c_said c) = Some b /\ a <> b.
Proof. exact c65_anchor_changed_refuted. Qed.
Print Assumptions C65_anchor_changed_refuted.

(** ** Finding credentials *)
Theorem C66_indexes_exact : forall E cf X h s i, oneCred h -> let d := vruns E cf X h vdb0 in
  (In s (issus d i) <-> saved d s = true /\ exists c, creds d s = Some c /\ c_issuer c = i)
  /\ (In s (schms d i) <-> saved d s = true /\ exists c, creds d s = Some c /\ c_schema c = i)
  /\ (In s (subjs d i) <-> saved d s = true /\ exists c, creds d s = Some c /\ c_issuee c = Some i).
Proof. exact c66_indexes_exact. Qed.
Print Assumptions C66_indexes_exact.

Example C66_indexes_exact_ex : let d := yRun (yHist ++ [VSweep 10; VSweep 11]) in issus d 1 = [100] /\ schms d 8 = [200] /\ subjs d 3 = [200] /\ subjs d 4 = [].
Proof. vm_compute. repeat split. Qed.
