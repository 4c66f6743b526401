(** Properties of annotations. *)
From Verif Require Import Prelude AnModel AnSpec AnProofs AnThms.
From Coq Require Import Lia.
Open Scope N_scope.

(** C144.  Taking the annotations off gives back the stream that was annotated, whatever the codec of the primitives is, as long as
    reading one takes just its Base64 characters. *)
Theorem C144_back : forall ext, strips ext -> forall n s out, annot ext n s [] = Some (Ok out) -> denot out = s.
Proof. exact c144_back. Qed.
Print Assumptions C144_back.

Example C144_back_example : strips ext4 /\ exists out, annot ext4 1 ixn4 [] = Some (Ok out) /\ List.length out = 125%nat /\ denot out = ixn4.
Proof.
  split.
  - exact ext4_strips.
  - eexists. split; [vm_compute; reflexivity|]. split; vm_compute; reflexivity.
Qed.

(** C144.  Every well formed message in text form is annotated in one round, and the annotations come off again. *)
Theorem C144_message : forall ext V, readsBack ext V -> strips ext -> forall k v m xs n, V Ctr k -> V Ver v -> V Ilk m -> t_ilk m <> Other ->
  Forall2 (fits V) (order (t_ilk m)) xs -> (exists b s, t_txt k = b :: s /\ (b / 32 = 1 \/ b / 32 = 2)) ->
  let s := t_txt k ++ t_txt v ++ t_txt m ++ flat_map itemText xs in
  exists out, annot ext (S n) s [] = Some (Ok out) /\ denot out = s.
Proof. exact c144_message. Qed.
Print Assumptions C144_message.

Example C144_message_example : let V := fun (c : cls) t => forall r, ext4 c (t_txt t ++ r) = Ok (t, r) in
  let t4 := fun a b d e => mkTok [a; b; d; e] [32; 120] (N.to_nat (d - 65)) (b =? 83) (if b =? 88 then Ixn else Other) [[32; 102]] in
  let k := t4 45 70 66 45 in let v := t4 48 79 65 65 in let m := t4 88 88 88 88 in
  let xs := [I1 (t4 69 49 49 49); I1 (t4 69 50 50 50); I1 (t4 77 65 65 65); I1 (t4 69 51 51 51); IS (t4 45 74 67 65) [(t4 45 83 66 65, [t4 69 52 52 52])]] in
  readsBack ext4 V /\ strips ext4 /\ V Ctr k /\ V Ver v /\ V Ilk m /\ t_ilk m = Ixn /\ Forall2 (fits V) (order Ixn) xs /\
  t_txt k ++ t_txt v ++ t_txt m ++ flat_map itemText xs = ixn4.
Proof.
  intros V t4 k v m xs. split.
  - intros c t r H. split; [|apply H]. intros Z. specialize (H []). rewrite Z in H. discriminate H.
  - split; [exact ext4_strips|]. split; [intros r; reflexivity|]. split; [intros r; reflexivity|]. split; [intros r; reflexivity|]. split; [reflexivity|]. split; [|reflexivity].
    unfold order, xs. repeat (apply Forall2_cons; [try (intros r; reflexivity)|]); [|apply Forall2_nil].
    split; [intros r; reflexivity|]. split; [reflexivity|]. constructor; [|constructor]. split; [intros r; reflexivity|]. split; [reflexivity|]. split; [|reflexivity].
    constructor; [intros r; reflexivity|constructor].
Qed.

(** C144.  What is left of a text does not depend on white space and comments put around and between the lines: a line of Base64
    characters with any comment counts as its characters, one without Base64 characters as nothing. *)
Theorem C144_lines : forall ls : list line, Forall (fun l => Forall (fun x => b64 x = true) (l_txt l) /\ (l_gap l = [] \/ l_gap l = [32]) /\ oneLine (l_note l)) ls ->
  denot (flat_map (fun l => repeat 32 (2 * l_ind l) ++ l_txt l ++ l_gap l ++ 35 :: l_note l ++ [10]) ls) = flat_map l_txt ls.
Proof. exact c144_lines. Qed.
Print Assumptions C144_lines.

Example C144_lines_example : denot (flat_map (fun l => repeat 32 (2 * l_ind l) ++ l_txt l ++ l_gap l ++ 35 :: l_note l ++ [10])
    [mkLine 1 [65; 66] [32] [35; 32; 67]; mkLine 2 [] [] [68]; mkLine 0 [69] [] []]) = [65; 66; 69].
Proof. reflexivity. Qed.

(** C144, refuted for streams that annot accepts by its description: one in binary form keeps it running for ever, whatever the
    codec; a second message, or an attachment, after the first is an error. *)
Theorem C144_stream_refuted : (forall ext b s out n, b / 32 = 7 -> annot ext n (b :: s) out = None) /\
  strips ext4 /\ (exists out, annot ext4 1 ixn4 [] = Some (Ok out)) /\ (forall n, annot ext4 (S n) (ixn4 ++ ixn4) [] = Some (Err ExtractionError)).
Proof. exact c144_stream_refuted. Qed.
Print Assumptions C144_stream_refuted.
