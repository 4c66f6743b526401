(** Properties of annotations. *)
From Coq Require Import Lia.
From Verif Require Import Prelude AnModel AnSpec AnProofs.
Ltac Zify.zify_post_hook ::= Z.div_mod_to_equations.
Open Scope N_scope.

(** A small codec for the examples: four characters each, "-" starts a counter whose third character is its count. *)
Definition ext4 : extractor := fun c s =>
  match s with
  | a :: b :: d :: e :: r =>
      if b64 a && b64 b && b64 d && b64 e then
        Ok (mkTok [a; b; d; e] [32; 120] (N.to_nat (d - 65)) (b =? 83) (if b =? 88 then Ixn else Other) [[32; 102]], r)
      else Err UnexpectedCodeError
  | _ => Err ShortageError
  end.
Lemma ext4_strips : strips ext4.
Proof.
  intros c s t r. unfold ext4. destruct s as [|a [|b [|d [|e s]]]]; try discriminate. destruct (b64 a && b64 b && b64 d && b64 e) eqn:E; [|discriminate].
    intros Q. inversion Q; subst. cbn. apply andb_true_iff in E. destruct E as (E & E4). apply andb_true_iff in E. destruct E as (E & E3). apply andb_true_iff in E. destruct E as (E1 & E2).
    split; [reflexivity|]. split; [discriminate|]. split; [repeat constructor; assumption|]. split; [repeat constructor|repeat constructor].
Qed.
(** "-FB-" "0OAA" "XXXX", digest, prefix, number, prior, "-ABA" list of seals of 2 quadlets *)
Definition ixn4 : text := [45; 70; 66; 45] ++ [48; 79; 65; 65] ++ [88; 88; 88; 88] ++ [69; 49; 49; 49] ++ [69; 50; 50; 50] ++ [77; 65; 65; 65] ++ [69; 51; 51; 51] ++
  [45; 74; 67; 65] ++ [45; 83; 66; 65] ++ [69; 52; 52; 52].

Lemma c144_back : forall ext, strips ext -> forall n s out, annot ext n s [] = Some (Ok out) -> denot out = s.
Proof.
  intros ext STR n s out A. destruct (annot_reads ext STR n s [] out (Forall_nil _) A) as (l & G & -> & ->). cbn [app]. apply denot_render. exact G.
Qed.


Lemma c144_message : forall ext V, readsBack ext V -> strips ext -> forall k v m xs n, V Ctr k -> V Ver v -> V Ilk m -> t_ilk m <> Other ->
  Forall2 (fits V) (order (t_ilk m)) xs -> (exists b s, t_txt k = b :: s /\ (b / 32 = 1 \/ b / 32 = 2)) ->
  let s := t_txt k ++ t_txt v ++ t_txt m ++ flat_map itemText xs in
  exists out, annot ext (S n) s [] = Some (Ok out) /\ denot out = s.
Proof.
  intros ext V RB STR k v m xs n K VV M NO F2 (b & q & KT & B) s.
  destruct (message_ok ext V RB k v m xs K VV M NO F2) as (l & E). fold s in E.
  assert (A : annot ext (S n) s [] = Some (Ok (flat_map render l))).
  { assert (exists s', s = b :: s') as (s' & Q) by (unfold s; rewrite KT; eexists; reflexivity). rewrite Q in *. cbn [annot]. cbn zeta.
    replace ((b / 32 =? 1) || (b / 32 =? 2)) with true by (symmetry; apply orb_true_iff; destruct B as [-> | ->]; [left|right]; reflexivity).
    rewrite E. destruct n; reflexivity. }
  exists (flat_map render l). split; [exact A|]. destruct (annot_reads ext STR _ _ _ _ (Forall_nil _) A) as (l' & G & Q & S0). rewrite Q, S0. cbn [app]. apply denot_render. exact G.
Qed.


Lemma c144_lines : forall ls : list line, Forall (fun l => Forall (fun x => b64 x = true) (l_txt l) /\ (l_gap l = [] \/ l_gap l = [32]) /\ oneLine (l_note l)) ls ->
  denot (flat_map (fun l => repeat 32 (2 * l_ind l) ++ l_txt l ++ l_gap l ++ 35 :: l_note l ++ [10]) ls) = flat_map l_txt ls.
Proof. intros ls F. exact (denot_render ls F). Qed.


Lemma c144_stream_refuted : (forall ext b s out n, b / 32 = 7 -> annot ext n (b :: s) out = None) /\
  strips ext4 /\ (exists out, annot ext4 1 ixn4 [] = Some (Ok out)) /\ (forall n, annot ext4 (S n) (ixn4 ++ ixn4) [] = Some (Err ExtractionError)).
Proof.
  split; [|split; [exact ext4_strips|split]].
  - intros ext b s out n B. induction n as [|n IH]; [reflexivity|]. cbn [annot]. cbn zeta. rewrite B. exact IH.
  - eexists. vm_compute. reflexivity.
  - intros n. cbn [annot]. reflexivity.
Qed.
