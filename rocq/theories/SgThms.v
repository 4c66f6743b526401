(** Properties of the Signature header and of the check of signed requests. *)
From Coq Require Import Lia.
From Verif Require Import Prelude ThModel JsonModel SgModel SgSpec SgProofs.
Ltac Zify.zify_post_hook ::= Z.div_mod_to_equations.
Open Scope N_scope.

(** a reader of signatures: the first two characters are code and index *)
Definition sigerx (q : bytes) : res mark := match q with 65 :: i :: _ => if (48 <=? i) && (i <=? 57) then Ok (Sg q (i - 48)) else Err ValidationError | _ => Err ValidationError end.
Definition cigarx (q : bytes) : res mark := match q with 48 :: _ => Ok (Cg q None) | _ => Err ValidationError end.
(** a signature is good for the key whose name it ends with, and any text *)
Definition vfyx (key q ser : bytes) : bool := beq q (s2b "A" ++ key ++ ser).
Definition ser0 : bytes := s2b "{}".
Definition sig0 : bytes := s2b "A0{}".
Definition sig1 : bytes := s2b "A1{}".
Definition kev0 : list (bytes * list bytes) := [(s2b "EMe", [s2b "0"; s2b "1"])].
Definition g0 : signage := mkG (MList [Sg sig0 0; Sg sig1 1]) None (Some (s2b "EMe")) (Some (s2b "0")) None None.
Definition g1 : signage := mkG (MList [Cg (s2b "0Bx") (Some (s2b "DKey"))]) None (Some []) None None (Some (s2b "CESR")).
Definition g2 : signage := mkG (MDict [(s2b "wit0", Sg sig0 0); (s2b "wit1", Sg sig1 1)]) (Some true) None None (Some (s2b "EDig")) (Some (s2b "JSON")).
Ltac pl := intros ?ch ?I; cbn in *; repeat match goal with H : _ \/ _ |- _ => destruct H as [H|H]; [subst; lia|] end; contradiction.
Lemma plainb_ok : forall s, forallb (fun ch => negb ((ch =? 32) || (ch =? 44) || (ch =? 59) || (ch =? 34))) s = true -> plain s.
Proof. intros s H ch I. rewrite forallb_forall in H. specialize (H ch I). lia. Qed.
Lemma labelb_ok : forall s, forallb (fun ch => negb ((ch =? 32) || (ch =? 44) || (ch =? 59) || (ch =? 34) || (ch =? 61))) s = true ->
  existsb (beq s) [s2b "indexed"; s2b "signer"; s2b "ordinal"; s2b "digest"; s2b "kind"] = false -> label s.
Proof.
  intros s H N. rewrite forallb_forall in H. split; [intros ch I; specialize (H ch I); lia|]. split; [intros I; specialize (H _ I); discriminate H|].
  intros I. assert (E : existsb (beq s) [s2b "indexed"; s2b "signer"; s2b "ordinal"; s2b "digest"; s2b "kind"] = true) by (apply existsb_exists; exists s; split; [exact I|apply beq_refl]). congruence.
Qed.

(** ** C111: signatures survive the header *)

Lemma c111_round_trip_partial : forall siger cigar gs os, gs <> [] -> Forall2 (arrives siger cigar) gs os ->
  exists h, signature gs = Ok h /\ designature siger cigar h = Ok os.
Proof. intros. apply round_trip; assumption. Qed.
Example round_trip_ex : exists os, Forall2 (arrives sigerx cigarx) [g0; g1; g2] os /\
  option_map markers (hd_error os) = Some (MDict [(s2b "0", Sg sig0 0); (s2b "1", Sg sig1 1)]) /\
  signature [g0; g1] = Ok (s2b "indexed=" ++ 34 :: s2b "?1" ++ 34 :: s2b ";signer=" ++ 34 :: s2b "EMe" ++ 34 :: s2b ";ordinal=" ++ 34 :: s2b "0" ++ 34 :: s2b ";0=" ++ 34 :: sig0 ++ 34 :: s2b ";1=" ++ 34 :: sig1 ++ 34 :: s2b ",indexed=" ++ 34 :: s2b "?0" ++ 34 :: s2b ";kind=" ++ 34 :: s2b "CESR" ++ 34 :: s2b ";DKey=" ++ 34 :: s2b "0Bx" ++ [34]).
Proof.
  eexists. split; [|split; [|vm_compute; reflexivity]].
  - constructor; [|constructor; [|constructor; [|constructor]]].
    + exists true, [(s2b "0", Sg sig0 0); (s2b "1", Sg sig1 1)]. split; [|split; [|split; [|split; [|split; [|reflexivity]]]]].
      * split; [constructor; [exact (nm_siger sig0 0)|constructor; [exact (nm_siger sig1 1)|constructor]]|]. exists (s2b "0"), (Sg sig0 0), [(s2b "1", Sg sig1 1)]. split; reflexivity.
      * constructor; [intros [E|[]]; discriminate E|constructor; [intros []|constructor]].
      * intros k m [[= <- <-]|[[= <- <-]|[]]]; (split; [apply labelb_ok; vm_compute; reflexivity|split; [apply plainb_ok; vm_compute; reflexivity|intros t E; discriminate E]]).
      * intros v I. destruct I as [[= <-]|[[= <-]|[I|[I|[]]]]]; try discriminate I; apply plainb_ok; vm_compute; reflexivity.
      * intros _ k m [[= <- <-]|[[= <- <-]|[]]]; vm_compute; reflexivity.
    + exists false, [(s2b "DKey", Cg (s2b "0Bx") (Some (s2b "DKey")))]. split; [|split; [|split; [|split; [|split; [|reflexivity]]]]].
      * split; [constructor; [apply nm_cigar|constructor]|]. exists (s2b "DKey"), (Cg (s2b "0Bx") (Some (s2b "DKey"))), []. split; reflexivity.
      * constructor; [intros []|constructor].
      * intros k m [[= <- <-]|[]]; (split; [apply labelb_ok; vm_compute; reflexivity|split; [apply plainb_ok; vm_compute; reflexivity|intros t E; discriminate E]]).
      * intros v I. destruct I as [[= <-]|[I|[I|[[= <-]|[]]]]]; try discriminate I; apply plainb_ok; vm_compute; reflexivity.
      * intros _ k m [[= <- <-]|[]]; vm_compute; reflexivity.
    + exists true, [(s2b "wit0", Sg sig0 0); (s2b "wit1", Sg sig1 1)]. split; [|split; [|split; [|split; [|split; [|reflexivity]]]]].
      * split; reflexivity.
      * constructor; [intros [E|[]]; discriminate E|constructor; [intros []|constructor]].
      * intros k m [[= <- <-]|[[= <- <-]|[]]]; (split; [apply labelb_ok; vm_compute; reflexivity|split; [apply plainb_ok; vm_compute; reflexivity|intros t E; discriminate E]]).
      * intros v I. destruct I as [I|[I|[[= <-]|[[= <-]|[]]]]]; try discriminate I; apply plainb_ok; vm_compute; reflexivity.
      * intros E. vm_compute in E. discriminate E.
  - reflexivity.
Qed.

Lemma c111_merge : forall siger cigar a b,
  designature siger cigar (a ++ 44 :: b) = match designature siger cigar a, designature siger cigar b with Ok x, Ok y => Ok (x ++ y) | Err e, _ => Err e | _, Err e => Err e end.
Proof. intros. rewrite merge. destruct (designature siger cigar a); [|reflexivity]. cbn. destruct (designature siger cigar b); reflexivity. Qed.
Example merge_ex : exists a b x y, signature [g0] = Ok a /\ signature [g1] = Ok b /\ designature sigerx cigarx a = Ok [x] /\ designature sigerx cigarx b = Ok [y] /\ designature sigerx cigarx (a ++ 44 :: 32 :: b) = Ok [x; y].
Proof. do 4 eexists. split; [vm_compute; reflexivity|]. split; [vm_compute; reflexivity|]. split; [vm_compute; reflexivity|]. split; vm_compute; reflexivity. Qed.

(** A header is made only of signages of one kind: indexed signatures, or signatures with their keys, as the
    signage says if it does. *)
Lemma mapr_all {X Y} (f : X -> res Y) : forall l r, mapr f l = Ok r -> forall x, In x l -> exists y, f x = Ok y.
Proof.
  induction l as [|a l IH]; intros r H x I; [destruct I|]. cbn [mapr] in H. destruct (f a) as [y|e] eqn:F; [|discriminate H]. cbn [bind] in H. destruct (mapr f l) as [r'|e] eqn:G; [|discriminate H]. destruct I as [<-|I]; [eauto|eapply IH; eauto].
Qed.
Lemma c111_kinds : forall gs h g ms, signature gs = Ok h -> In g gs -> markers g = MList ms ->
  exists ind, (forall b, indexed g = Some b -> b = ind) /\ forall m, In m ms -> if ind : bool then exists q i, m = Sg q i else exists q k, m = Cg q (Some k).
Proof.
  intros gs h g ms H I M. unfold signature in H. destruct (mapr group gs) as [vs|e] eqn:G; [|discriminate H]. destruct (mapr_all group gs vs G g I) as [y Y]. unfold group in Y. destruct (isIndexed g) as [ind|e] eqn:X; [|discriminate Y]. cbn [bind] in Y.
  exists ind. split; [intros b B; unfold isIndexed in X; rewrite B in X; congruence|]. intros m J. rewrite M in Y. cbn [markItems] in Y. destruct (mapr _ ms) as [its|e] eqn:Z; [|discriminate Y]. destruct (mapr_all _ ms its Z m J) as [it T]. destruct (autoTag ind m) as [t|e] eqn:AT; [|discriminate T].
  destruct m as [q i|q v|t']; cbn [autoTag] in AT; destruct ind; cbn [negb] in AT; try discriminate AT; try (destruct v as [v|]; [|discriminate AT]); eauto.
Qed.
Example kinds_ex : (exists h, signature [mkG (MList [Sg (s2b "A0x") 0; Sg (s2b "A1y") 1]) None None None None None] = Ok h) /\
  signature [mkG (MList [Sg (s2b "A0x") 0; Cg (s2b "B0y") (Some (s2b "K"))]) None None None None None] = Err ValueError.
Proof. split; [eexists|]; vm_compute; reflexivity. Qed.

Lemma c111_same_refuted : ~ (forall siger cigar ms h os, (forall m, In m ms -> exists q i, m = Sg q i /\ plain q /\ siger q = Ok m) ->
  signature [mkG (MList ms) (Some true) None None None None] = Ok h -> designature siger cigar h = Ok os -> forall m, In m ms -> exists o d k, In o os /\ markers o = MDict d /\ In (k, m) d).
Proof.
  intros H. destruct (H sigerx cigarx [Sg (s2b "A0x") 0; Sg (s2b "A0y") 0]
    (s2b "indexed=" ++ 34 :: s2b "?1" ++ 34 :: s2b ";0=" ++ 34 :: s2b "A0x" ++ 34 :: s2b ";0=" ++ 34 :: s2b "A0y" ++ [34])
    [mkG (MDict [(s2b "0", Sg (s2b "A0y") 0)]) (Some true) None None None (Some (s2b "CESR"))]) with (m := Sg (s2b "A0x") 0) as (o & d & k & I & E & J).
  - intros m [<-|[<-|[]]]; (eexists; eexists; split; [reflexivity|]; split; [apply plainb_ok; vm_compute; reflexivity|vm_compute; reflexivity]).
  - vm_compute. reflexivity.
  - vm_compute. reflexivity.
  - left. reflexivity.
  - destruct I as [<-|[]]. injection E as <-. destruct J as [J|[]]. discriminate J.
Qed.
Lemma c111_text_refuted : ~ (forall siger cigar sr h os, signature [mkG (MList []) (Some true) (Some sr) None None None] = Ok h -> designature siger cigar h = Ok os ->
  forall o d, In o os -> markers o = MDict d -> d = []).
Proof.
  intros H. pose (sr := s2b "E" ++ 34 :: s2b ";0=" ++ 34 :: sig0).
  specialize (H sigerx cigarx sr (s2b "indexed=" ++ 34 :: s2b "?1" ++ 34 :: s2b ";signer=" ++ 34 :: sr ++ [34]) [mkG (MDict [(s2b "0", Sg sig0 0)]) (Some true) (Some (s2b "E")) None None (Some (s2b "CESR"))] ltac:(vm_compute; reflexivity) ltac:(vm_compute; reflexivity) _ _ (or_introl eq_refl) eq_refl). discriminate H.
Qed.
Lemma c111_empty_refuted : ~ (forall siger cigar gs h, signature gs = Ok h -> (forall g, In g gs -> exists o, arrives siger cigar g o) -> exists os, designature siger cigar h = Ok os).
Proof. intros H. destruct (H sigerx cigarx [] [] eq_refl) as (os & E); [intros g []|]. discriminate E. Qed.

(** ** C112: only signed requests go on *)

Lemma c112_signed : forall siger cigar vfy kevers pre sig ser, process_request siger cigar vfy kevers pre sig ser = Goes ->
  exists hdr keys, sig = Some hdr /\ dget kevers pre = Some keys /\
  forall i key, nth_error keys i = Some key -> exists v m, carries hdr (decstr (N.of_nat i)) v /\ (siger v = Ok m \/ cigar v = Ok m) /\ vfy key (chars m) ser = true.
Proof.
  intros siger cigar vfy kevers pre sig ser H. apply (validate_true siger cigar vfy). unfold process_request in H. destruct (validate siger cigar vfy kevers pre sig ser) as [[|]|]; [reflexivity|discriminate H|discriminate H].
Qed.
Example signed_ex : exists h, signature [g0] = Ok h /\ process_request sigerx cigarx vfyx kev0 (s2b "EMe") (Some h) ser0 = Goes /\
  process_request sigerx cigarx vfyx kev0 (s2b "EMe") (Some h) (s2b "[]") = Unauthorized /\ process_request sigerx cigarx vfyx kev0 (s2b "EYou") (Some h) ser0 = Unauthorized.
Proof. eexists. split; [vm_compute; reflexivity|]. split; [vm_compute; reflexivity|]. split; vm_compute; reflexivity. Qed.

Lemma c112_goes_partial : forall siger cigar vfy kevers pre keys ms ser sr od dg,
  dget kevers pre = Some keys -> keys <> [] -> List.length ms = List.length keys ->
  (forall i key m, nth_error keys i = Some key -> nth_error ms i = Some m -> exists q, m = Sg q (N.of_nat i) /\ plain q /\ siger q = Ok m /\ vfy key q ser = true) ->
  (forall v, In (Some v) [sr; od; dg] -> plain v) ->
  exists h, signature [mkG (MList ms) None sr od dg None] = Ok h /\ process_request siger cigar vfy kevers pre (Some h) ser = Goes.
Proof.
  intros siger cigar vfy kevers pre keys ms ser sr od dg KE NE LN H TX.
  assert (H' : forall i m, nth_error ms i = Some m -> exists q key, nth_error keys i = Some key /\ m = Sg q (N.of_nat i) /\ plain q /\ siger q = Ok m /\ vfy key q ser = true).
  { intros i m E. destruct (nth_error keys i) as [key|] eqn:K; [|apply nth_error_None in K; assert (L : (i < List.length ms)%nat) by (apply nth_error_Some; congruence); lia]. destruct (H i key m K E) as (q & Q). exists q, key. auto. }
  assert (F2 : forall ms idx, (forall i m, nth_error ms i = Some m -> exists q, m = Sg q (idx + N.of_nat i)) -> Forall2 (named true) ms (numbered idx (map chars ms))).
  { clear. induction ms as [|m ms IH]; intros idx H; [constructor|]. cbn [map numbered]. destruct (H O m eq_refl) as (q & E). rewrite N.add_0_r in E. subst m. constructor; [apply nm_siger|]. apply IH. intros i m E. destruct (H (Datatypes.S i) m E) as (q' & ->). exists q'. f_equal. lia. }
  set (l := numbered 0 (map chars ms)).
  assert (LI : forall k m, In (k, m) l -> exists i, nth_error ms i = Some m /\ k = decstr (N.of_nat i)).
  { intros k m I. destruct (numbered_In _ _ _ _ I) as (i & q & E & -> & ->). exists i. rewrite !N.add_0_l. split; [|reflexivity]. rewrite nth_error_map in E. destruct (nth_error ms i) as [m|] eqn:M; [|discriminate E]. cbn in E. injection E as <-. destruct (H' i m M) as (q & key & _ & -> & _). reflexivity. }
  pose (o := mkG (MDict l) (Some true) (text sr) (text od) (text dg) (Some (s2b "CESR"))).
  assert (AR : arrives siger cigar (mkG (MList ms) None sr od dg None) o).
  { exists true, l. split; [split|split; [apply numbered_NoDup|split; [|split; [|split]]]].
    - apply F2. intros i m E. destruct (H' i m E) as (q & key & _ & -> & _). exists q. reflexivity.
    - cbn [indexed]. destruct ms as [|m ms]; [destruct keys; [congruence|discriminate LN]|]. destruct (H' O m eq_refl) as (q & key & _ & -> & _). exists (decstr 0), (Sg q 0), (numbered 1 (map chars ms)). split; reflexivity.
    - intros k m I. destruct (LI k m I) as (i & M & ->). destruct (H' i m M) as (q & key & _ & -> & P & _). split; [apply decstr_label|]. split; [exact P|intros t E; discriminate E].
    - intros v I. apply TX. cbn in I |- *. destruct I as [I|[I|[I|[I|[]]]]]; [auto|auto|auto|discriminate I].
    - intros _ k m I. destruct (LI k m I) as (i & M & ->). destruct (H' i m M) as (q & key & _ & -> & _ & R & _). exact R.
    - cbn [signer ordinal digest kind text]. unfold o. f_equal. f_equal. rewrite <- (map_id l) at 1. apply map_ext_in. intros [k m] I. destruct (LI k m I) as (i & M & ->). destruct (H' i m M) as (q & key & _ & -> & _). reflexivity. }
  destruct (round_trip siger cigar [mkG (MList ms) None sr od dg None] [o]) as (h & E1 & E2); [discriminate|constructor; [exact AR|constructor]|]. exists h. split; [exact E1|].
  unfold process_request, validate. rewrite E2. cbn [bind]. rewrite KE. unfold o. cbn [markers]. rewrite (allSigned_all vfy ser keys l 0); [reflexivity|].
  intros i key K. destruct (nth_error ms i) as [m|] eqn:M; [|apply nth_error_None in M; assert (L : (i < List.length keys)%nat) by (apply nth_error_Some; congruence); lia].
  destruct (H i key m K M) as (q & -> & _ & _ & V). exists q, (0 + N.of_nat i). split; [|exact V]. apply numbered_get. rewrite nth_error_map, M. reflexivity.
Qed.
Example goes_ex : exists h, signature [mkG (MList [Sg sig0 0; Sg sig1 1]) None (Some (s2b "EMe")) None None None] = Ok h /\ process_request sigerx cigarx vfyx kev0 (s2b "EMe") (Some h) ser0 = Goes.
Proof.
  apply (c112_goes_partial sigerx cigarx vfyx kev0 (s2b "EMe") [s2b "0"; s2b "1"]).
  - reflexivity.
  - discriminate.
  - reflexivity.
  - intros i key m K M. destruct i as [|[|[|i]]]; cbn in K, M; try discriminate K; injection K as <-; injection M as <-; eexists; (split; [reflexivity|]; split; [apply plainb_ok; vm_compute; reflexivity|]; split; vm_compute; reflexivity).
  - intros v [[= <-]|[I|[I|[]]]]; try discriminate I. apply plainb_ok. vm_compute. reflexivity.
Qed.

Lemma c112_threshold_refuted : ~ (forall siger cigar vfy kevers pre keys ms ser (threshold : nat), dget kevers pre = Some keys -> (0 < threshold <= List.length keys)%nat -> List.length ms = threshold ->
  NoDup ms -> (forall m, In m ms -> exists q i key, m = Sg q (N.of_nat i) /\ nth_error keys i = Some key /\ plain q /\ siger q = Ok m /\ vfy key q ser = true) ->
  exists h, signature [mkG (MList ms) None None None None None] = Ok h /\ process_request siger cigar vfy kevers pre (Some h) ser = Goes).
Proof.
  intros H. destruct (H sigerx cigarx vfyx kev0 (s2b "EMe") [s2b "0"; s2b "1"] [Sg sig1 1] ser0 1%nat) as (h & E & G).
  - reflexivity.
  - cbn. lia.
  - reflexivity.
  - constructor; [intros []|constructor].
  - intros m [<-|[]]. exists sig1, 1%nat, (s2b "1"). split; [reflexivity|]. split; [reflexivity|]. split; [apply plainb_ok; vm_compute; reflexivity|]. split; vm_compute; reflexivity.
  - vm_compute in E. injection E as <-. vm_compute in G. discriminate G.
Qed.
Lemma c112_raises_refuted : ~ (forall siger cigar vfy kevers pre sig ser, process_request siger cigar vfy kevers pre sig ser = Goes \/ process_request siger cigar vfy kevers pre sig ser = Unauthorized).
Proof. intros H. destruct (H sigerx cigarx vfyx kev0 (s2b "EMe") None ser0) as [E|E]; discriminate E. Qed.
