(** Properties of proposals between the participants of a group. *)
From Coq Require Import Lia.
From Verif Require Import Prelude ExModel MxModel MxSpec MxProofs MxProofs2 MxProofs3.
Ltac Zify.zify_post_hook ::= Z.div_mod_to_equations.
Open Scope N_scope.

(** a digest that tells all bodies apart; the local member, another member, a stranger *)
Definition digx (m : bytes) : bytes := s2b "E" ++ m.
Definition ME : bytes := s2b "EMe".
Definition BO : bytes := s2b "EBo".
Definition ST : bytes := s2b "EStranger".
Definition evx : bytes := s2b "icp of the group".
Definition evil : bytes := s2b "another icp".
Definition icpRoute : bytes := s2b "/multisig/icp".
(** a proposal of the first version, for the group of the two members, with a block that calls itself [e] *)
Definition prop1 (said sender e body atc : bytes) : prop :=
  mkP said sender icpRoute 1 false (Some [(s2b "d", EText e); (s2b "icp", EMsg (mkC (s2b "icp") (digx body) body atc))]) (Some [ME; BO]) (Some [ME; BO]) None [] [].
(** one of the second version *)
Definition prop2 (said sender body atc : bytes) : prop :=
  mkP said sender icpRoute 2 false None (Some [ME; BO]) (Some [ME; BO]) None [(s2b "icp", digx body)] [mkC (s2b "icp") (digx body) body atc].
Definition mine1 : prop := prop1 (s2b "EX1") ME (s2b "EBlock") evx (s2b "sig of me").
Definition bobs1 : prop := prop1 (s2b "EX2") BO (s2b "EBlock") evx (s2b "sig of bo").
Definition mine2 : prop := prop2 (s2b "EY1") ME evx (s2b "sig of me").
Definition bobs2 : prop := prop2 (s2b "EY2") BO evx (s2b "sig of bo").
Lemma about1 : forall said sender e body atc, about digx (prop1 said sender e body atc) e.
Proof. intros. eapply ab_block; [reflexivity|reflexivity|reflexivity]. Qed.
Lemma about2 : forall said sender body atc, about digx (prop2 said sender body atc) (digx body).
Proof. intros. eapply (ab_nested _ _ _ _ "icp" "icp"); [discriminate|reflexivity|left; reflexivity|reflexivity|reflexivity|reflexivity|reflexivity|reflexivity]. Qed.
Lemma forUsx : forall p, p_route p = icpRoute -> p_smids p = Some [ME; BO] -> forUs [ME] p.
Proof. intros p R S0. apply fu_icp; [exact R|rewrite S0; discriminate|exists ME; split; [unfold members; rewrite S0; left; reflexivity|left; reflexivity]]. Qed.
Ltac idx := intros p q I1 I2; cbn in I1, I2;
  repeat (match goal with H : _ \/ _ |- _ => destruct H as [H|H] end);
  try contradiction; subst; first [reflexivity|intros EQ; discriminate EQ].
Ltac stx := intros h p I1 I2; cbn in I1; repeat (destruct I1 as [I1|I1]; [discriminate I1|]); contradiction.

(** ** C106: only approved proposals are merged *)

Lemma c106_approved_partial : forall dig hs ops k m, identified ops -> steady ops -> In (k, m) (played (run dig hs ops)) ->
  exists p l e, In p (props ops) /\ p_said p = k /\ In m (contents p) /\ about dig p e /\
    In l (props ops) /\ about dig l e /\ In (p_sender l) (locals hs ops).
Proof. intros dig hs ops k m ID SD I. destruct (run_inv dig hs ops ID SD) as ((_ & _ & _ & _ & E) & _). exact (E k m I). Qed.
Example approved_ex : identified [Arrive bobs1; Submit mine1] /\ steady [Arrive bobs1; Submit mine1] /\
  played (run digx [ME] [Arrive bobs1; Submit mine1]) = [(s2b "EX2", mkC (s2b "icp") (digx evx) evx (s2b "sig of bo"))].
Proof. split; [idx|]. split; [stx|vm_compute; reflexivity]. Qed.

Lemma c106_content_partial : forall dig hs ops k m, identified ops -> steady ops ->
  (forall p, In p (props ops) -> p_major p <> 1) ->
  (forall p q m m', In p (props ops) -> In q (props ops) -> In m (contents p) -> In m' (contents q) -> dig (c_body m) = dig (c_body m') -> c_body m = c_body m') ->
  In (k, m) (played (run dig hs ops)) ->
  exists l m', In l (props ops) /\ In (p_sender l) (locals hs ops) /\ In m' (contents l) /\ c_body m' = c_body m.
Proof.
  intros dig hs ops k m ID SD V2 INJ I. destruct (c106_approved_partial _ _ _ _ _ ID SD I) as (p & l & e & P1 & _ & P3 & P4 & L1 & L2 & L3).
  destruct P4 as [x M _ _|mp kp ip M NS _ _ _ _ _ DG]; [destruct (V2 p P1 M)|]. destruct L2 as [x M' _ _|ml kl il M' NS' _ _ _ _ _ DG']; [destruct (V2 l L1 M')|].
  assert (CP : contents p = [mp]) by (unfold contents; rewrite NS; reflexivity). assert (CL : contents l = [ml]) by (unfold contents; rewrite NS'; reflexivity).
  rewrite CP in P3. destruct P3 as [<-|[]]. exists l, ml. split; [exact L1|]. split; [exact L3|]. split; [rewrite CL; left; reflexivity|].
  apply (INJ l p); [exact L1|exact P1|rewrite CL; left; reflexivity|rewrite CP; left; reflexivity|congruence].
Qed.
Example content_ex : identified [Submit mine2; Arrive bobs2] /\ steady [Submit mine2; Arrive bobs2] /\ (forall p, In p (props [Submit mine2; Arrive bobs2]) -> p_major p <> 1) /\
  (forall p q m m', In p (props [Submit mine2; Arrive bobs2]) -> In q (props [Submit mine2; Arrive bobs2]) -> In m (contents p) -> In m' (contents q) -> digx (c_body m) = digx (c_body m') -> c_body m = c_body m') /\
  played (run digx [ME] [Submit mine2; Arrive bobs2]) = [(s2b "EY2", mkC (s2b "icp") (digx evx) evx (s2b "sig of bo"))].
Proof.
  split; [idx|]. split; [stx|]. split; [intros p I; cbn in I; repeat (destruct I as [<-|I]; [discriminate|]); contradiction|]. split; [|vm_compute; reflexivity].
  intros p q m m' _ _ _ _ E. unfold digx in E. apply app_inv_head in E. exact E.
Qed.

(** The identity of a proposal of the first version is what its block of embedded messages says of itself.
    Anyone can give it to another block: when the local member has approved one inception, another one that
    they have never seen is given to the local parser as well. *)
Definition forged : prop := prop1 (s2b "EX3") BO (s2b "EBlock") evil (s2b "sig of bo").
Lemma c106_block_refuted : exists hs ops k m, identified ops /\ steady ops /\ (forall b b', digx b = digx b' -> b = b') /\
  In (k, m) (played (run digx hs ops)) /\
  forall l m', In l (props ops) -> In (p_sender l) (locals hs ops) -> In m' (contents l) -> c_body m' <> c_body m.
Proof.
  exists [ME], [Submit mine1; Arrive forged], (s2b "EX3"), (mkC (s2b "icp") (digx evil) evil (s2b "sig of bo")).
  split; [idx|]. split; [stx|]. split; [intros b b' E; unfold digx in E; apply app_inv_head in E; exact E|]. split; [left; vm_compute; reflexivity|].
  intros l m' I1 I2 I3. cbn in I1. destruct I1 as [<-|[<-|[]]]; [|destruct I2 as [E|[]]; discriminate E]. cbn in I3. destruct I3 as [<-|[]]. discriminate.
Qed.

(** The sender of a proposal need not be one of the members that it names: what a stranger sends is merged as
    well, as theirs. *)
Definition strangers : prop := prop2 (s2b "EY3") ST evx (s2b "any").
Lemma c106_stranger_refuted : exists hs ops k m p, identified ops /\ steady ops /\ In (k, m) (played (run digx hs ops)) /\
  In p (props ops) /\ p_said p = k /\ ~ In (p_sender p) (members p) /\ ~ In (p_sender p) (locals hs ops).
Proof.
  exists [ME], [Submit mine2; Arrive strangers], (s2b "EY3"), (mkC (s2b "icp") (digx evx) evx (s2b "any")), strangers.
  split; [idx|]. split; [stx|]. split; [left; vm_compute; reflexivity|]. split; [right; left; reflexivity|]. split; [reflexivity|].
  split; [cbn; intuition discriminate|cbn; intuition discriminate].
Qed.

(** ** C107: every copy is merged, in whatever order they come *)

Lemma c107_merged_partial : forall dig hs ops e p l m, identified ops -> steady ops ->
  (forall q, In q (props ops) -> about dig q e -> readable dig q) ->
  came hs ops p -> about dig p e -> ~ In (p_sender p) (locals hs ops) ->
  came hs ops l -> about dig l e -> In (p_sender l) (locals hs ops) ->
  In m (contents p) -> In (p_said p, m) (played (run dig hs ops)).
Proof.
  intros dig hs ops e p l m ID SD RD CP AP NP CL AL IL IM. destruct (recorded dig hs ops p e ID SD RD CP AP) as (R1 & _). destruct (recorded dig hs ops l e ID SD RD CL AL) as (_ & R2).
  destruct (run_inv dig hs ops ID SD) as (_ & MG). apply (MG e (p_said p) p (p_sender l) m); auto.
  destruct CP as (a & b & o & -> & OP & _). rewrite props_app. apply in_or_app. right. destruct OP as [-> | ->]; left; reflexivity.
Qed.
Example merged_ex : identified [Arrive bobs2; Submit mine2] /\ steady [Arrive bobs2; Submit mine2] /\
  (forall q, In q (props [Arrive bobs2; Submit mine2]) -> about digx q (digx evx) -> readable digx q) /\
  came [ME] [Arrive bobs2; Submit mine2] bobs2 /\ about digx bobs2 (digx evx) /\ ~ In (p_sender bobs2) (locals [ME] [Arrive bobs2; Submit mine2]) /\
  came [ME] [Arrive bobs2; Submit mine2] mine2 /\ about digx mine2 (digx evx) /\ In (p_sender mine2) (locals [ME] [Arrive bobs2; Submit mine2]) /\
  contents bobs2 = [mkC (s2b "icp") (digx evx) evx (s2b "sig of bo")].
Proof.
  split; [idx|]. split; [stx|]. split; [intros q I _; cbn in I; left; destruct I as [<-|[<-|[]]]; discriminate|].
  split; [exists [], [Submit mine2], (Arrive bobs2); split; [reflexivity|]; split; [left; reflexivity|apply forUsx; reflexivity]|]. split; [apply about2|]. split; [cbn; intuition discriminate|].
  split; [exists [Arrive bobs2], [], (Submit mine2); split; [reflexivity|]; split; [right; reflexivity|apply forUsx; reflexivity]|]. split; [apply about2|]. split; [left; reflexivity|reflexivity].
Qed.

Lemma c107_notice_partial : forall dig hs ops p e, identified (ops ++ [Arrive p]) -> steady (ops ++ [Arrive p]) ->
  forUs (locals hs ops) p -> about dig p e -> ~ In (p_sender p) (locals hs ops) ->
  (forall l, In l (props ops) -> about dig l e -> ~ In (p_sender l) (locals hs ops)) ->
  exists b, notes (run dig hs (ops ++ [Arrive p])) = notes (run dig hs ops) ++ [(p_route p, p_said p, b)].
Proof.
  intros dig hs ops p e ID SD FU AB NL NA. destruct (run_inv dig hs ops (identified_prefix _ _ ID) (steady_prefix _ _ SD)) as ((A & _ & _ & D & _) & _).
  rewrite run_snoc. set (s := run dig hs ops) in *. clearbody s. cbn [step]. unfold arrive. pose proof (validate_good _ _ _ _ AB FU) as V. rewrite <- A in V. rewrite V.
  unfold add. change (habs (logged s p)) with (habs s). rewrite V. rewrite (proj2 (has_false (habs s) (p_sender p))) by (rewrite A; exact NL). cbn [negb].
  assert (X : existsb (has (habs s)) (vals (maids (logged s p)) e) = false).
  { destruct (existsb (has (habs s)) (vals (maids (logged s p)) e)) eqn:X; [|reflexivity]. apply existsb_exists in X. destruct X as (q & I1 & I2). apply vals_In in I1. apply has_In in I2. rewrite A in I2. destruct (D e q I1) as (l & J1 & J2 & J3). subst q. destruct (NA l J1 J3 I2). }
  rewrite X. cbn [fst record notes]. eexists. reflexivity.
Qed.
Example notice_ex : identified ([Arrive bobs1] ++ [Arrive forged]) /\ steady ([Arrive bobs1] ++ [Arrive forged]) /\ forUs (locals [ME] [Arrive bobs1]) forged /\ about digx forged (s2b "EBlock") /\
  ~ In (p_sender forged) (locals [ME] [Arrive bobs1]) /\ (forall l, In l (props [Arrive bobs1]) -> about digx l (s2b "EBlock") -> ~ In (p_sender l) (locals [ME] [Arrive bobs1])) /\
  notes (run digx [ME] [Arrive bobs1; Arrive forged]) = [(icpRoute, s2b "EX2", false); (icpRoute, s2b "EX3", true)].
Proof.
  split; [idx|]. split; [stx|]. split; [apply forUsx; reflexivity|]. split; [apply about1|]. split; [cbn; intuition discriminate|]. split; [|vm_compute; reflexivity].
  intros l I _. cbn in I. destruct I as [<-|[]]. cbn. intuition discriminate.
Qed.

(** One copy that cannot be read stops all: anyone sends a proposal with the identity of the block under way,
    whose block has a field map that is no message, or which is signed by an unindexed signature.  Each own
    proposal with this identity then fails before it is recorded, and whatever comes later, no copy is ever
    merged. *)
Definition poison : prop := mkP (s2b "EX4") ST icpRoute 1 false (Some [(s2b "d", EText (s2b "EBlock")); (s2b "x", EMap)]) (Some [ME; BO]) (Some [ME; BO]) None [] [].
Definition unindexed : prop := mkP (s2b "EX4") ST icpRoute 1 true (Some [(s2b "d", EText (s2b "EBlock")); (s2b "icp", EMsg (mkC (s2b "icp") (digx evx) evx []))]) (Some [ME; BO]) (Some [ME; BO]) None [] [].
Lemma c107_poison_refuted : forall bad ops k m, bad = poison \/ bad = unindexed -> identified (Arrive bad :: ops) -> steady (Arrive bad :: ops) ->
  In (k, m) (played (run digx [ME] (Arrive bad :: ops))) ->
  forall p, In p (props (Arrive bad :: ops)) -> p_said p = k -> ~ about digx p (s2b "EBlock").
Proof.
  intros bad ops k m HB ID SD I p IP PK AB.
  assert (S0 : spoiled digx [ME] bad (s2b "EBlock") (Arrive bad :: ops) (run digx [ME] (Arrive bad :: ops))).
  { apply spoil; [exact ID|exact SD| | | |].
    - destruct HB as [-> | ->]; (eapply ab_block; [reflexivity|reflexivity|reflexivity]).
    - destruct HB as [-> | ->]; apply forUsx; reflexivity.
    - destruct HB as [-> | ->]; cbn; intuition discriminate.
    - intros xs G. unfold replay. rewrite G. destruct HB as [-> | ->]; cbn; eauto. }
  destruct S0 as (_ & _ & _ & HP). destruct (HP k m I) as (p2 & e' & J1 & J2 & J3 & J4). apply J4.
  assert (p2 = p) by (apply ID; [exact J1|exact IP|congruence]). subst p2. eapply about_unique; eassumption.
Qed.
(** an own proposal and one of the other member after it, both fine and for a local member, and nothing is merged *)
Example poison_ex : identified [Arrive poison; Submit mine1; Arrive bobs1; Submit mine1] /\ steady [Arrive poison; Submit mine1; Arrive bobs1; Submit mine1] /\
  came [ME] [Arrive poison; Submit mine1; Arrive bobs1; Submit mine1] bobs1 /\ came [ME] [Arrive poison; Submit mine1; Arrive bobs1; Submit mine1] mine1 /\
  readable digx bobs1 /\ readable digx mine1 /\ played (run digx [ME] [Arrive poison; Submit mine1; Arrive bobs1; Submit mine1]) = [] /\
  snd (add digx (logged (run digx [ME] [Arrive poison]) mine1) mine1) = Err VersionError /\
  snd (add digx (logged (run digx [ME] [Arrive unindexed]) mine1) mine1) = Err AttributeError.
Proof.
  split; [idx|]. split; [stx|]. split; [exists [Arrive poison; Submit mine1], [Submit mine1], (Arrive bobs1); split; [reflexivity|]; split; [left; reflexivity|apply forUsx; reflexivity]|].
  split; [exists [Arrive poison], [Arrive bobs1; Submit mine1], (Submit mine1); split; [reflexivity|]; split; [right; reflexivity|apply forUsx; reflexivity]|].
  assert (RD : forall said sender e body atc, readable digx (prop1 said sender e body atc)).
  { intros. right. split; [reflexivity|]. eexists. split; [reflexivity|]. intros k v [E|[E|[]]]; injection E as <- <-; (split; [discriminate|]); intros m E; [discriminate E|]. injection E as <-. reflexivity. }
  split; [apply RD|]. split; [apply RD|]. split; [vm_compute; reflexivity|]. split; vm_compute; reflexivity.
Qed.
