(** Proposals between the participants of a group. *)
From Verif Require Import Prelude ExModel MxModel MxSpec MxProofs MxProofs2 MxProofs3 MxThms.
From Coq Require Import Lia.
Open Scope N_scope.

(** Whatever arrives and is proposed, in any order: a message that is given to the local parser was carried
    by a proposal, and a local identifier has made a proposal with the same identity. *)
Theorem C106_approved_partial : forall dig hs ops k m, identified ops -> steady ops -> In (k, m) (played (run dig hs ops)) ->
  exists p l e, In p (props ops) /\ p_said p = k /\ In m (contents p) /\ about dig p e /\
    In l (props ops) /\ about dig l e /\ In (p_sender l) (locals hs ops).
Proof. exact c106_approved_partial. Qed.
Print Assumptions C106_approved_partial.

(** With proposals of the second version, and a digest that tells the messages apart, a message that is
    merged is, but for its signatures, one that a local identifier has proposed. *)
Theorem C106_content_partial : forall dig hs ops k m, identified ops -> steady ops ->
  (forall p, In p (props ops) -> p_major p <> 1) ->
  (forall p q m m', In p (props ops) -> In q (props ops) -> In m (contents p) -> In m' (contents q) -> dig (c_body m) = dig (c_body m') -> c_body m = c_body m') ->
  In (k, m) (played (run dig hs ops)) ->
  exists l m', In l (props ops) /\ In (p_sender l) (locals hs ops) /\ In m' (contents l) /\ c_body m' = c_body m.
Proof. exact c106_content_partial. Qed.
Print Assumptions C106_content_partial.

Theorem C106_block_refuted : exists hs ops k m, identified ops /\ steady ops /\ (forall b b', digx b = digx b' -> b = b') /\
  In (k, m) (played (run digx hs ops)) /\
  forall l m', In l (props ops) -> In (p_sender l) (locals hs ops) -> In m' (contents l) -> c_body m' <> c_body m.
Proof. exact c106_block_refuted. Qed.
Print Assumptions C106_block_refuted.

Theorem C106_stranger_refuted : exists hs ops k m p, identified ops /\ steady ops /\ In (k, m) (played (run digx hs ops)) /\
  In p (props ops) /\ p_said p = k /\ ~ In (p_sender p) (members p) /\ ~ In (p_sender p) (locals hs ops).
Proof. exact c106_stranger_refuted. Qed.
Print Assumptions C106_stranger_refuted.

(** A proposal of another participant and one of a local identifier have come, in either order and with
    anything in between, and all proposals with this identity can be read: then all messages that the first
    one carries have been given to the local parser. *)
Theorem C107_merged_partial : forall dig hs ops e p l m, identified ops -> steady ops ->
  (forall q, In q (props ops) -> about dig q e -> readable dig q) ->
  came hs ops p -> about dig p e -> ~ In (p_sender p) (locals hs ops) ->
  came hs ops l -> about dig l e -> In (p_sender l) (locals hs ops) ->
  In m (contents p) -> In (p_said p, m) (played (run dig hs ops)).
Proof. exact c107_merged_partial. Qed.
Print Assumptions C107_merged_partial.

(** As long as no local identifier has proposed the same, each proposal of another participant for a local
    identifier leaves exactly one notice for the user. *)
Theorem C107_notice_partial : forall dig hs ops p e, identified (ops ++ [Arrive p]) -> steady (ops ++ [Arrive p]) ->
  forUs (locals hs ops) p -> about dig p e -> ~ In (p_sender p) (locals hs ops) ->
  (forall l, In l (props ops) -> about dig l e -> ~ In (p_sender l) (locals hs ops)) ->
  exists b, notes (run dig hs (ops ++ [Arrive p])) = notes (run dig hs ops) ++ [(p_route p, p_said p, b)].
Proof. exact c107_notice_partial. Qed.
Print Assumptions C107_notice_partial.

Theorem C107_poison_refuted : forall bad ops k m, bad = poison \/ bad = unindexed -> identified (Arrive bad :: ops) -> steady (Arrive bad :: ops) ->
  In (k, m) (played (run digx [ME] (Arrive bad :: ops))) ->
  forall p, In p (props (Arrive bad :: ops)) -> p_said p = k -> ~ about digx p (s2b "EBlock").
Proof. exact c107_poison_refuted. Qed.
Print Assumptions C107_poison_refuted.
