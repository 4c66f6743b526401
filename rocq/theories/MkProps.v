(** Properties of made credentials. *)
From Verif Require Import Prelude MkModel MkSpec MkProofs MkThms.
Open Scope string_scope.

(** C146.  All data are in the subject of the credential as they were given, except one called d, and there is nothing else in it
    than digest, nonce, recipient and date. *)
Theorem C146_data : forall V dig (X : @args V) k v, uniq (a_data X) -> k <> "d" ->
  (has (a_data X) k v -> has (subject dig X) k v) /\
  (has (subject dig X) k v -> has (a_data X) k v \/ (lacks (a_data X) k /\ ((k = "dt" /\ v = a_now X) \/ (k = "i" /\ a_recp X = Some v) \/ (k = "u" /\ a_private X = true /\ v = a_snonce X)))).
Proof. exact c146_data. Qed.
Print Assumptions C146_data.

Example C146_data_example : uniq (a_data (X1 [("LEI", 9%N)])) /\ subject dg (X1 [("LEI", 9%N)]) = [("d", 105%N); ("u", 5%N); ("i", 3%N); ("dt", 8%N); ("LEI", 9%N)].
Proof. split; [constructor; [intros []|constructor]|reflexivity]. Qed.

(** C146.  The credential has the issuer, schema, registry, sources, rules and nonce given, its subject is the one above, and that has the digest of itself. *)
Theorem C146_fields : forall V dig (X : @args V), let c := credential dig X in
  has c "i" (Val (a_issuer X)) /\ has c "s" (Val (a_schema X)) /\ has c "a" (Sub (subject dig X)) /\ has (subject dig X) "d" (dig (subject0 X)) /\
  (forall v, has c "ri" v <-> exists r, a_status X = Some r /\ v = Val r) /\ (forall v, has c "e" v <-> exists r, a_source X = Some r /\ v = Val r) /\
  (forall v, has c "r" v <-> exists r, a_rules X = Some r /\ v = Val r) /\ (forall v, has c "u" v <-> a_private X = true /\ v = Val (a_unonce X)).
Proof. exact c146_fields. Qed.
Print Assumptions C146_fields.

Example C146_fields_example : map fst (credential dg (X1 [("LEI", 9%N)])) = ["v"; "d"; "u"; "i"; "ri"; "s"; "a"; "e"].
Proof. reflexivity. Qed.

(** C146.  A credential made for a recipient names it as the subject, and a private one has a nonce there, if the data have no i and u of their own.
    Partial: data that do. *)
Theorem C146_recipient_partial : forall V dig (X : @args V), uniq (a_data X) ->
  (lacks (a_data X) "i" -> forall r, has (subject dig X) "i" r <-> a_recp X = Some r) /\
  (lacks (a_data X) "u" -> forall n, has (subject dig X) "u" n <-> a_private X = true /\ n = a_snonce X).
Proof. exact c146_recipient_partial. Qed.
Print Assumptions C146_recipient_partial.

Example C146_recipient_example : uniq (a_data (X1 [("LEI", 9%N)])) /\ lacks (a_data (X1 [("LEI", 9%N)])) "i" /\ has (subject dg (X1 [("LEI", 9%N)])) "i" 3%N.
Proof. split; [constructor; [intros []|constructor]|]. split; [intros [Z|[]]; discriminate Z|cbn; auto]. Qed.

(** C146, refuted for data with i or u: they replace recipient and nonce without notice. *)
Theorem C146_recipient_refuted : (forall V dig (X : @args V) v, uniq (a_data X) ->
    (has (a_data X) "i" v -> forall r, has (subject dig X) "i" r <-> r = v) /\ (has (a_data X) "u" v -> forall n, has (subject dig X) "u" n <-> n = v)) /\
  a_recp (X1 [("i", 9%N); ("u", 0%N)]) = Some 3%N /\ a_private (X1 [("i", 9%N); ("u", 0%N)]) = true /\
  subject dg (X1 [("i", 9%N); ("u", 0%N)]) = [("d", 104%N); ("u", 0%N); ("i", 9%N); ("dt", 8%N)].
Proof. exact c146_recipient_refuted. Qed.
Print Assumptions C146_recipient_refuted.

(** C146, refuted for data with d: it is lost, the digest replaces it. *)
Theorem C146_digest_refuted : (forall V dig (X : @args V) v, has (subject dig X) "d" v -> v = dig (subject0 X)) /\
  subject dg (X1 [("d", 9%N)]) = [("d", 104%N); ("u", 5%N); ("i", 3%N); ("dt", 8%N)].
Proof. exact c146_digest_refuted. Qed.
Print Assumptions C146_digest_refuted.
