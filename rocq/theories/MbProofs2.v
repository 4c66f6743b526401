(** The mailbox as lists of messages by key. *)
From Coq Require Import Lia ZifyClasses ZifyInst ZifyN Zify.
From Verif Require Import Prelude Lex SubsModel SubsProofs DbModel DbSpec DbProofs DbRef NmModel MbModel MbSpec MbProofs.
Ltac Zify.zify_post_hook ::= Z.div_mod_to_equations.
Open Scope N_scope.

Lemma goodsep46 : goodsep 46. Proof. reflexivity. Qed.

(** ** Numbered lists *)
Lemma enum_app : forall A (a b : list A) n, enum n (a ++ b) = enum n a ++ enum (n + len a) b.
Proof.
  induction a as [|x a IH]; intros b n; cbn [app enum]; [unfold len; cbn [List.length]; rewrite N.add_0_r; reflexivity|].
  rewrite IH. replace (n + 1 + len a) with (n + len (x :: a)); [reflexivity|]. unfold len. cbn [List.length]. lia.
Qed.
Lemma enum_len : forall A (l : list A) n, len (enum n l) = len l.
Proof. unfold len. induction l as [|x l IH]; intros n; cbn [enum List.length]; [reflexivity|]. specialize (IH (n + 1)). lia. Qed.
Lemma enum_map : forall A B (f : A -> B) l n, enum n (map f l) = map (fun e => (fst e, f (snd e))) (enum n l).
Proof. induction l as [|x l IH]; intros n; cbn [enum map]; [reflexivity|]. rewrite IH. reflexivity. Qed.
Lemma enum_ge : forall A (l : list A) n, Forall (fun e => n <= fst e) (enum n l).
Proof.
  induction l as [|x l IH]; intros n; constructor; [cbn; lia|]. eapply Forall_impl; [|apply (IH (n + 1))]. cbn beta. intros a L. lia.
Qed.
Lemma enum_lt : forall A (l : list A) n, Forall (fun e => fst e < n + len l) (enum n l).
Proof.
  induction l as [|x l IH]; intros n; constructor; unfold len in *; cbn [List.length fst]; [lia|]. eapply Forall_impl; [|apply (IH (n + 1))]. cbn beta. intros a L. lia.
Qed.
Lemma filter_all' : forall A (f : A -> bool) l, Forall (fun e => f e = true) l -> filter f l = l.
Proof. induction l as [|x l IH]; intros F; [reflexivity|]. inversion F; subst. cbn. rewrite H1, IH by assumption. reflexivity. Qed.
Lemma filter_none' : forall A (f : A -> bool) l, Forall (fun e => f e = false) l -> filter f l = [].
Proof. induction l as [|x l IH]; intros F; [reflexivity|]. inversion F; subst. cbn. rewrite H1, IH by assumption. reflexivity. Qed.
Lemma filter_enum : forall A (a b : list A), filter (fun e => len a <=? fst e) (enum 0 (a ++ b)) = enum (len a) b.
Proof.
  intros A a b. rewrite enum_app, filter_app, filter_none', filter_all'.
  - rewrite N.add_0_l. reflexivity.
  - eapply Forall_impl; [|apply enum_ge]. cbn beta. intros e L. apply N.leb_le. lia.
  - eapply Forall_impl; [|apply enum_lt]. cbn beta. intros e L. apply N.leb_gt. lia.
Qed.
Lemma tnext_enum : forall l, tnext (enum 0 l) = len l.
Proof.
  intros l. apply N.le_antisymm.
  - apply tnext_le. eapply Forall_impl; [|apply enum_lt]. cbn beta. intros e L. lia.
  - destruct l as [|x l] using rev_ind; [cbn; lia|]. clear IHl. pose proof (proj1 (tnext_le (enum 0 (l ++ [x])) (tnext (enum 0 (l ++ [x])))) (N.le_refl _)) as F.
    rewrite enum_app in F at 1. apply Forall_app in F. destruct F as [_ F]. inversion F; subst. cbn [fst] in H1. unfold len in *. rewrite app_length. cbn [List.length]. lia.
Qed.

(** ** Stored messages *)
Lemma get_put_same : forall k v st, get k (fst (put true k v st)) = Some v.
Proof.
  induction st as [|[k' v'] st IH]; cbn [put]; [cbn; rewrite beq_refl; reflexivity|].
  destruct (beq_spec k' k) as [->|NE]; [cbn; rewrite beq_refl; reflexivity|]. destruct (bltb k' k).
  - destruct (put true k v st) as [r b]. cbn [fst] in *. cbn [get]. destruct (beq_spec k' k); [congruence|exact IH].
  - cbn. rewrite beq_refl. reflexivity.
Qed.
Lemma get_put_other : forall k v st k', k' <> k -> get k' (fst (put true k v st)) = get k' st.
Proof.
  induction st as [|[k0 v0] st IH]; intros k' NE; cbn [put].
  - cbn. destruct (beq_spec k k'); [congruence|reflexivity].
  - destruct (beq_spec k0 k) as [->|NK]; [cbn; destruct (beq_spec k k'); [congruence|reflexivity]|]. destruct (bltb k0 k).
    + specialize (IH k' NE). destruct (put true k v st) as [r b]. cbn [fst] in *. cbn [get]. rewrite IH. reflexivity.
    + cbn [fst get]. destruct (beq_spec k k'); [congruence|reflexivity].
Qed.

Section Mail.
Variable dig : bytes -> bytes.
Variable K : bytes -> Prop.
Hypothesis FL : flat 46 K.

(** [M] are the messages by key *)
Definition MInv (M : bytes -> list bytes) (mb : mbx) : Prop :=
  OInv 46 K (tpcs mb) (fun k => enum 0 (map dig (M k))) /\ (forall k m, In m (M k) -> get (dig m) (msgs mb) = Some m).

Lemma minv0 : MInv (fun _ => []) (mkMbx [] []).
Proof. split; [apply oinv0|]. intros k m []. Qed.

Lemma minv_ext : forall M M' mb, (forall k, M k = M' k) -> MInv M mb -> MInv M' mb.
Proof.
  intros M M' mb E [[W V] G]. split; [split; [exact W|]|].
  - intros k. cbn beta in V. rewrite <- E. apply V.
  - intros k m IN. apply (G k). rewrite E. exact IN.
Qed.

Lemma store_ok : forall M mb k m, MInv M mb -> K k -> len (M k) <= MaxON ->
  (forall k' m', In m' (M k') -> dig m' = dig m -> m' = m) ->
  exists mb', storeMsg dig k m mb = Ok (mb', snd (put true (dig m) m (msgs mb))) /\
    MInv (fun k' => M k' ++ (if beq k k' then [m] else [])) mb'.
Proof.
  intros M mb k m [[W V] G] KK LE AP. unfold storeMsg, storeIndex, storeBody.
  destruct (append_ok 46 K goodsep46 FL k (dig m) (tpcs mb) W KK) as [(st' & A1 & A2 & A3 & A4 & A5)|(A1 & A2)].
  - rewrite A1. cbn [bind]. cbn [tpcs msgs]. destruct (put true (dig m) m (msgs mb)) as [ms b] eqn:P. eexists. split; [reflexivity|]. split; cbn [tpcs msgs].
    + split; [exact A3|]. intros k'. rewrite map_app, enum_app. destruct (beq_spec k k') as [<-|NE].
      * rewrite A4, (V k), tnext_enum, N.add_0_l. reflexivity.
      * rewrite A5 by congruence. rewrite (V k'). cbn [map enum]. rewrite app_nil_r. reflexivity.
    + intros k' m' IN. replace ms with (fst (put true (dig m) m (msgs mb))) by (rewrite P; reflexivity). apply in_app_or in IN.
      assert (C : m' = m \/ In m' (M k')). { destruct IN as [IN|IN]; [right; exact IN|]. destruct (beq k k'); [|destruct IN]. destruct IN as [<-|[]]. left. reflexivity. }
      destruct C as [->|IN']; [apply get_put_same|]. destruct (beq_spec (dig m') (dig m)) as [E|NE].
      * rewrite (AP k' m' IN' E). apply get_put_same.
      * rewrite get_put_other by exact NE. apply (G k'). exact IN'.
  - exfalso. rewrite (V k), tnext_enum in A2. unfold len in *. rewrite map_length in A2. lia.
Qed.

Lemma fetch_ok : forall M mb k l n, (forall m, In m l -> In m (M k)) -> MInv M mb -> Forall clean l ->
  fetch (msgs mb) (enum n (map dig l)) = Ok (enum n l).
Proof.
  intros M mb k l. induction l as [|m l IH]; intros n I MI C; [reflexivity|]. inversion C; subst. cbn [map enum fetch].
  destruct MI as [O G]. rewrite (G k m) by (apply I; left; reflexivity). destruct H1 as (C1 & C2 & _). unfold decode. rewrite C2. cbn [bind].
  rewrite IH; [|intros x IN; apply I; right; exact IN|split; assumption|assumption]. cbn [bind]. destruct m; [congruence|reflexivity].
Qed.
Lemma clone_ok : forall M mb k a b, MInv M mb -> K k -> M k = a ++ b -> len a <= MaxON -> Forall clean b ->
  cloneTopic k (len a) mb = Ok (enum (len a) b).
Proof.
  intros M mb k a b MI KK E LE C. pose proof MI as [O G]. unfold cloneTopic.
  destruct (oreads 46 K goodsep46 FL (tpcs mb) _ k (len a) O KK LE) as (_ & R & _). rewrite R. cbn [bind]. cbn beta. rewrite E, map_app.
  replace (len a) with (len (map dig a)) by (unfold len; rewrite map_length; reflexivity). rewrite filter_enum.
  apply (fetch_ok M mb k); [|exact MI|exact C]. intros m IN. rewrite E. apply in_or_app. right. exact IN.
Qed.
End Mail.
