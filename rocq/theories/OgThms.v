(** Properties of contacts and of notices. *)
From Coq Require Import Lia.
From Verif Require Import Prelude ThModel JsonModel DbModel Lex OgModel OgSpec OgProofs OgProofs2 OgProofs3 OgProofs4.
Ltac Zify.zify_post_hook ::= Z.div_mod_to_equations.
Open Scope N_scope.

(** a serialisation of dictionaries: lengths and texts *)
Definition tagx (v : fval) : N := match v with Txt _ => 0 | Oth _ => 1 end.
Definition txtx (v : fval) : bytes := match v with Txt t | Oth t => t end.
Definition dumpx (d : dict) : bytes := flat_map (fun x => len (fst x) :: fst x ++ tagx (snd x) :: len (txtx (snd x)) :: txtx (snd x)) d.
Fixpoint loadn (fuel : nat) (l : bytes) : res dict :=
  match fuel with
  | O => Err ValueError
  | Datatypes.S k =>
      match l with
      | [] => Ok []
      | n :: l => match ndrop n l with
                  | tag :: m :: l' => r <- loadn k (ndrop m l') ;; Ok ((ntake n l, if tag =? 0 then Txt (ntake m l') else Oth (ntake m l')) :: r)
                  | _ => Err ValueError
                  end
      end
  end.
Definition loadx (l : bytes) : res dict := loadn (Datatypes.S (List.length l)) l.
Definition envx : env := mkE dumpx loadx (fun raw => 83 :: raw) (fun raw cg => beq cg (83 :: raw)).
Lemma drop_len : forall (a b : bytes), ndrop (len a) (a ++ b) = b.
Proof. intros a b. unfold ndrop, len. rewrite Nat2N.id. induction a; [reflexivity|exact IHa]. Qed.
Lemma take_len : forall (a b : bytes), ntake (len a) (a ++ b) = a.
Proof. intros a b. unfold ntake, len. rewrite Nat2N.id. induction a as [|x a IH]; [reflexivity|]. cbn. rewrite IH. reflexivity. Qed.
Lemma loadn_dump : forall d k, (List.length (dumpx d) < k)%nat -> loadn k (dumpx d) = Ok d.
Proof.
  induction d as [|[f v] d IH]; intros k H; [destruct k; [lia|reflexivity]|]. destruct k as [|k]; [lia|]. cbn [dumpx flat_map fst snd] in *. fold (dumpx d) in *. cbn [loadn app]. rewrite <- !app_assoc. cbn [app].
  rewrite drop_len, take_len. cbn [app]. rewrite drop_len, take_len. rewrite IH by (cbn [List.length] in H; rewrite !app_length in H; cbn [List.length] in H; rewrite ?app_length in H; lia). cbn [bind]. destruct v; reflexivity.
Qed.
Lemma honestx : honest envx.
Proof. split; [intros d _ _; exact (loadn_dump d _ (Nat.lt_succ_diag_r _))|intros raw; apply beq_refl]. Qed.
Lemma unforgeablex : unforgeable envx.
Proof. split; [intros raw cg H; apply beq_eq in H; exact H|intros r r' [= ->]; reflexivity]. Qed.
Definition EA := s2b "EA". Definition EB := s2b "EB".
Definition Px (p : bytes) : Prop := p = EA \/ p = EB.
Lemma prefixesx : prefixes Px.
Proof.
  assert (ND : forall s : bytes, forallb (fun x => negb (x =? 46)) s = true -> ~ In 46 s) by (intros s H I; rewrite forallb_forall in H; specialize (H _ I); discriminate H).
  intros p [-> | ->]; (split; [discriminate|split; [vm_compute; discriminate|split; [apply ND; reflexivity|]]]); intros q t [-> | ->]; cbn; intros H; first [reflexivity | discriminate H].
Qed.
Definition al := s2b "alias". Definition co := s2b "company".
Lemma fieldx : forall p f, Px p -> In f [al; co] -> field p f.
Proof.
  assert (ND : forall s : bytes, forallb (fun x => negb (x =? 46)) s = true -> ~ In 46 s) by (intros s H I; rewrite forallb_forall in H; specialize (H _ I); discriminate H).
  intros p f [-> | ->] [<-|[<-|[]]]; (split; [apply ND; reflexivity|split; [discriminate|vm_compute; discriminate]]).
Qed.
Definition osx : list cop := [Update EA [(al, Txt (s2b "sally")); (co, Txt (s2b "GLEIF"))]; Update EB [(al, Txt (s2b "sal"))]; SetF EB co (Txt (s2b "GLEIF"));
  Unset EA co; Replace EB [(al, Txt (s2b "sally"))]].
Lemma fairx : forall o, In o osx -> fair Px o.
Proof.
  intros o [<-|[<-|[<-|[<-|[<-|[]]]]]]; cbn; unfold fair; cbn [whom].
  - split; [left; reflexivity|]. split; [constructor; [intros [H|[]]; discriminate H|constructor; [intros []|constructor]]|]. split; intros f v [[= <- <-]|[[= <- <-]|[]]]; eauto; apply fieldx; unfold Px; cbn; auto.
  - split; [right; reflexivity|]. split; [constructor; [intros []|constructor]|]. split; intros f v [[= <- <-]|[]]; eauto; apply fieldx; unfold Px; cbn; auto.
  - split; [right; reflexivity|]. split; [apply fieldx; unfold Px; cbn; auto|eauto].
  - split; [left; reflexivity|]. apply fieldx; unfold Px; cbn; auto.
  - split; [right; reflexivity|]. split; [constructor; [intros []|constructor]|]. split; intros f v [[= <- <-]|[]]; eauto; apply fieldx; unfold Px; cbn; auto.
Qed.

(** ** C113: contacts are read as they were written *)

Lemma c113_read_partial : forall P E os, prefixes P -> honest E -> (forall o, In o os -> fair P o) ->
  ending E empty os = meantEnds nobody os /\ forall p, P p -> reads E (after E empty os) (means nobody os) p.
Proof.
  intros P E os HP HE F. destruct (inv_after P HP E HE noX os empty nobody (inv_empty P E)) as [I EN]; [intros o H; split; [apply F; exact H|intros []]|].
  split; [exact EN|]. intros p Pp. apply (inv_reads P HP E HE noX); [exact I|exact Pp|intros []].
Qed.
Example read_ex : (forall o, In o osx -> fair Px o) /\ ending envx empty osx = [Ok tt; Ok tt; Ok tt; Ok tt; Ok tt] /\
  getc envx (after envx empty osx) EA = Ok (Some [(al, Txt (s2b "sally")); (s2b "id", Txt EA)]).
Proof. split; [exact fairx|]. split; vm_compute; reflexivity. Qed.

Lemma c113_list_partial : forall P E os, prefixes P -> honest E -> (forall o, In o os -> fair P o) ->
  exists ps l, list_ (after E empty os) = Ok l /\ NoDup ps /\
    Forall2 (fun p e => P p /\ exists m, means nobody os p = Some m /\ shows e p m) ps l /\
    forall p m f t, P p -> means nobody os p = Some m -> m f = Some t -> In p ps.
Proof.
  intros P E os HP HE F. destruct (inv_after P HP E HE noX os empty nobody (inv_empty P E)) as [I EN]; [intros o H; split; [apply F; exact H|intros []]|].
  apply (list_agrees P HP E); exact I.
Qed.
Example list_ex : list_ (after envx empty osx) = Ok [[(s2b "id", Txt EA); (al, Txt (s2b "sally"))]; [(s2b "id", Txt EB); (al, Txt (s2b "sally"))]].
Proof. vm_compute. reflexivity. Qed.

Lemma c113_find_partial : forall P E os f v, prefixes P -> honest E -> (forall o, In o os -> fair P o) -> f <> s2b "id" ->
  exists ps ds, findExact E (after E empty os) f v = Ok ds /\ NoDup ps /\
    Forall2 (fun p d => exists e m, d = Some e /\ means nobody os p = Some m /\ shows e p m) ps ds /\
    forall p, In p ps <-> P p /\ exists m, means nobody os p = Some m /\ m f = Some v.
Proof.
  intros P E os f v HP HE F N. destruct (inv_after P HP E HE noX os empty nobody (inv_empty P E)) as [I EN]; [intros o H; split; [apply F; exact H|intros []]|].
  apply (find_agrees P HP E HE); [exact I|exact N].
Qed.
Example find_ex : findExact envx (after envx empty (firstn 3 osx)) co (s2b "GLEIF") = Ok
  [Some [(al, Txt (s2b "sally")); (co, Txt (s2b "GLEIF")); (s2b "id", Txt EA)]; Some [(al, Txt (s2b "sal")); (s2b "id", Txt EB); (co, Txt (s2b "GLEIF"))]].
Proof. vm_compute. reflexivity. Qed.

Lemma c113_dot_refuted : exists E os, honest E /\ ending E empty os = [Ok tt; Ok tt] /\
  list_ (after E empty os) = Err ValueError /\ findExact E (after E empty os) (s2b "alias") (s2b "sally") = Err ValueError /\
  getf E (after E empty os) (s2b "EA") (s2b "alias") = Ok (Some (Txt (s2b "sally"))).
Proof.
  exists envx, [Update EA [(al, Txt (s2b "sally"))]; Update EB [(s2b "a.b", Txt (s2b "x"))]]. split; [exact honestx|]. vm_compute. auto.
Qed.
Lemma c113_id_refuted : exists E os, honest E /\ ending E empty os = [Ok tt] /\
  getc E (after E empty os) (s2b "EA") = Ok (Some [(s2b "id", Txt (s2b "EA"))]) /\ list_ (after E empty os) = Ok [[(s2b "id", Txt (s2b "EB"))]].
Proof. exists envx, [Update EA [(s2b "id", Txt EB)]]. split; [exact honestx|]. vm_compute. auto. Qed.
Lemma c113_value_refuted : exists E os, ending E empty os = [Err TypeError] /\ list_ (after E empty os) = Ok [] /\
  getf E (after E empty os) (s2b "EA") (s2b "alias") = Ok (Some (Txt (s2b "sally"))).
Proof. exists envx, [Update EA [(s2b "n", Oth (s2b "1")); (al, Txt (s2b "sally"))]]. vm_compute. auto. Qed.
Lemma c113_begins_refuted : exists E x, honest E /\ forall q, In q [s2b "EA"; []] ->
  let b := after E empty [Update (s2b "EA") x; Update (s2b "EAB") [(s2b "alias", Txt (s2b "sally"))]; Rem q] in
  list_ b = Ok [] /\ getf E b (s2b "EAB") (s2b "alias") = Ok (Some (Txt (s2b "sally"))).
Proof. exists envx, [(al, Txt (s2b "x"))]. split; [exact honestx|]. intros q [<-|[<-|[]]]; vm_compute; auto. Qed.
Lemma c113_blank_refuted : exists E os, honest E /\ ending E empty os = [Ok tt] /\ list_ (after E empty os) = Ok [] /\
  getc E (after E empty os) (s2b "EA") = Ok (Some [(s2b "id", Txt (s2b "EA"))]).
Proof. exists envx, [Update EA []]. split; [exact honestx|]. vm_compute. auto. Qed.

(** ** C114: contacts, crashes and writers without the key *)

Lemma c114_genuine : forall E S l b p d, unforgeable E -> hist E S empty l b -> getc E b p = Ok (Some d) ->
  (exists r e, S r /\ loads E r = Ok e /\ forall f, f <> s2b "id" -> dget d f = dget e f) \/
  exists b' o e, In (b', o) l /\ getc E (step E b' o) (whom o) = Ok (Some e) /\ forall f, f <> s2b "id" -> dget d f = dget e f.
Proof. intros. eapply genuine; eauto. Qed.
Definition b1 : book := step envx empty (Update EA [(al, Txt (s2b "sally"))]).
Example genuine_ex : exists l b, hist envx (fun _ => False) empty l b /\ b <> b1 /\ getc envx b EA = Ok (Some [(al, Txt (s2b "sally")); (s2b "id", Txt EA)]).
Proof.
  exists [(empty, Update EA [(al, Txt (s2b "sally"))])], (wr b1 (WFld (s2b "EB.x") (s2b "y"))). split; [|split; [intros H; vm_compute in H; discriminate H|vm_compute; reflexivity]].
  apply (h_write envx (fun _ => False) empty [(empty, Update EA [(al, Txt (s2b "sally"))])] b1 (WFld (s2b "EB.x") (s2b "y"))); [|intros p cg H; discriminate H].
  change b1 with (crash envx 3 empty (Update EA [(al, Txt (s2b "sally"))])). apply (h_op envx (fun _ => False) empty [] empty). constructor.
Qed.
Lemma c114_swap_refuted : exists E l b d, unforgeable E /\ honest E /\ hist E (fun _ => False) empty l b /\ (forall b' o, In (b', o) l -> whom o = s2b "EA") /\
  getc E b (s2b "EB") = Ok (Some d) /\ dget d (s2b "id") = Some (Txt (s2b "EB")).
Proof.
  set (o := Update EA [(al, Txt (s2b "sally"))]). set (raw := dumpx [(al, Txt (s2b "sally"))]). exists envx, [(empty, o)], (wr (wr b1 (WSig EB (83 :: raw))) (WDat EB raw)), [(al, Txt (s2b "sally")); (ID, Txt EB)].
  split; [exact unforgeablex|]. split; [exact honestx|]. split; [|split; [intros b' o' [[= <- <-]|[]]; reflexivity|split; vm_compute; reflexivity]].
  apply (h_write envx (fun _ => False) empty [(empty, o)] _ (WDat EB raw)); [|intros p cg H; discriminate H].
  apply (h_write envx (fun _ => False) empty [(empty, o)] b1 (WSig EB (83 :: raw))).
  - change b1 with (crash envx 3 empty o). apply (h_op envx (fun _ => False) empty [] empty). constructor.
  - intros p cg [= <- <-]. right. right. exists empty, o, EA. split; [left; reflexivity|]. vm_compute. left. reflexivity.
Qed.
Lemma c114_list_refuted : exists E l b, unforgeable E /\ honest E /\ hist E (fun _ => False) empty l b /\
  getf E b (s2b "EA") (s2b "alias") = Ok (Some (Txt (s2b "sally"))) /\ list_ b = Ok [[(s2b "id", Txt (s2b "EA")); (s2b "alias", Txt (s2b "mallory"))]].
Proof.
  set (o := Update EA [(al, Txt (s2b "sally"))]). exists envx, [(empty, o)], (wr b1 (WFld (s2b "EA.alias") (s2b "mallory"))). split; [exact unforgeablex|]. split; [exact honestx|]. split; [|split; vm_compute; reflexivity].
  apply (h_write envx (fun _ => False) empty [(empty, o)] b1); [|intros p cg H; discriminate H]. change b1 with (crash envx 3 empty o). apply (h_op envx (fun _ => False) empty [] empty). constructor.
Qed.

Lemma c114_others : forall P E os o n os', prefixes P -> honest E -> (forall o, In o os -> fair P o) -> fair P o ->
  (forall o', In o' os' -> fair P o' /\ whom o' <> whom o) ->
  let b := crash E n (after E empty os) o in
  ending E b os' = meantEnds (means nobody os) os' /\
  forall p, P p -> p <> whom o -> reads E (after E b os') (means (means nobody os) os') p.
Proof.
  intros P E os o n os' HP HE F Fo F'. destruct (inv_after P HP E HE noX os empty nobody (inv_empty P E)) as [I _]; [intros o' H; split; [apply F; exact H|intros []]|].
  pose proof (inv_crash P HP E HE noX _ _ o n I Fo (fun x => x)) as I2. destruct (inv_after P HP E HE _ os' _ _ I2) as [I3 E3]; [intros o' H; destruct (F' o' H) as [A B]; split; [exact A|intros [[]|X]; contradiction]|].
  split; [exact E3|]. intros p Pp N. eapply (inv_reads P HP E HE); [exact I3|exact Pp|intros [[]|X]; contradiction].
Qed.
Example others_ex : fair Px (SetF EB co (Txt (s2b "GLEIF"))) /\ getf envx (crash envx 4 (after envx empty (firstn 2 osx)) (SetF EB co (Txt (s2b "GLEIF")))) EA al = Ok (Some (Txt (s2b "sally"))).
Proof. split; [apply fairx; cbn; auto|vm_compute; reflexivity]. Qed.
Lemma c114_heals : forall P E os o n os', prefixes P -> honest E -> (forall o, In o os -> fair P o) -> fair P o -> (forall o, In o os' -> fair P o) ->
  let b := crash E n (after E empty os) o in let a := put1 (means nobody os) (whom o) None in
  ending E b (Rem (whom o) :: os') = Ok tt :: meantEnds a os' /\ forall p, P p -> reads E (after E b (Rem (whom o) :: os')) (means a os') p.
Proof.
  intros P E os o n os' HP HE F Fo F'. destruct (inv_after P HP E HE noX os empty nobody (inv_empty P E)) as [I _]; [intros o' H; split; [apply F; exact H|intros []]|].
  pose proof (inv_crash P HP E HE noX _ _ o n I Fo (fun x => x)) as I2. destruct (inv_rem P HP E _ _ _ (whom o) I2 (proj1 Fo)) as [I3 E3].
  destruct (inv_after P HP E HE _ os' _ _ I3) as [I4 E4]; [intros o' H; split; [apply F'; exact H|intros [[[]|X] Y]; contradiction]|].
  cbn [ending after]. rewrite E3, E4. split; [reflexivity|]. intros p Pp. eapply (inv_reads P HP E HE); [exact I4|exact Pp|intros [[[]|X] Y]; contradiction].
Qed.
Example heals_ex : getc envx (crash envx 1 (after envx empty osx) (Update EA [(co, Txt (s2b "x"))])) EA = Err ValidationError /\
  ending envx (crash envx 1 (after envx empty osx) (Update EA [(co, Txt (s2b "x"))])) [Rem EA; Update EA [(al, Txt (s2b "sally"))]] = [Ok tt; Ok tt].
Proof. split; vm_compute; reflexivity. Qed.
Lemma c114_crash_refuted : exists E os d, honest E /\ let b := crash E 1 (after E empty os) (Update (s2b "EA") d) in
  getc E (after E empty os) (s2b "EA") <> Ok None /\ getc E b (s2b "EA") = Err ValidationError /\
  (forall d', snd (plan E b (Update (s2b "EA") d')) = Err ValidationError) /\ forall f v, snd (plan E b (SetF (s2b "EA") f v)) = Err ValidationError.
Proof.
  exists envx, [Update EA [(al, Txt (s2b "sally"))]], [(co, Txt (s2b "GLEIF"))]. split; [exact honestx|]. set (b := crash envx 1 _ _). assert (G : getc envx b (s2b "EA") = Err ValidationError) by (vm_compute; reflexivity).
  split; [intros H; vm_compute in H; discriminate H|]. split; [exact G|]. split; [intros d'|intros f v]; cbn [plan]; [unfold update|unfold set]; rewrite G; reflexivity.
Qed.
Lemma c114_lost_refuted : exists E os n f v, honest E /\ let b := crash E n (after E empty os) (SetF (s2b "EA") f v) in
  getf E (after E empty os) (s2b "EA") (s2b "alias") = Ok (Some (Txt (s2b "sally"))) /\ f <> s2b "alias" /\ getc E b (s2b "EA") = Ok None.
Proof. exists envx, [Update EA [(al, Txt (s2b "sally"))]], 3%nat, co, (Txt (s2b "GLEIF")). split; [exact honestx|]. vm_compute. split; [reflexivity|]. split; [discriminate|reflexivity]. Qed.

(** ** C115: notices *)
Definition ndumpx (n : note) : bytes := len (n_id n) :: n_id n ++ len (n_dt n) :: n_dt n ++ (if n_read n then 1 else 0) :: n_attr n.
Definition nloadx (l : bytes) : res note :=
  match l with
  | k :: l => match ndrop k l with
              | m :: l' => match ndrop m l' with r :: l'' => Ok (mkN (ntake k l) (ntake m l') (r =? 1) l'') | [] => Err ValueError end
              | [] => Err ValueError
              end
  | [] => Err ValueError
  end.
Definition nenvx : nenv := mkNE ndumpx nloadx (fun raw => 83 :: raw) (fun raw cg => beq cg (83 :: raw)).
Lemma nhonestx : nhonest nenvx.
Proof.
  split; [|intros raw; apply beq_refl]. intros [i d r a]. cbn [nload ndump nenvx]. unfold nloadx, ndumpx. cbn [n_id n_dt n_read n_attr]. rewrite drop_len, take_len, drop_len, take_len. destruct r; reflexivity.
Qed.
Definition R1 := s2b "0Aone". Definition R2 := s2b "0Atwo". Definition R3 := s2b "0Athree".
Definition nosx : list nop := [NAdd R1 (s2b "2026-01-02") (s2b "{}"); NAdd R2 (s2b "2026-01-01") (s2b "{}"); NAdd R3 (s2b "2026-01-01") (s2b "{}"); NMar R2; NMar R2; NRem R3; NRem R3].
Lemma nosl_x : forall s : bytes, forallb (fun x => negb (x =? 47)) s = true -> ~ In 47 s.
Proof. intros s H I. rewrite forallb_forall in H. specialize (H _ I). discriminate H. Qed.
Lemma nfairx : forall o, In o nosx -> nfair o.
Proof. intros o I. repeat (destruct I as [<-|I]; [split; [discriminate|split; [apply nosl_x; reflexivity|try exact Logic.I; apply nosl_x; reflexivity]]|]). contradiction. Qed.

Lemma c115_notes : forall E os, nhonest E -> (forall o, In o os -> nfair o) ->
  nending E none os = nmeantEnds clear os /\
  exists all, allOf (nmeans clear os) all /\ getNotes E (nafter E none os) 0 (-1) = Ok all /\ ncnt (nafter E none os) = len all.
Proof.
  intros E os HE F. destruct (ninv_after E HE (fun _ => False) os none clear (ninv_none E)) as [I EN]; [intros o H; split; [apply F; exact H|intros []]|]. split; [exact EN|].
  destruct (listed E HE _ _ I) as (all & A & C & G). exists all. split; [exact A|]. split; [rewrite G; reflexivity|exact C].
Qed.
Example notes_ex : (forall o, In o nosx -> nfair o) /\ nending nenvx none nosx = [Ok true; Ok true; Ok true; Ok true; Ok false; Ok true; Ok false] /\
  getNotes nenvx (nafter nenvx none nosx) 0 (-1) = Ok [mkN R2 (s2b "2026-01-01") true (s2b "{}"); mkN R1 (s2b "2026-01-02") false (s2b "{}")].
Proof. split; [exact nfairx|]. split; vm_compute; reflexivity. Qed.
Lemma c115_pages : forall E os all, nhonest E -> (forall o, In o os -> nfair o) -> getNotes E (nafter E none os) 0 (-1) = Ok all ->
  (forall s k, (1 <= k)%nat -> getNotes E (nafter E none os) s (Z.of_nat s + Z.of_nat k - 1) = Ok (firstn k (skipn s all))) /\
  forall k m, (1 <= k)%nat -> (List.length all <= m * k)%nat -> flat_map (fun j => firstn k (skipn (j * k) all)) (seq 0 m) = all.
Proof.
  intros E os all HE F GA. destruct (ninv_after E HE (fun _ => False) os none clear (ninv_none E)) as [I EN]; [intros o H; split; [apply F; exact H|intros []]|].
  destruct (listed E HE _ _ I) as (all' & A & C & G). rewrite G in GA. cbn in GA. injection GA as ->. split.
  - intros s k K. rewrite G. destruct (Z.eqb_spec (Z.of_nat s + Z.of_nat k - 1) (-1)); [lia|]. unfold cut. destruct (Z.leb_spec 1 (Z.of_nat s + Z.of_nat k - 1 - Z.of_nat s + 1)); [|lia]. replace (Z.to_nat (Z.of_nat s + Z.of_nat k - 1 - Z.of_nat s + 1)) with k by lia. reflexivity.
  - intros k m K L. rewrite (pages_cover k m 0 all). cbn [Nat.mul skipn]. apply firstn_all2. exact L.
Qed.
Example pages_ex : getNotes nenvx (nafter nenvx none nosx) 1 1 = Ok [mkN R1 (s2b "2026-01-02") false (s2b "{}")].
Proof. vm_compute. reflexivity. Qed.
Lemma c115_range_refuted : exists E os, nhonest E /\ (forall o, In o os -> nfair o) /\ exists l, getNotes E (nafter E none os) 1 0 = Ok l /\ l <> [].
Proof. exists nenvx, nosx. split; [exact nhonestx|]. split; [exact nfairx|]. eexists. split; [vm_compute; reflexivity|discriminate]. Qed.

(** ** C116: notices and crashes *)

Lemma c116_add : forall E os r d t k, nhonest E -> (forall o, In o os -> nfair o) -> nfair (NAdd r d t) ->
  let b := nafter E none os in forall s e,
  getNotes E (ncrash E k b (NAdd r d t)) s e = getNotes E b s e \/ getNotes E (ncrash E k b (NAdd r d t)) s e = getNotes E (nstep E b (NAdd r d t)) s e.
Proof.
  intros E os r d t k HE F Fo b s e. destruct (ninv_after E HE (fun _ => False) os none clear (ninv_none E)) as [I EN]; [intros o H; split; [apply F; exact H|intros []]|].
  eapply add_crash; eauto.
Qed.
Example add_ex : nfair (NAdd R3 (s2b "2026-01-03") (s2b "{}")).
Proof. split; [discriminate|]. split; apply nosl_x; reflexivity. Qed.
Lemma c116_others : forall E os o k os', nhonest E -> (forall o, In o os -> nfair o) -> nfair o -> (forall o', In o' os' -> nfair o' /\ who o' <> who o) ->
  nending E (ncrash E k (nafter E none os) o) os' = nmeantEnds (nmeans clear os) os'.
Proof.
  intros E os o k os' HE F Fo F'. destruct (ninv_after E HE (fun _ => False) os none clear (ninv_none E)) as [I _]; [intros o' H; split; [apply F; exact H|intros []]|].
  pose proof (ninv_crash E HE _ _ _ o k I Fo (fun x => x)) as I2. apply (ninv_after E HE _ os' _ _ I2). intros o' H. destruct (F' o' H) as [A B]. split; [exact A|]. intros [[]|X]. contradiction.
Qed.
Example nothers_ex : nending nenvx (ncrash nenvx 2 (nafter nenvx none nosx) (NRem R2)) [NMar R1; NRem R1; NRem R1] = [Ok true; Ok true; Ok false].
Proof. vm_compute. reflexivity. Qed.
Lemma c116_rem_refuted : forall E os r n os', nhonest E -> (forall o, In o os -> nfair o) -> nmeans clear os r = Some n ->
  (forall o, In o os' -> nfair o /\ forall d t, o <> NAdd r d t) ->
  exists x, getNotes E (nafter E (ncrash E 2 (nafter E none os) (NRem r)) os') 0 (-1) = Err x.
Proof.
  intros E os r n os' HE F M F'. destruct (ninv_after E HE (fun _ => False) os none clear (ninv_none E)) as [I _]; [intros o' H; split; [apply F; exact H|intros []]|].
  pose proof I as (Sh & K & G). pose proof (K _ _ M) as Or. pose proof (G _ Or (fun x => x)) as Gr. rewrite M in Gr. assert (Fr : nfair (NRem r)) by (split; [apply Or|split; [apply Or|exact Logic.I]]).
  pose proof (ninv_crash E HE _ _ _ (NRem r) 2 I Fr (fun x => x)) as I2. cbn [who] in I2.
  assert (OR : orphan E r (ncrash E 2 (nafter E none os) (NRem r))).
  { split; [apply I2|]. unfold ncrash. cbn [nplan]. unfold nrem. rewrite (nget_good E HE _ r n Gr). destruct Gr as (G1 & G2 & G3 & G4 & G5 & G6). rewrite G1. cbn [fst firstn nrun fold_left nwr nidx ncigs notes].
    destruct Sh as (S1 & S2 & S3 & _). split; [apply get_sdel_same; exact S1|]. split; [apply get_sdel_same; exact S2|]. exists n. auto. }
  revert I2 OR. generalize (ncrash E 2 (nafter E none os) (NRem r)). generalize (nmeans clear os). clear - HE F'. induction os' as [|o os' IH]; intros a b I2 OR; cbn [nafter]; [apply (orphan_fails E HE r b OR)|].
  destruct (F' o (or_introl eq_refl)) as [Fo NA]. destruct (orphan_step E HE r b a o _ OR I2 (or_intror eq_refl) Fo) as [OR' (a' & I3)]; [intros [[[]|X] Y]; contradiction|exact NA|].
  eapply IH; [intros o' H; apply F'; right; exact H|exact I3|exact OR'].
Qed.
Example rem_ex : nmeans clear nosx R1 = Some (mkN R1 (s2b "2026-01-02") false (s2b "{}")) /\
  getNotes nenvx (nafter nenvx (ncrash nenvx 2 (nafter nenvx none nosx) (NRem R1)) [NRem R1; NMar R1]) 0 (-1) = Err AttributeError.
Proof. split; vm_compute; reflexivity. Qed.
Lemma c116_mark_refuted : exists E os r, nhonest E /\ (forall o, In o os -> nfair o) /\ getNotes E (ncrash E 2 (nafter E none os) (NMar r)) 0 (-1) = Err ValidationError.
Proof. exists nenvx, nosx, R1. split; [exact nhonestx|]. split; [exact nfairx|]. vm_compute. reflexivity. Qed.
Lemma c116_stuck_refuted : exists E r d t, nhonest E /\ nfair (NAdd r d t) /\ let b := ncrash E 2 none (NAdd r d t) in
  nending E b [NAdd r d t; NRem r; NMar r; NAdd r d t] = [Ok false; Err AttributeError; Err AttributeError; Ok false] /\ getNotes E b 0 (-1) = Ok [].
Proof. exists nenvx, R1, (s2b "2026-01-02"), (s2b "{}"). split; [exact nhonestx|]. split; [split; [discriminate|split; apply nosl_x; reflexivity]|]. split; vm_compute; reflexivity. Qed.
