(** contacts and notices *)
From Verif Require Import Prelude ThModel JsonModel DbModel Lex OgModel OgSpec OgProofs OgProofs2 OgProofs3 OgProofs4 OgThms.
From Coq Require Import Lia.
Open Scope N_scope.

(** For all histories of update, replace, set, unset and rem with names without dots, none but texts as values
    and no prefix that begins another: every operation ends as it should, and reading a prefix gives what was
    meant. *)
Theorem C113_read_partial : forall P E os, prefixes P -> honest E -> (forall o, In o os -> fair P o) ->
  ending E empty os = meantEnds nobody os /\ forall p, P p -> reads E (after E empty os) (means nobody os) p.
Proof. exact c113_read_partial. Qed.
Print Assumptions C113_read_partial.

(** list then gives every contact with a field, once, with the same fields, and nobody else. *)
Theorem C113_list_partial : forall P E os, prefixes P -> honest E -> (forall o, In o os -> fair P o) ->
  exists ps l, list_ (after E empty os) = Ok l /\ NoDup ps /\
    Forall2 (fun p e => P p /\ exists m, means nobody os p = Some m /\ shows e p m) ps l /\
    forall p m f t, P p -> means nobody os p = Some m -> m f = Some t -> In p ps.
Proof. exact c113_list_partial. Qed.
Print Assumptions C113_list_partial.

(** findExact gives exactly the contacts with this text in this field, each once. *)
Theorem C113_find_partial : forall P E os f v, prefixes P -> honest E -> (forall o, In o os -> fair P o) -> f <> s2b "id" ->
  exists ps ds, findExact E (after E empty os) f v = Ok ds /\ NoDup ps /\
    Forall2 (fun p d => exists e m, d = Some e /\ means nobody os p = Some m /\ shows e p m) ps ds /\
    forall p, In p ps <-> P p /\ exists m, means nobody os p = Some m /\ m f = Some v.
Proof. exact c113_find_partial. Qed.
Print Assumptions C113_find_partial.

(** A field with a dot in its name is taken, and from then on list and findExact raise, for everybody. *)
Theorem C113_dot_refuted : exists E os, honest E /\ ending E empty os = [Ok tt; Ok tt] /\
  list_ (after E empty os) = Err ValueError /\ findExact E (after E empty os) (s2b "alias") (s2b "sally") = Err ValueError /\
  getf E (after E empty os) (s2b "EA") (s2b "alias") = Ok (Some (Txt (s2b "sally"))).
Proof. exact c113_dot_refuted. Qed.
Print Assumptions C113_dot_refuted.

(** A field id is taken: then get gives the prefix as id, and list the text that was given. *)
Theorem C113_id_refuted : exists E os, honest E /\ ending E empty os = [Ok tt] /\
  getc E (after E empty os) (s2b "EA") = Ok (Some [(s2b "id", Txt (s2b "EA"))]) /\ list_ (after E empty os) = Ok [[(s2b "id", Txt (s2b "EB"))]].
Proof. exact c113_id_refuted. Qed.
Print Assumptions C113_id_refuted.

(** A value that is no text makes update raise, but get shows the data as stored, and list nothing. *)
Theorem C113_value_refuted : exists E os, ending E empty os = [Err TypeError] /\ list_ (after E empty os) = Ok [] /\
  getf E (after E empty os) (s2b "EA") (s2b "alias") = Ok (Some (Txt (s2b "sally"))).
Proof. exact c113_value_refuted. Qed.
Print Assumptions C113_value_refuted.

(** Removing a contact whose prefix begins another one, or the empty text, takes the others out of list, though
    get still has them. *)
Theorem C113_begins_refuted : exists E x, honest E /\ forall q, In q [s2b "EA"; []] ->
  let b := after E empty [Update (s2b "EA") x; Update (s2b "EAB") [(s2b "alias", Txt (s2b "sally"))]; Rem q] in
  list_ b = Ok [] /\ getf E b (s2b "EAB") (s2b "alias") = Ok (Some (Txt (s2b "sally"))).
Proof. exact c113_begins_refuted. Qed.
Print Assumptions C113_begins_refuted.

(** A contact without fields is there for get, and not for list. *)
Theorem C113_blank_refuted : exists E os, honest E /\ ending E empty os = [Ok tt] /\ list_ (after E empty os) = Ok [] /\
  getc E (after E empty os) (s2b "EA") = Ok (Some [(s2b "id", Txt (s2b "EA"))]).
Proof. exact c113_blank_refuted. Qed.
Print Assumptions C113_blank_refuted.

(** For all histories of operations, finished or crashed, and of writes by somebody who can make no signature:
    what get gives, but for id, is a text signed for another purpose, or what an operation of the history had
    get give, of its own prefix, when it was done. *)
Theorem C114_genuine : forall E S l b p d, unforgeable E -> hist E S empty l b -> getc E b p = Ok (Some d) ->
  (exists r e, S r /\ loads E r = Ok e /\ forall f, f <> s2b "id" -> dget d f = dget e f) \/
  exists b' o e, In (b', o) l /\ getc E (step E b' o) (whom o) = Ok (Some e) /\ forall f, f <> s2b "id" -> dget d f = dget e f.
Proof. exact c114_genuine. Qed.
Print Assumptions C114_genuine.

(** But the prefix is not signed: data of one contact can be put under the prefix of another; *)
Theorem C114_swap_refuted : exists E l b d, unforgeable E /\ honest E /\ hist E (fun _ => False) empty l b /\ (forall b' o, In (b', o) l -> whom o = s2b "EA") /\
  getc E b (s2b "EB") = Ok (Some d) /\ dget d (s2b "id") = Some (Txt (s2b "EB")).
Proof. exact c114_swap_refuted. Qed.
Print Assumptions C114_swap_refuted.

(** and the fields, which list and findExact look at, are not signed at all. *)
Theorem C114_list_refuted : exists E l b, unforgeable E /\ honest E /\ hist E (fun _ => False) empty l b /\
  getf E b (s2b "EA") (s2b "alias") = Ok (Some (Txt (s2b "sally"))) /\ list_ b = Ok [[(s2b "id", Txt (s2b "EA")); (s2b "alias", Txt (s2b "mallory"))]].
Proof. exact c114_list_refuted. Qed.
Print Assumptions C114_list_refuted.

(** A crash anywhere in an operation on one contact leaves all others as they were, and operations on them
    still end as they should. *)
Theorem C114_others : forall P E os o n os', prefixes P -> honest E -> (forall o, In o os -> fair P o) -> fair P o ->
  (forall o', In o' os' -> fair P o' /\ whom o' <> whom o) ->
  let b := crash E n (after E empty os) o in
  ending E b os' = meantEnds (means nobody os) os' /\
  forall p, P p -> p <> whom o -> reads E (after E b os') (means (means nobody os) os') p.
Proof. exact c114_others. Qed.
Print Assumptions C114_others.

(** And rem of the contact repairs it: from then on all is as meant, the contact gone. *)
Theorem C114_heals : forall P E os o n os', prefixes P -> honest E -> (forall o, In o os -> fair P o) -> fair P o -> (forall o, In o os' -> fair P o) ->
  let b := crash E n (after E empty os) o in let a := put1 (means nobody os) (whom o) None in
  ending E b (Rem (whom o) :: os') = Ok tt :: meantEnds a os' /\ forall p, P p -> reads E (after E b (Rem (whom o) :: os')) (means a os') p.
Proof. exact c114_heals. Qed.
Print Assumptions C114_heals.

(** But until then it cannot be read, nor written: update over a contact, crashed after the signature. *)
Theorem C114_crash_refuted : exists E os d, honest E /\ let b := crash E 1 (after E empty os) (Update (s2b "EA") d) in
  getc E (after E empty os) (s2b "EA") <> Ok None /\ getc E b (s2b "EA") = Err ValidationError /\
  (forall d', snd (plan E b (Update (s2b "EA") d')) = Err ValidationError) /\ forall f v, snd (plan E b (SetF (s2b "EA") f v)) = Err ValidationError.
Proof. exact c114_crash_refuted. Qed.
Print Assumptions C114_crash_refuted.

(** And a crash in set loses the whole contact. *)
Theorem C114_lost_refuted : exists E os n f v, honest E /\ let b := crash E n (after E empty os) (SetF (s2b "EA") f v) in
  getf E (after E empty os) (s2b "EA") (s2b "alias") = Ok (Some (Txt (s2b "sally"))) /\ f <> s2b "alias" /\ getc E b (s2b "EA") = Ok None.
Proof. exact c114_lost_refuted. Qed.
Print Assumptions C114_lost_refuted.

(** For all histories of add, rem and mar: every operation ends as it should, the count is right, and all
    notices are listed, by time, as they are. *)
Theorem C115_notes : forall E os, nhonest E -> (forall o, In o os -> nfair o) ->
  nending E none os = nmeantEnds clear os /\
  exists all, allOf (nmeans clear os) all /\ getNotes E (nafter E none os) 0 (-1) = Ok all /\ ncnt (nafter E none os) = len all.
Proof. exact c115_notes. Qed.
Print Assumptions C115_notes.

(** Page by page gives the same: a page is this part of the list, and the pages together are the list. *)
Theorem C115_pages : forall E os all, nhonest E -> (forall o, In o os -> nfair o) -> getNotes E (nafter E none os) 0 (-1) = Ok all ->
  (forall s k, (1 <= k)%nat -> getNotes E (nafter E none os) s (Z.of_nat s + Z.of_nat k - 1) = Ok (firstn k (skipn s all))) /\
  forall k m, (1 <= k)%nat -> (List.length all <= m * k)%nat -> flat_map (fun j => firstn k (skipn (j * k) all)) (seq 0 m) = all.
Proof. exact c115_pages. Qed.
Print Assumptions C115_pages.

(** But a page that ends before it begins is everything from there on. *)
Theorem C115_range_refuted : exists E os, nhonest E /\ (forall o, In o os -> nfair o) /\ exists l, getNotes E (nafter E none os) 1 0 = Ok l /\ l <> [].
Proof. exact c115_range_refuted. Qed.
Print Assumptions C115_range_refuted.

(** A crash in add leaves the lists as they were, or as they are after it. *)
Theorem C116_add : forall E os r d t k, nhonest E -> (forall o, In o os -> nfair o) -> nfair (NAdd r d t) ->
  let b := nafter E none os in forall s e,
  getNotes E (ncrash E k b (NAdd r d t)) s e = getNotes E b s e \/ getNotes E (ncrash E k b (NAdd r d t)) s e = getNotes E (nstep E b (NAdd r d t)) s e.
Proof. exact c116_add. Qed.
Print Assumptions C116_add.

(** A crash in an operation on one notice leaves the operations on all others to end as they should. *)
Theorem C116_others : forall E os o k os', nhonest E -> (forall o, In o os -> nfair o) -> nfair o -> (forall o', In o' os' -> nfair o' /\ who o' <> who o) ->
  nending E (ncrash E k (nafter E none os) o) os' = nmeantEnds (nmeans clear os) os'.
Proof. exact c116_others. Qed.
Print Assumptions C116_others.

(** But one crash in rem, after index and signature are gone, and the list of all notices raises, for ever:
    whatever is added, marked or removed later, unless the same random id is drawn again. *)
Theorem C116_rem_refuted : forall E os r n os', nhonest E -> (forall o, In o os -> nfair o) -> nmeans clear os r = Some n ->
  (forall o, In o os' -> nfair o /\ forall d t, o <> NAdd r d t) ->
  exists x, getNotes E (nafter E (ncrash E 2 (nafter E none os) (NRem r)) os') 0 (-1) = Err x.
Proof. exact c116_rem_refuted. Qed.
Print Assumptions C116_rem_refuted.

(** A crash in mar makes the list raise too; and one in add leaves an id of which rem and mar raise. *)
Theorem C116_mark_refuted : exists E os r, nhonest E /\ (forall o, In o os -> nfair o) /\ getNotes E (ncrash E 2 (nafter E none os) (NMar r)) 0 (-1) = Err ValidationError.
Proof. exact c116_mark_refuted. Qed.
Print Assumptions C116_mark_refuted.

Theorem C116_stuck_refuted : exists E r d t, nhonest E /\ nfair (NAdd r d t) /\ let b := ncrash E 2 none (NAdd r d t) in
  nending E b [NAdd r d t; NRem r; NMar r; NAdd r d t] = [Ok false; Err AttributeError; Err AttributeError; Ok false] /\ getNotes E b 0 (-1) = Ok [].
Proof. exact c116_stuck_refuted. Qed.
Print Assumptions C116_stuck_refuted.
