(** Model of the adjudication of key states reported by watchers: app/watching.py diffState (180-218)
    and Adjudicator (70-160), over the records that key state notices and watcher replies leave, as
    modelled in RpModel (obvs and ksns in [vals], knas in [ans]). *)
From Verif Require Import Prelude B64Model SubsModel ThModel JsonModel Lex RpModel.
Open Scope N_scope.

(** watching.py:16-32 Stateage, DiffState; the identifier is left out, it is that of the request *)
Inductive stateage := Even | Ahead | Behind | Duplicitous.
Record dstate := mkDs { ds_wit : bytes; ds_state : stateage; ds_sn : N; ds_dig : bytes }.

(** watching.py:180-218 diffState; the own key state has identifier, number and digest *)
Definition diffState (wit mypre : bytes) (mysn : N) (mydig : bytes) (k : ksr) : res dstate :=
  raise_if (negb (beq (ks_i k) mypre)) ValueError (
  Ok (mkDs wit (if mysn =? ks_s k then (if beq mydig (ks_d k) then Even else Duplicitous)
                else if ks_s k <? mysn then Behind else Ahead) (ks_s k) (ks_d k))).

(** The cues, without the identifiers of controller and watched one: the watchers, and what is told
    of them. *)
Inductive wcue :=
| Dup (wids : list bytes) (dups : list dstate)
| Update (wids : list bytes) (sn : N) (aheads : list dstate)
| Lagging (wids : list bytes) (behind : list dstate)
| Consistent (wids : list bytes) (states : list dstate).

(** watching.py:92-95: the keys of obvs that start with the controller, as texts (koming.py:227, no
    separator is added), each split into three parts.  A Python set has no fixed order; here it has
    that of insertion from the last key on. *)
Definition addB (a : bytes) (l : list bytes) : list bytes := if memB a l then l else a :: l.
Fixpoint watchersIn (d : rdb) (cid watched : bytes) (ks : list bytes) : res (list bytes) :=
  match ks with
  | [] => Ok []
  | k :: ks =>
      match k with
      | t :: rest =>
          if (t =? tagWat) && startswith cid rest then
            match splitb 46 rest with
            | [c; a; o] =>
                l <- watchersIn d cid watched ks ;;
                Ok (if match dget (vals d) k with Some v => beq v (flag true) | None => false end && beq o watched
                    then addB a l else l)
            | _ => Err ValueError
            end
          else watchersIn d cid watched ks
      | [] => watchersIn d cid watched ks
      end
  end.

(** self.hab.kevers[watched].state(): number and digest of the newest event *)
Definition mystate (kv : kview) (w : bytes) : option (N * bytes) :=
  match cur_sn kv w with
  | Some n => match at_sn kv w n with Some ev => Some (n, e_said ev) | None => None end
  | None => None
  end.

(** watching.py:103-110; [dec] reads a stored record back; AttributeError without a record *)
Fixpoint statesOf (dec : bytes -> ksr) (d : rdb) (watched : bytes) (sn : N) (dig : bytes) (ws : list bytes) : res (list dstate) :=
  match ws with
  | [] => Ok []
  | w :: ws =>
      match dget (ans d) (key tagKsn [watched; w]) with
      | None => statesOf dec d watched sn dig ws
      | Some dg =>
          match dget (vals d) (key tagKsn [dg]) with
          | None => Err AttributeError
          | Some rec =>
              s <- diffState w watched sn dig (dec rec) ;; l <- statesOf dec d watched sn dig ws ;; Ok (s :: l)
          end
      end
  end.

Definition is_dup (s : dstate) : bool := match ds_state s with Duplicitous => true | _ => false end.
Definition is_ahd (s : dstate) : bool := match ds_state s with Ahead => true | _ => false end.
Definition is_bhd (s : dstate) : bool := match ds_state s with Behind => true | _ => false end.

(** watching.py:97-99: the threshold *)
Definition threshold_of (toad : option N) (n : N) : N :=
  match toad with Some t => if t =? 0 then n else t | None => n end.

(** watching.py:112-160; [pick] is random.choice (142) *)
Definition judge (pick : list dstate -> nat) (ws : list bytes) (th : N) (states : list dstate) : option wcue :=
  match filter is_dup states with
  | _ :: _ => Some (Dup ws (filter is_dup states))
  | [] =>
      match filter is_ahd states with
      | a :: _ =>
          let ahds := filter is_ahd states in
          if existsb (fun s => negb (beq (ds_dig s) (ds_dig a))) ahds then Some (Dup ws ahds)
          else if th <=? len ahds then Some (Update ws (ds_sn (nth (pick ahds) ahds a)) ahds)
          else None
      | [] =>
          match filter is_bhd states with
          | _ :: _ => Some (Lagging ws (filter is_bhd states))
          | [] => Some (Consistent ws states)
          end
      end
  end.

(** watching.py:80-160 adjudicate for controller [cid] *)
Definition adjudicate (dec : bytes -> ksr) (pick : list dstate -> nat) (kv : kview) (d : rdb) (cid watched : bytes) (toad : option N)
    : res (option wcue) :=
  ws <- watchersIn d cid watched (map fst (vals d)) ;;
  let th := threshold_of toad (len ws) in
  raise_if (len ws <? th) ValueError (
  match mystate kv watched with
  | None => Err KeyError
  | Some (sn, dig) =>
      states <- statesOf dec d watched sn dig ws ;;
      Ok (judge pick ws th states)
  end).

(** watching.py:70-78 performAdjudications: an exception ends the loop after the request was taken;
    the requests left are the last component *)
Definition wcues (o : option wcue) : list wcue := match o with Some c => [c] | None => [] end.
Fixpoint perform (dec : bytes -> ksr) (pick : list dstate -> nat) (kv : kview) (d : rdb) (cid : bytes) (reqs : list (bytes * option N))
    : list wcue * option exn * list (bytes * option N) :=
  match reqs with
  | [] => ([], None, [])
  | (w, t) :: reqs =>
      match adjudicate dec pick kv d cid w t with
      | Err x => ([], Some x, reqs)
      | Ok o => let '(cs, x, rs) := perform dec pick kv d cid reqs in (wcues o ++ cs, x, rs)
      end
  end.
