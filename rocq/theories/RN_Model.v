(** Model of klayout_pex/rcx25/r/resistor_network.py (class ResistorNetwork)
    and klayout_pex/rcx25/r/conductance.py.

    Conductance objects are mutable and shared between the two directions of a
    resistor and the two star lists, so they live in a heap; a reference is an
    index into the heap.  Python's KeyError/ValueError are [None]. *)
From Coq Require Import String.
From Verif Require Import PyBase.
Set Implicit Arguments.
Local Open Scope Qc_scope.

(** kdb.Point: integer coordinates (resistor_network.py L51) *)
Definition point := (Z * Z)%type.
(** NodeID = int (resistor_network.py L39); ids are counted up from 0 *)
Definition nid := nat.
(** reference to a Conductance object *)
Definition ref := nat.

(** ResistorNetwork attributes, resistor_network.py L60-67.  [precious] is a
    Python set, kept as a list (only membership is observed).  The heap is not
    an attribute: it stands for the Conductance objects reachable from it. *)
Record net := mkNet {
  nodes : dict point nid;
  locations : dict nid point;
  s : dict (nid * nid) ref;
  node_to_s : dict nid (list (ref * nid));
  next_id : nid;
  precious : list nid;
  node_names : dict nid string;
  heap : list Qc }.

(** __init__, L60-67 *)
Definition empty_net : net := mkNet [] [] [] [] 0%nat [] [] [].

(** cond.cond of a Conductance object.  References in a network always point
    into the heap (Python has no dangling references), the default is never used. *)
Definition hget (h : list Qc) (r : ref) : Qc := nth r h 0.

Fixpoint hset (h : list Qc) (r : ref) (q : Qc) : list Qc :=
  match h, r with
  | [], _ => []
  | _ :: t, O => q :: t
  | x :: t, S r' => x :: hset t r' q
  end.

(** Conductance(cond), conductance.py L34-35: a fresh object *)
Definition new_cond (n : net) (g : Qc) : net * ref :=
  (mkNet (nodes n) (locations n) (s n) (node_to_s n) (next_id n) (precious n)
         (node_names n) (heap n ++ [g]), List.length (heap n)).

(** Conductance.add_parallel on object [r] with object [r2], conductance.py L46-48 *)
Definition add_parallel (n : net) (r r2 : ref) : net :=
  mkNet (nodes n) (locations n) (s n) (node_to_s n) (next_id n) (precious n)
        (node_names n) (hset (heap n) r (hget (heap n) r + hget (heap n) r2)).

Definition with_s (n : net) x := mkNet (nodes n) (locations n) x (node_to_s n) (next_id n) (precious n) (node_names n) (heap n).
Definition with_stars (n : net) x := mkNet (nodes n) (locations n) (s n) x (next_id n) (precious n) (node_names n) (heap n).
Definition with_nodes (n : net) x y := mkNet x y (s n) (node_to_s n) (next_id n) (precious n) (node_names n) (heap n).

(** node_id, L184-195 *)
Definition node_id (n : net) (p : point) : net * nid :=
  match dget (nodes n) p with
  | Some i => (n, i)
  | None =>
      let i := next_id n in
      (mkNet (dset (nodes n) p i) (dset (locations n) i p) (s n) (node_to_s n) (S i)
             (precious n) (node_names n) (heap n), i)
  end.

(** has_node, L197-201 *)
Definition has_node (n : net) (p : point) : bool := dmem (nodes n) p.

(** location, L217-224 *)
Definition location (n : net) (i : nid) : option point := dget (locations n) i.

(** name, L203-207 *)
Definition set_name (n : net) (i : nid) (nm : string) : net :=
  mkNet (nodes n) (locations n) (s n) (node_to_s n) (next_id n) (precious n)
        (dset (node_names n) i nm) (heap n).

(** mark_precious, L209-215 *)
Definition mark_precious (n : net) (i : nid) : net :=
  mkNet (nodes n) (locations n) (s n) (node_to_s n) (next_id n)
        (if in_dec Nat.eq_dec i (precious n) then precious n else precious n ++ [i])
        (node_names n) (heap n).

(** node_to_s[a] = [] if absent; node_to_s[a].append((cond, b)), L236-238 *)
Definition star_append (st : dict nid (list (ref * nid))) (a : nid) (e : ref * nid) :=
  match dget st a with
  | Some l => dset st a (l ++ [e])
  | None => dset st a [e]
  end.

(** add_cond with the object [r], L226-241 *)
Definition add_cond_ref (n : net) (a b : nid) (r : ref) : net :=
  match dget (s n) (a, b) with
  | Some r0 => add_parallel n r0 r
  | None =>
      let s' := dset (dset (s n) (a, b) r) (b, a) r in
      let st := star_append (node_to_s n) a (r, b) in
      let st := star_append st b (r, a) in
      with_stars (with_s n s') st
  end.

(** add_cond(a, b, Conductance(g)), the form used by eliminate_node L263 and by
    callers *)
Definition add_cond (n : net) (a b : nid) (g : Qc) : net :=
  let (n1, r) := new_cond n g in add_cond_ref n1 a b r.

(** list.remove(x): ValueError if absent *)
Fixpoint list_remove1 {A} `{EqDec A} (l : list A) (x : A) : option (list A) :=
  match l with
  | [] => None
  | y :: t => if eq_dec x y then Some t
              else match list_remove1 t x with Some t' => Some (y :: t') | None => None end
  end.

(** L274-277 / L293-296: drop the resistor (nid, other) from [other]'s star and both
    directions of [s] *)
Definition drop_resistor (n : net) (i : nid) (e : ref * nid) : option net :=
  let (c, other) := e in
  let n1 :=
    match dget (node_to_s n) other with
    | Some l => match list_remove1 l (c, i) with
                | Some l' => Some (with_stars n (dset (node_to_s n) other l'))
                | None => None
                end
    | None => Some n
    end in
  match n1 with
  | None => None
  | Some n1 =>
      match ddel (s n1) (i, other) with
      | None => None
      | Some s1 => match ddel s1 (other, i) with
                   | None => None
                   | Some s2 => Some (with_s n1 s2)
                   end
      end
  end.

Fixpoint drop_resistors (n : net) (i : nid) (star : list (ref * nid)) : option net :=
  match star with
  | [] => Some n
  | e :: t => match drop_resistor n i e with Some n1 => drop_resistors n1 i t | None => None end
  end.

(** L278-280 / L297-299 *)
Definition drop_node (n : net) (i : nid) : option net :=
  match ddel (node_to_s n) i with
  | None => None
  | Some st =>
      match dget (locations n) i with
      | None => None
      | Some p =>
          match ddel (nodes n) p, ddel (locations n) i with
          | Some nd, Some lo => Some (with_nodes (with_stars n st) nd lo)
          | _, _ => None
          end
      end
  end.

(** remove_node, L266-280.  The star list is read once: without self loops it is
    not changed by the loop (it is [node_to_s[other]] that is edited). *)
Definition remove_node (n : net) (i : nid) : option net :=
  match dget (node_to_s n) i with
  | None => Some n
  | Some star => match drop_resistors n i star with Some n1 => drop_node n1 i | None => None end
  end.

(** connect_nodes, L282-299 *)
Fixpoint move_resistors (n : net) (a b : nid) (star : list (ref * nid)) : option net :=
  match star with
  | [] => Some n
  | (c, other) :: t =>
      let n1 := if Nat.eq_dec other a then n else add_cond_ref n a other c in
      match drop_resistor n1 b (c, other) with
      | Some n2 => move_resistors n2 a b t
      | None => None
      end
  end.
Definition connect_nodes (n : net) (a b : nid) : option net :=
  match dget (node_to_s n) b with
  | None => Some n
  | Some star => match move_resistors n a b star with Some n1 => drop_node n1 b | None => None end
  end.

(** s_sum, L254-256 *)
Definition star_sum (n : net) (star : list (ref * nid)) : Qc :=
  fold_left (fun acc e => acc + hget (heap n) (fst e)) star 0.

(** the literal 1e-10 of L257 (and conductance.py L54) *)
Definition threshold : Qc := Q2Qc (1 # 10000000000).

Definition Qcabs' (x : Qc) : Qc := if Qclt_le_dec x 0 then - x else x.

(** abs(s_sum) > 1e-10, L257 *)
Definition significant (x : Qc) : bool := if Qclt_le_dec threshold (Qcabs' x) then true else false.

(** inner loop over j, L259-263 *)
Fixpoint mesh_inner (n : net) (sum : Qc) (e1 : ref * nid) (rest : list (ref * nid)) : net :=
  match rest with
  | [] => n
  | e2 :: t =>
      let c := hget (heap n) (fst e1) * hget (heap n) (fst e2) / sum in
      mesh_inner (add_cond n (snd e1) (snd e2) c) sum e1 t
  end.
(** outer loop over i, L258-263: every pair i < j once *)
Fixpoint mesh (n : net) (sum : Qc) (star : list (ref * nid)) : net :=
  match star with
  | [] => n
  | e1 :: t => mesh (mesh_inner n sum e1 t) sum t
  end.

(** eliminate_node, L243-264 *)
Definition eliminate_node (n : net) (i : nid) : option net :=
  match dget (node_to_s n) i with
  | None => Some n
  | Some star =>
      let sum := star_sum n star in
      let n1 := if significant sum then mesh n sum star else n in
      remove_node n1 i
  end.

(** sorted(keys), L318.  Python's sort on ints; insertion sort gives the same list. *)
Fixpoint insert_sorted (x : nat) (l : list nat) : list nat :=
  match l with
  | [] => [x]
  | y :: t => if Nat.leb x y then x :: l else y :: insert_sorted x t
  end.
Fixpoint sort_nat (l : list nat) : list nat :=
  match l with [] => [] | x :: t => insert_sorted x (sort_nat t) end.

(** len(self.node_to_s[nid]), L320 *)
Definition degree (n : net) (i : nid) : nat :=
  match dget (node_to_s n) i with Some l => List.length l | None => 0%nat end.

Definition is_precious (n : net) (i : nid) : bool :=
  if in_dec Nat.eq_dec i (precious n) then true else false.

(** the for loop L316-324: returns to_eliminate and nmax_next *)
Definition scan (n : net) (nmax : nat) : list nid * option nat :=
  fold_left (fun acc i =>
      let '(te, nx) := acc in
      if is_precious n i then acc
      else let d := degree n i in
           if Nat.leb d nmax then (te ++ [i], nx)
           else match nx with
                | None => (te, Some d)
                | Some m => if Nat.ltb d m then (te, Some d) else acc
                end)
    (sort_nat (dkeys (node_to_s n))) ([], None).

(** L331-332 *)
Fixpoint eliminate_list (n : net) (l : list nid) : option net :=
  match l with
  | [] => Some n
  | i :: t => match eliminate_node n i with Some n1 => eliminate_list n1 t | None => None end
  end.

(** eliminate_all, L301-335: the two nested loops as one loop with state
    (network, nmax); the extra result is the order of eliminated nodes (ghost).
    [OutOfFuel] is only returned when the fuel is exhausted. *)
Inductive outcome (A : Type) := Done (a : A) | Raised | OutOfFuel.
Arguments Done {A} a. Arguments Raised {A}. Arguments OutOfFuel {A}.

Fixpoint elim_loop (fuel : nat) (n : net) (nmax : nat) (log : list nid) : outcome (net * list nid) :=
  match fuel with
  | O => OutOfFuel
  | S f =>
      let (te, nx) := scan n nmax in
      match te with
      | [] => match nx with
              | None => Done (n, log)
              | Some m => elim_loop f n m log
              end
      | _ => match eliminate_list n te with
             | Some n1 => elim_loop f n1 nmax (log ++ te)
             | None => Raised
             end
      end
  end.

(** enough iterations, see [eliminate_all_done] *)
Definition elim_fuel (n : net) : nat := (2 * List.length (node_to_s n) + 2)%nat.

Definition eliminate_all_log (n : net) : outcome (net * list nid) :=
  elim_loop (elim_fuel n) n 3 [].
Definition eliminate_all (n : net) : outcome net :=
  match eliminate_all_log n with
  | Done (n1, _) => Done n1 | Raised => Raised | OutOfFuel => OutOfFuel
  end.

(** check, L134-175: the number of inconsistencies *)
Definition b2n (b : bool) : nat := if b then 1%nat else 0%nat.
Definition nsum (l : list nat) : nat := fold_right Nat.add 0%nat l.
Definition star_has (n : net) (i : nid) (e : ref * nid) : bool :=
  match dget (node_to_s n) i with
  | Some l => if in_dec eq_dec e l then true else false
  | None => false
  end.
Definition check (n : net) : nat :=
  (nsum (map (fun e => b2n (negb (dmem (nodes n) (snd e)))) (locations n))
   + nsum (map (fun e => b2n (negb (dmem (locations n) (snd e)))) (nodes n))
   + nsum (map (fun e => let '((a, b), c) := e in
        b2n (negb (dmem (s n) (b, a)))
        + (if negb (dmem (node_to_s n) a) then 1
           else if negb (dmem (node_to_s n) b) then 1
           else b2n (negb (star_has n a (c, b))) + b2n (negb (star_has n b (c, a)))))%nat (s n))
   + nsum (map (fun e => nsum (map (fun x => b2n (negb (dmem (s n) (fst e, snd x)))) (snd e)))
               (node_to_s n)))%nat.

(** Histories of calls on one network object.  [OConn]/[OCond]/… carry the ids the
    caller passes. *)
Inductive op :=
| ONode (p : point)
| OName (i : nid) (nm : string)
| OPrecious (i : nid)
| OCond (a b : nid) (g : Qc)
| OElim (i : nid)
| ORemove (i : nid)
| OConnect (a b : nid)
| OElimAll.

(** what a caller may pass: existing nodes; two different ones for resistors/contractions *)
Definition op_ok (n : net) (o : op) : bool :=
  match o with
  | OCond a b _ => dmem (locations n) a && dmem (locations n) b && negb (Nat.eqb a b)
  | OConnect a b => dmem (locations n) a && negb (Nat.eqb a b)
  | _ => true
  end.

Definition step (n : net) (o : op) : option net :=
  match o with
  | ONode p => Some (fst (node_id n p))
  | OName i nm => Some (set_name n i nm)
  | OPrecious i => Some (mark_precious n i)
  | OCond a b g => Some (add_cond n a b g)
  | OElim i => eliminate_node n i
  | ORemove i => remove_node n i
  | OConnect a b => connect_nodes n a b
  | OElimAll => match eliminate_all n with Done n1 => Some n1 | _ => None end
  end.

(** run a history; [None] if a call raises *)
Fixpoint run (n : net) (l : list op) : option net :=
  match l with
  | [] => Some n
  | o :: t => match step n o with Some n1 => run n1 t | None => None end
  end.
(** every call of the history is admissible in the network it is made on *)
Fixpoint run_ok (n : net) (l : list op) : Prop :=
  match l with
  | [] => True
  | o :: t => op_ok n o = true /\ match step n o with Some n1 => run_ok n1 t | None => True end
  end.
