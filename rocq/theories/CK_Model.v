(** Model of the surface self-check of klayout_pex/fastercap/fastercap_model_generator.py:
    check L848-865, _check_tris L867-887, _normed_edges L889-902, _is_antiparallel L910-918,
    _split_edges L920-964.

    After normalisation the coordinates are Python integers, so the arithmetic is exact and the
    comparisons against 0.5 are comparisons of integers.  Sets are duplicate free lists; the
    order in which a set is iterated is unknown and given by the oracle [ord], one permutation
    per round.  edges_by_p1 and edges_by_p2 receive the same sequence of append and remove
    calls, so both are kept as one list [hist]: edges_by_p1[p] is the sublist of edges that
    start in p, edges_by_p2[p] the sublist of those that end in p.  error() and info() messages
    are left out, only the error count is kept. *)
From Coq Require Import String QArith.Qround.
From Verif Require Import PyBase PyLib FG_Model.
Local Open Scope Z_scope.
Local Open Scope list_scope.

(** class Point, L245-258, after normalisation *)
Record pnt := P { px : Z; py : Z; pz : Z }.
#[export] Instance EqDec_pnt : EqDec pnt.
Proof. intros [a b c] [d e f]. destruct (Z.eq_dec a d), (Z.eq_dec b e), (Z.eq_dec c f); [left|right..]; congruence. Defined.
(** class Edge, L312-325 *)
Notation edge := (pnt * pnt)%type.
Definition erev (e : edge) : edge := (snd e, fst e).
(** Point.__sub__ *)
Definition psub (a b : pnt) : pnt := P (px a - px b) (py a - py b) (pz a - pz b).
Definition vec (e : edge) : pnt := psub (snd e) (fst e).
(** vector_product, dot_product, sq_length, L254-275 *)
Definition cross (a b : pnt) : pnt := P (py a * pz b - pz a * py b) (pz a * px b - px a * pz b) (px a * py b - py a * px b).
Definition dot (a b : pnt) : Z := px a * px b + py a * py b + pz a * pz b.
Definition sq (a : pnt) : Z := dot a a.
(** _is_antiparallel, L910-918 *)
Definition antiparallel (a b : pnt) : bool := if 0 <? Z.abs (sq (cross a b)) then false else dot a b <? 0.
(** L937-938, L948-949 *)
Definition cuts (e h : edge) : bool := antiparallel (vec e) (vec h) && (sq (vec h) <? sq (vec e)).

(** sets *)
Definition sadd (s : list edge) (e : edge) : list edge := if existsb (eqb e) s then s else s ++ [e].
(** list.remove / set.remove; [None] is ValueError / KeyError *)
Fixpoint lremove (l : list edge) (e : edge) : option (list edge) :=
  match l with
  | [] => None
  | x :: r => if eqb x e then Some r else match lremove r e with Some r' => Some (x :: r') | None => None end
  end.

(** L932-941 and L943-952: what one edge contributes to subst *)
Definition pass1 (hist : list edge) (e : edge) : list edge :=
  flat_map (fun h => if eqb (snd h) (fst e) && cuts e h then [(fst e, fst h); (fst h, snd e)] else []) hist.
Definition pass2 (hist : list edge) (e : edge) : list edge :=
  flat_map (fun h => if eqb (fst h) (snd e) && cuts e h then [(fst e, snd h); (snd h, snd e)] else []) hist.
Definition subst_add (s : dict edge (list edge)) (e : edge) (l : list edge) : dict edge (list edge) :=
  match l with [] => s | _ => dset s e ((match dget s e with Some o => o | None => [] end) ++ l) end.
Definition subst_of (hist es : list edge) : dict edge (list edge) :=
  fold_left (fun s e => subst_add s e (pass2 hist e)) es
    (fold_left (fun s e => subst_add s e (pass1 hist e)) es []).

(** L957-964: the state is (hist, edges) *)
Definition replace (st : option (list edge * list edge)) (r : edge * list edge) : option (list edge * list edge) :=
  match st with
  | None => None
  | Some (hist, es) =>
      match lremove hist (fst r), lremove es (fst r) with
      | Some hist', Some es' => Some (hist' ++ snd r, fold_left sadd (snd r) es')
      | _, _ => None
      end
  end.

Inductive outcome := Finished (es : list edge) | Raised | OutOfFuel.
(** _split_edges, the while loop; [fuel] bounds the rounds, the code has no bound *)
Fixpoint split_loop (ord : nat -> list edge -> list edge) (fuel : nat) (i : nat) (hist es : list edge) : outcome :=
  match fuel with
  | O => OutOfFuel
  | S fuel' =>
      match subst_of hist (ord i es) with
      | [] => Finished es
      | s => match fold_left replace s (Some (hist, es)) with
             | Some (hist', es') => split_loop ord fuel' (S i) hist' es'
             | None => Raised
             end
      end
  end.
Definition split_edges ord fuel (es : list edge) : outcome := split_loop ord fuel 1 (ord 0%nat es) es.

(** L873-878: the set and the number of duplicates *)
Definition collect_edges (edges : list edge) : list edge * nat :=
  fold_left (fun s e => if existsb (eqb e) (fst s) then (fst s, S (snd s)) else (sadd (fst s) e, snd s)) edges ([], 0%nat).
(** _check_tris for normalised edges; [None] is a missing result: an exception or no end *)
Definition check_edges ord fuel (edges : list edge) : option nat :=
  let '(es, dups) := collect_edges edges in
  match split_edges ord fuel es with
  | Finished es' => Some (dups + List.length (filter (fun e => negb (existsb (eqb (erev e)) es')) es'))%nat
  | _ => None
  end.

(** _normed_edges, L889-902 *)
Definition fpoint := (Qc * Qc * Qc)%type.
Definition normed_coord (dbu c : Qc) : Z := Qfloor (this (c / dbu + Q2Qc (1 # 2))%Qc).
Definition normed (dbu : Qc) (p : fpoint) : pnt :=
  let '(x, y, z) := p in P (normed_coord dbu x) (normed_coord dbu y) (normed_coord dbu z).
Definition tri_edges (dbu : Qc) (t : @tri fpoint) : list edge :=
  let '(a, b, c) := t in
  [(normed dbu a, normed dbu b); (normed dbu b, normed dbu c); (normed dbu c, normed dbu a)].
Definition normed_edges (dbu : Qc) (ts : list (@tri fpoint)) : list edge := flat_map (tri_edges dbu) ts.
(** _check_tris *)
Definition check_tris ord fuel (dbu : Qc) (ts : list (@tri fpoint)) : option nat := check_edges ord fuel (normed_edges dbu ts).

(** check, L848-865: the total number of errors *)
Fixpoint sum_errors (l : list (option nat)) : option nat :=
  match l with
  | [] => Some 0%nat
  | o :: r => match o, sum_errors r with Some a, Some b => Some (a + b)%nat | _, _ => None end
  end.
Definition check ord fuel (dbu : Qc) (materials : dict string Qc) (nets : list string)
    (diel : dict hkey (list (@tri fpoint))) (cond : dict (string * option string) (list (@tri fpoint))) : option nat :=
  sum_errors (map (fun m => check_tris ord fuel dbu (collect_diel diel cond m)) (dkeys materials) ++
              map (fun n => check_tris ord fuel dbu (collect_cond cond n)) nets).
