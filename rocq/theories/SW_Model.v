(** Model of the sweep of klayout_pex/fastercap/fastercap_model_generator.py: the builder's
    generate (L172-207), and add_in, add_out, finish_z, next_z, _merge_events of the generator
    (L376-582, L996-1028).

    Regions.  Any finite collection of polygons divides the plane into finitely many faces; a
    kdb.Region is modelled by the list of faces it covers.  [face] is any type with decidable
    equality.  The boolean operations +, &, -, is_empty work on whole faces, so they are exact
    for every polygon shape.  Snapping of intersection points to the grid is left out.

    A test like "if lin:" only skips work for a missing or empty region and is left out.

    Edges.  The pieces of the dividing lines have a face on each side; kdb.Edges is a list of
    pieces with an orientation.  Edge booleans compare positions and ignore the orientation.

    z values in the generator are the integers computed by _z2norm; the multiplication by dbu
    (_norm2z) is left out.  Floats are exact rationals.  The keys f"+{net}" and f"-{material}" are [Net n] and [Mat m].  debug() calls are
    left out; the triangulation of the emitted surfaces is not part of this model. *)
From Coq Require Import String QArith.Qround.
From Verif Require Import PyBase PyLib.
Set Implicit Arguments.

Inductive mkey := Net (n : string) | Mat (m : string).
#[export] Instance EqDec_mkey : EqDec mkey.
Proof. intros [a|a] [b|b]; try (right; congruence); destruct (eq_dec a b) as [->|]; [left|right|left|right]; congruence. Defined.

Section Sweep.
Context {face : Type} `{EqDec face}.
(** the pieces of the dividing lines and the faces to their left and right *)
Context {piece : Type}.
Context `{EqDec piece}.
Variables (left_of right_of : piece -> face) (pieces : list piece).

(** ** Region *)
Definition region := list face.
Definition has (r : region) (p : face) : bool := existsb (eqb p) r.
Definition r_or (a b : region) : region := a ++ b.
Definition r_and (a b : region) : region := filter (has b) a.
Definition r_sub (a b : region) : region := filter (fun p => negb (has b p)) a.
Definition is_empty (r : region) : bool := match r with [] => true | _ => false end.

(** ** Edges: pieces with orientation, [true]: the region is to the right *)
Definition edges_t := list (piece * bool).
Definition edges (r : region) : edges_t :=
  flat_map (fun b => match has r (left_of b), has r (right_of b) with
                     | true, false => [(b, false)]
                     | false, true => [(b, true)]
                     | _, _ => []
                     end) pieces.
Definition has_piece (l : edges_t) (b : piece) : bool := existsb (fun e => eqb b (fst e)) l.
Definition e_and (a b : edges_t) : edges_t := filter (fun e => has_piece b (fst e)) a.
Definition e_sub (a b : edges_t) : edges_t := filter (fun e => negb (has_piece b (fst e))) a.
(** Edge.swapped_points() *)
Definition swapped (e : piece * bool) : piece * bool := (fst e, negb (snd e)).

(** ** _merge_events, L996-1028 *)
Fixpoint upd (l : list region) (i : nat) (f : region -> region) : list region :=
  match l, i with
  | [], _ => []
  | x :: t, O => f x :: t
  | x :: t, S k => x :: upd t k f
  end.
(** one iteration of L1004-1012; len(pyra) is evaluated in every iteration *)
Definition add_level (st : list region * region) (i : nat) : list region * region :=
  let (pyra, lin) := st in
  let ii := (List.length pyra - i)%nat in
  let added := r_and lin (nth (ii - 1) pyra []) in
  if is_empty added then st
  else let pyra := if Nat.leb (List.length pyra) ii then pyra ++ [[]] else pyra in
       (upd pyra ii (fun r => r_or r added), r_sub lin added).
(** one iteration of L1018-1023 *)
Definition remove_level (st : list region * region) (i : nat) : list region * region :=
  let (pyra, lout) := st in
  let ii := (List.length pyra - i)%nat in
  let removed := r_and lout (nth (ii - 1) pyra []) in
  if is_empty removed then st
  else (upd pyra (ii - 1) (fun r => r_sub r removed), r_sub lout removed).
(** result: lin, lout, and the new pyra; its first level is the third component of the code's result *)
Definition merge_events (pyra : list region) (lin lout : region) : region * region * list region :=
  let past := nth 0 pyra [] in
  let (pyra, lin) := fold_left add_level (seq 0 (List.length pyra)) (pyra, lin) in
  let pyra := match pyra with [] => [[]] | _ => pyra end in
  let pyra := upd pyra 0 (fun r => r_or r lin) in
  let (pyra, _) := fold_left remove_level (seq 0 (List.length pyra)) (pyra, lout) in
  (r_sub (nth 0 pyra []) past, r_sub past (nth 0 pyra []), pyra).

(** ** generated surfaces *)
Inductive surface :=
  | HDiel (z : Z) (below above : option string) (r : region)         (* generate_hdiel *)
  | HCondIn (z : Z) (net : string) (below : option string) (r : region)   (* generate_hcond_in *)
  | HCondOut (z : Z) (net : string) (above : option string) (r : region)  (* generate_hcond_out *)
  | VDiel (z zz : Z) (outside inside : option string) (e : piece * bool)  (* generate_vdiel *)
  | VCond (z zz : Z) (net : string) (outside : option string) (e : piece * bool). (* generate_vcond *)

(** the generator's fields, L352-374; [errors] counts the calls of error() in finish_z *)
Record gen := Gen {
  g_z : option Z;
  layers_in : dict mkey region;
  layers_out : dict mkey region;
  state : dict mkey region;
  current : dict mkey (list region);
  surfaces : list surface;
  errors : nat }.
Definition dgr (d : dict mkey region) (k : mkey) : region := match dget d k with Some r => r | None => [] end.

Variables (net_names materials : list string).

(** add_in / add_out, L380-396 *)
Definition add_in (g : gen) (k : mkey) (r : region) : gen :=
  Gen (g_z g) (dset (layers_in g) k (r_or (dgr (layers_in g) k) r)) (layers_out g) (state g) (current g) (surfaces g) (errors g).
Definition add_out (g : gen) (k : mkey) (r : region) : gen :=
  Gen (g_z g) (layers_in g) (dset (layers_out g) k (r_or (dgr (layers_out g) k) r)) (state g) (current g) (surfaces g) (errors g).

(** the loop variables of finish_z, L401-407 *)
Record fz := FZ {
  f_state : dict mkey region; f_current : dict mkey (list region);
  din : dict mkey region; dout : dict mkey region;
  all_in : region; all_out : region; all : region }.

(** body of the loop over names, L411-454 *)
Definition legalize (lins louts : dict mkey region) (x : fz) (mk : mkey) : fz :=
  let pyra := match dget (f_current x) mk with Some l => l | None => [] end in
  let current_before := nth 0 pyra [] in
  match merge_events pyra (dgr lins mk) (dgr louts mk) with
  | (lin_org, lout_org, pyra') =>
      let cur := nth 0 pyra' [] in
      let st := dgr (f_state x) mk in
      let lout := r_and lout_org st in
      let lin := r_sub lin_org (all x) in
      let lout := r_or lout (r_and cur (all_in x)) in
      let lin := r_or lin (r_and current_before (all_out x)) in
      let lin := r_sub lin lout_org in
      let lout := r_sub lout lin_org in
      let st := r_sub (r_or st lin) lout in
      FZ (dset (f_state x) mk st) (dset (f_current x) mk pyra')
         (dset (din x) mk lin) (dset (dout x) mk lout)
         (r_or (all_in x) lin) (r_or (all_out x) lout) (r_or (all x) st)
  end.

(** the separation check, L461-468: "s - a" must be empty, then "a -= s" *)
Definition check_step (acc : region * nat) (s : region) : region * nat :=
  let (a, n) := acc in
  (r_sub a s, if is_empty (r_sub s a) then n else S n).
Definition separation_errors (st : dict mkey region) : nat :=
  snd (fold_left check_step (dvals st) (fold_left r_or (dvals st) [], 0%nat)).
(** L462-468: reduce() of a single value returns that very object, so with one name only [a]
    is the state's own region and "a -= s" empties it.  (reduce() of no value raises TypeError;
    a generator made by the builder has at least one name.) *)
Definition state_after_check (st : dict mkey region) : dict mkey region :=
  match st with
  | [(k, _)] => [(k, [])]
  | _ => st
  end.

(** L471-484: dielectric surfaces below a material; [lin] is what is left *)
Definition emit_if (r : region) (s : surface) : list surface := if is_empty r then [] else [s].
Fixpoint hdiel_in (z : Z) (mni : string) (dout : dict mkey region) (mnos : list string) (lin : region) : list surface :=
  match mnos with
  | [] => emit_if lin (HDiel z None (Some mni) lin)
  | mno :: r =>
      let lout := dgr dout (Mat mno) in
      let d := r_and lout lin in
      emit_if d (HDiel z (Some mno) (Some mni) d) ++ hdiel_in z mni dout r (r_sub lin lout)
  end.
(** L486-496 *)
Definition hdiel_out (z : Z) (mno : string) (din : dict mkey region) (all_cin : region) (lout : region) : list surface :=
  let lout := fold_left (fun l mni => r_sub l (dgr din (Mat mni))) materials (r_sub lout all_cin) in
  emit_if lout (HDiel z (Some mno) None lout).
(** L498-510 *)
Fixpoint hcond_in (z : Z) (nn : string) (dout : dict mkey region) (mnos : list string) (lin : region) : list surface :=
  match mnos with
  | [] => emit_if lin (HCondIn z nn None lin)
  | mno :: r =>
      let lout := dgr dout (Mat mno) in
      let d := r_and lout lin in
      emit_if d (HCondIn z nn (Some mno) d) ++ hcond_in z nn dout r (r_sub lin lout)
  end.
(** L512-525 *)
Fixpoint hcond_out (z : Z) (nn : string) (din : dict mkey region) (mnis : list string) (lout : region) : list surface :=
  match mnis with
  | [] => emit_if lout (HCondOut z nn None lout)
  | mni :: r =>
      let lin := dgr din (Mat mni) in
      let d := r_and lout lin in
      emit_if d (HCondOut z nn (Some mni) d) ++ hcond_out z nn din r (r_sub lout lin)
  end.

(** finish_z, L398-525.  self.z is set by next_z; a missing z is taken as 0. *)
Definition finish_z (g : gen) : gen :=
  let z := match g_z g with Some z => z | None => 0%Z end in
  let x0 := FZ (state g) (current g) [] [] [] [] [] in
  let x1 := fold_left (legalize (layers_in g) (layers_out g)) (map Net net_names) x0 in
  let all_cin := all_in x1 in
  let all_cout := all_out x1 in
  let x := fold_left (legalize (layers_in g) (layers_out g)) (map Mat materials) x1 in
  let out :=
    flat_map (fun mni => hdiel_in z mni (dout x) materials (r_sub (dgr (din x) (Mat mni)) all_cout)) materials ++
    flat_map (fun mno => hdiel_out z mno (din x) all_cin (dgr (dout x) (Mat mno))) materials ++
    flat_map (fun nn => hcond_in z nn (dout x) materials (dgr (din x) (Net nn))) net_names ++
    flat_map (fun nn => hcond_out z nn (din x) materials (r_sub (dgr (dout x) (Net nn)) all_cin)) net_names in
  Gen (g_z g) (layers_in g) (layers_out g) (state_after_check (f_state x)) (f_current x) (surfaces g ++ out)
      (errors g + separation_errors (f_state x)).

(** body of the loop over outside materials of next_z, L545-563; o > i is "mno comes after mni" *)
Fixpoint vdiel_loop (z zz : Z) (st : dict mkey region) (i : nat) (mni : string) (o : nat) (mnos : list string) (linside : edges_t) : list surface :=
  match mnos with
  | [] => map (VDiel z zz None (Some mni)) linside
  | mno :: r =>
      if Nat.eqb i o then vdiel_loop z zz st i mni (S o) r linside
      else let loutside := edges (dgr st (Mat mno)) in
           (if Nat.ltb i o then map (fun e => VDiel z zz (Some mno) (Some mni) (swapped e)) (e_and loutside linside) else []) ++
           vdiel_loop z zz st i mni (S o) r (e_sub linside loutside)
  end.
(** L565-580 *)
Fixpoint vcond_loop (z zz : Z) (st : dict mkey region) (nn : string) (mnos : list string) (linside : edges_t) : list surface :=
  match mnos with
  | [] => map (VCond z zz nn None) linside
  | mno :: r =>
      let loutside := edges (dgr st (Mat mno)) in
      map (fun e => VCond z zz nn (Some mno) (swapped e)) (e_and loutside linside) ++
      vcond_loop z zz st nn r (e_sub linside loutside)
  end.
Fixpoint enumerate_from {A} (i : nat) (l : list A) : list (nat * A) :=
  match l with [] => [] | x :: t => (i, x) :: enumerate_from (S i) t end.
(** next_z, L527-582 *)
Definition next_z (g : gen) (z : Z) : gen :=
  match g_z g with
  | None => Gen (Some z) [] [] (state g) (current g) (surfaces g) (errors g)
  | Some z0 =>
      let all_cond := edges (fold_left (fun r nn => r_or r (dgr (state g) (Net nn))) net_names []) in
      let out :=
        flat_map (fun im => vdiel_loop z0 z (state g) (fst im) (snd im) 0 materials
                              (e_sub (edges (dgr (state g) (Mat (snd im)))) all_cond)) (enumerate_from 0 materials) ++
        flat_map (fun nn => vcond_loop z0 z (state g) nn materials (edges (dgr (state g) (Net nn)))) net_names in
      Gen (Some z) [] [] (state g) (current g) (surfaces g ++ out) (errors g)
  end.
End Sweep.
Arguments HDiel {face piece}.
Arguments HCondIn {face piece}.
Arguments HCondOut {face piece}.
Arguments VDiel {face piece}.
Arguments VCond {face piece}.

(** ** the builder *)
(** _z2norm, L148-149: floor(z / dbu + 1e-6) *)
Definition z2norm (dbu z : Qc) : Z := Qfloor (this (z / dbu + Q2Qc (1 # 1000000))%Qc).

Section Builder.
Context {face : Type} `{EqDec face}.
Context {piece : Type}.
Context `{EqDec piece}.
Variables (left_of right_of : piece -> face) (pieces : list piece).
Variable dbu : Qc.

(** a layer: region, zstart, zstop *)
Definition layer := (list face * Z * Z)%type.
(** the builder's fields, L113-118; the values k of the materials play no role here *)
Record builder := Builder { b_materials : list string; clayers : dict string (list layer); dlayers : dict string (list layer) }.
Definition builder0 : builder := Builder [] [] [].

(** add_material, L124-125 (a dict: a second declaration keeps the position) *)
Definition add_material (b : builder) (m : string) : builder :=
  Builder (if existsb (eqb m) (b_materials b) then b_materials b else b_materials b ++ [m]) (clayers b) (dlayers b).
Definition push (d : dict string (list layer)) (n : string) (l : layer) : dict string (list layer) :=
  dset d n ((match dget d n with Some ls => ls | None => [] end) ++ [l]).
(** L160-161, L166, L170 *)
Definition mk_layer (r : list face) (z height : Qc) : layer := (r, z2norm dbu z, z2norm dbu (z + height)%Qc).
(** add_conductor / add_dielectric / _add_layer, L127-170; [None] is the ValueError *)
Definition add_conductor (b : builder) (n : string) (r : list face) (z height : Qc) : builder :=
  Builder (b_materials b) (push (clayers b) n (mk_layer r z height)) (dlayers b).
Definition add_dielectric (b : builder) (m : string) (r : list face) (z height : Qc) : option builder :=
  if existsb (eqb m) (b_materials b)
  then Some (Builder (b_materials b) (clayers b) (push (dlayers b) m (mk_layer r z height))) else None.

(** a sequence of API calls *)
Inductive call :=
  | AddMaterial (m : string)
  | AddConductor (net : string) (r : list face) (z height : Qc)
  | AddDielectric (m : string) (r : list face) (z height : Qc).
Definition do_call (b : option builder) (c : call) : option builder :=
  match b with
  | None => None
  | Some b => match c with
              | AddMaterial m => Some (add_material b m)
              | AddConductor n r z h => Some (add_conductor b n r z h)
              | AddDielectric m r z h => add_dielectric b m r z h
              end
  end.
Definition build (cs : list call) : option builder := fold_left do_call cs (Some builder0).

(** sorted([*{*z}]), L173-178 *)
Definition z_levels (b : builder) : list Z :=
  py_sorted Z.ltb (nodup Z.eq_dec (flat_map (fun e => flat_map (fun l : layer => [snd (fst l); snd l]) (snd e)) (dlayers b ++ clayers b))).

(** L191-196 / L197-202: the events of one name at zcurr *)
Definition add_events (z : Z) (g : @gen face piece) (k : mkey) (ls : list layer) : @gen face piece :=
  fold_left (fun g (l : layer) =>
    let '(r, z0, z1) := l in
    let g := if (z0 <=? z)%Z && (z <? z1)%Z then add_in g k r else g in
    if (z0 <? z)%Z && (z <=? z1)%Z then add_out g k r else g) ls g.
(** one z level, L188-204 *)
Definition level (b : builder) (g : @gen face piece) (z : Z) : @gen face piece :=
  let nets := dkeys (clayers b) in
  let g := next_z left_of right_of pieces nets (b_materials b) g z in
  let g := fold_left (fun g e => add_events z g (Net (fst e)) (snd e)) (clayers b) g in
  let g := fold_left (fun g e => add_events z g (Mat (fst e)) (snd e)) (dlayers b) g in
  finish_z nets (b_materials b) g.
Definition gen0 : @gen face piece := Gen None [] [] [] [] [] 0.
(** the generator after processing the given levels *)
Definition run (b : builder) (zs : list Z) : @gen face piece := fold_left (level b) zs gen0.
(** generate, L172-207 without finalize *)
Definition generate (b : builder) : option (@gen face piece) :=
  match z_levels b with [] => None | zs => Some (run b zs) end.
End Builder.
