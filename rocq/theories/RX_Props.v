(** C107: the resistors of the 2.5D netlist. *)
From Coq Require Import String ZArith Permutation Lia.
From Verif Require Import PyBase PyLib QcLra ER_Model ER_Spec LV_Model LV_Spec RQ_Model RQ_Spec RQ_Props RX_Model RX_Spec RX_Proofs.
From Verif Require OV_Model OV_Props SF_Model SF_Props NX_Model NX_Spec UT_Model E2_Model E2_Spec.
Local Open Scope string_scope.
Local Open Scope list_scope.

Section C107.
Variable norm : list point -> list point.
Variable rex : ktech -> dict nat (list (poly * option string)) -> dict nat (list point) -> dict nat (list (poly * option string)) -> list knode * list kelement.
Variables (t : tech) (stack : list stacked) (res : resistances) (delaunay_b delaunay_amax : Qc).
Variables (blackbox : bool) (db : lvsdb) (lid : gds -> nat) (empty_truthy : bool).
Variables (devices : list device) (pins : list pin) (nets : list string).
Context {pt : Type}.
Variables (area : OV_Model.region pt -> Qc) (dbu : Qc) (substrate : string).
Variables (overlaps sideoverlaps : dict string (dict string Qc)) (substrate_caps : list string).
Variable sidewalls : dict string (Qc * Qc).
Variable cut : SF_Model.spoly -> list SF_Model.spoly -> list SF_Model.spoly.
Variable fringe_cap : Z -> Z -> Z -> Qc -> Qc -> option Qc.
Variable shield_top : Z.
Variable polygon_calls : dict string (list shape) -> nat -> list (OV_Model.poly pt * dict nat (list (OV_Model.poly pt))).
Variable edge_calls : dict string (list shape) -> nat -> list (string * list ((Z * Z) * dict nat (list SF_Model.spoly))).
Variables (substrate_shape : list shape) (metals : list string).
Notation run_r := (run norm rex t stack res delaunay_b delaunay_amax blackbox db lid empty_truthy devices pins nets
   area dbu substrate overlaps sideoverlaps substrate_caps sidewalls cut fringe_cap shield_top polygon_calls edge_calls substrate_shape metals).
(** the request: square counting everywhere, vias not merged, the network as it was extracted *)
Notation tech_sent := (prepare_tech t stack res SquareCounting SquareCounting delaunay_b delaunay_amax 0%Qc true (extracted_layers t blackbox db) lid).
Notation nets_sent := (net_requests t (extracted_layers t blackbox db) lid (shapes_of_net t blackbox db) empty_truthy devices pins nets).
(** the devices are those of the layout, the capacitors and then [ress] *)
Definition resistors (nl nl' : NX_Model.netlist) (top : string) (c' : NX_Model.circuit) (ress : list NX_Model.device) : Prop :=
  exists pre c post kept caps,
    NX_Model.circuits nl = pre ++ c :: post /\ NX_Model.c_name c = top /\ ~ In top (map NX_Model.c_name pre) /\
    NX_Model.circuits nl' = pre ++ c' :: post /\
    NX_Model.c_devices c' = kept ++ caps ++ ress /\
    (forall d, In d kept -> In d (NX_Model.c_devices c)) /\ (forall d, In d caps -> NX_Model.d_class d = NX_Model.CCapacitor).

Lemma requests_own reqs : db_wf db -> nets_sent = Some reqs -> Forall own reqs.
Proof.
  intros wf R. destruct (C45_once _ _ _ _ _ _ _ _ _ wf R) as (N & _ & _ & O). apply Forall_forall. intros [net v] I.
  destruct (O net v (In_dget _ _ N I)) as [A B]. split; cbn [fst snd]; [intros p Hp; apply A, Hp|intros x Hx; apply (B x Hx)].
Qed.

(** The resistors of the netlist are, for each pair of nets joined by an element of any
    network, one resistor with the sum of the elements between the two. *)
Theorem C107_resistors : forall mode top nl nl', db_wf db -> (forall a b c d, proper_output (rex a b c d)) ->
  UT_Model.need_resistance mode = true -> run_r mode top nl = Some nl' ->
  exists r reqs l c' ress resl, tech_sent = Some r /\ nets_sent = Some reqs /\ all_parts norm rex r reqs l /\
    resistors nl nl' top c' ress /\
    Forall2 (NX_Spec.represents c' NX_Model.CResistor "R") ress resl /\ E2_Spec.sums_of l resl.
Proof.
  intros mode top nl nl' wf P Hm E.
  destruct (resistors_of_run _ _ _ _ _ _ _ _ _ _ _ _ _ _ _ _ _ _ _ _ _ _ Hm E) as (n & rr & pre & c & post & c' & kept & caps & ress & resl & R & Er & C1 & C2 & C3 & C4 & C5 & C6 & C7 & C8 & C9).
  unfold rex_result, request_tech, request_nets in R. destruct tech_sent as [r|] eqn:Et; [|discriminate R]. destruct nets_sent as [reqs|] eqn:En; [|discriminate R].
  destruct (extract norm rex r reqs) as [ws|] eqn:Ew; [|discriminate R]. injection R as <-.
  destruct (networks_found norm rex P r reqs ws (requests_own _ wf En) (C46_networks _ _ _ _ _ Ew)) as (l & El & Pl).
  assert (l = rr) by congruence. subst l.
  exists r, reqs, rr, c', ress, resl. split; [reflexivity|]. split; [reflexivity|]. split; [exact Pl|]. split; [|split; assumption].
  exists pre, c, post, kept, caps. auto 10.
Qed.

(** In mode R the run ends with a netlist if the technology has the tables and the extractor
    keeps to the layers and ports it was given. *)
Theorem C107_ends : forall top nl r reqs, db_wf db -> (forall a b c d, proper_output (rex a b c d)) ->
  layer_regions t (shapes_of_layer t blackbox db) substrate_shape metals <> None ->
  tech_sent = Some r -> nets_sent = Some reqs ->
  (forall e out n, In e reqs -> output_for norm rex r (snd e) out -> In n (fst out) -> node_valid r (snd e) n) ->
  In top (map NX_Model.c_name (NX_Model.circuits nl)) ->
  run_r UT_Model.R top nl <> None.
Proof.
  intros top nl r reqs wf P Hl Et En V Ht. unfold run, rex_result, request_tech, request_nets. rewrite Et, En.
  destruct (extract norm rex r reqs) as [ws|] eqn:Ew.
  - destruct (networks_found norm rex P r reqs ws (requests_own _ wf En) (C46_networks _ _ _ _ _ Ew)) as (l & El & _).
    cbn [option_map]. exact (run_succeeds _ _ _ _ _ _ _ _ _ _ _ _ _ _ _ _ UT_Model.R _ l _ _ _ eq_refl Hl El Ht).
  - exfalso. revert Ew. apply C46_succeeds. intros e vp pp n I Pv Pp Hn. refine (V e _ n I _ Hn). exists vp, pp. auto.
Qed.

(** An element between two ports of a net joins the net with itself: where no inner nodes are
    left, both ends of every resistor are nets of the same name. *)
Theorem C107_ports_only : forall mode top nl nl', db_wf db -> (forall a b c d, proper_output (rex a b c d)) ->
  (forall a b c d n, In n (fst (rex a b c d)) -> kn_port n <> NoPort) ->
  UT_Model.need_resistance mode = true -> run_r mode top nl = Some nl' ->
  exists c' ress, resistors nl nl' top c' ress /\
    forall d, In d ress -> exists n1 n2 v, In n1 (NX_Model.c_nets c') /\ In n2 (NX_Model.c_nets c') /\
      NX_Model.d_terms d = [("A", NX_Model.n_id n1); ("B", NX_Model.n_id n2)] /\ NX_Model.d_params d = [("R", v)] /\
      NX_Model.n_name n1 = NX_Model.n_name n2.
Proof.
  intros mode top nl nl' wf P Q Hm E. destruct (C107_resistors mode top nl nl' wf P Hm E) as (r & reqs & l & c' & ress & resl & _ & _ & (parts & Fp & ->) & Hr & Fr & S).
  exists c', ress. split; [exact Hr|]. intros d Hd.
  assert (X : exists e, In e resl /\ NX_Spec.represents c' NX_Model.CResistor "R" d e).
  { clear -Fr Hd. induction Fr as [|x e xs es H F IH]; [destruct Hd|]. destruct Hd as [->|Hd]; [exists e; split; [now left|exact H]|].
    destruct (IH Hd) as (e' & A & B). exists e'. split; [now right|exact B]. }
  destruct X as ([[a b] v] & Ie & _ & Dp & n1 & n2 & I1 & I2 & M1 & M2 & Dt). cbn [fst snd] in *.
  destruct S as (_ & S & _). destruct (S a b v Ie) as [(x1 & x2 & w & Ix & Hx) _].
  assert (Same : x1 = x2).
  { change (fst (fst (x1, x2, w)) = snd (fst (x1, x2, w))). revert Ix. generalize (x1, x2, w). clear -Fp Q. intros x Ix. induction Fp as [|e p es ps (out & (vp & pp & _ & _ & ->) & N) F IH]; [destruct Ix|]. cbn [List.concat] in Ix.
    apply in_app_iff in Ix. destruct Ix as [Ix|Ix]; [|apply IH, Ix]. clear -N Ix Q. unfold network_part in N.
    induction N as [|el rp els rps (A & B & _) N IH]; [destruct Ix|]. destruct Ix as [->|Ix]; [|apply IH, Ix].
    destruct A as (k1 & J1 & _ & ->), B as (k2 & J2 & _ & ->). apply Q in J1. apply Q in J2. destruct (kn_port k1), (kn_port k2); congruence. }
  exists n1, n2, v. repeat (split; [assumption|]). rewrite M1, M2. subst x2.
  unfold same_nets in Hx. apply Bool.orb_true_iff in Hx. destruct Hx as [Hx|Hx]; apply andb_prop in Hx; destruct Hx as [H1 H2]; apply eqb_eq in H1; apply eqb_eq in H2; congruence.
Qed.
End C107.
Print Assumptions C107_resistors.
Print Assumptions C107_ends.
Print Assumptions C107_ports_only.

(** ** concrete runs: net A with two pins, net B with one, on the technology and database of RQ_Props *)
Definition x_pins : list pin := [Pin "VA" "A" 0 "met1" "met1_ind" (5, 5)%Z; Pin "VA2" "A" 0 "met1" "met1_ind" (45, 5)%Z; Pin "VB" "B" 0 "met1" "met1_ind" (25, 5)%Z].
Definition port (i : nat) : knode := KNode i "V" 0 (VertexPort i) (0, 0)%Z (0, 0)%Z (0, 0)%Z.
Definition ports_of (vp : dict nat (list point)) : nat := match dget vp 0%nat with Some l => List.length l | None => 0 end.
(** an extractor that finds 5 ohms between one pin and the next *)
Definition direct (_ : ktech) (_ : dict nat (list (poly * option string))) (vp : dict nat (list point)) (_ : dict nat (list (poly * option string))) : list knode * list kelement :=
  (map port (seq 0 (ports_of vp)), map (fun i => KElement i i (S i) (Q2Qc 5)) (seq 0 (Nat.pred (ports_of vp)))).
(** an extractor that finds 5 ohms from each pin to an inner node, which it calls $1 *)
Definition star (_ : ktech) (_ : dict nat (list (poly * option string))) (vp : dict nat (list point)) (_ : dict nat (list (poly * option string))) : list knode * list kelement :=
  (map port (seq 0 (ports_of vp)) ++ [KNode (ports_of vp) "$1" 0 NoPort (0, 0)%Z (0, 0)%Z (0, 0)%Z],
   map (fun i => KElement i i (ports_of vp) (Q2Qc 5)) (seq 0 (ports_of vp))).
Lemma port_ids n : map kn_id (map port (seq 0 n)) = seq 0 n.
Proof. rewrite map_map. apply map_id. Qed.
Example direct_proper : forall a b c d, proper_output (direct a b c d).
Proof.
  intros a b vp d. unfold proper_output, direct. cbn [fst snd]. rewrite port_ids. split; [apply seq_NoDup|].
  intros e I. apply in_map_iff in I. destruct I as (i & <- & I). apply in_seq in I. cbn [ke_a ke_b]. rewrite !in_seq. lia.
Qed.
Example star_proper : forall a b c d, proper_output (star a b c d).
Proof.
  intros a b vp d. unfold proper_output, star. cbn [fst snd]. rewrite map_app, port_ids. cbn [map kn_id]. change [ports_of vp] with [(0 + ports_of vp)%nat]. rewrite <- (seq_S (ports_of vp) 0). split; [apply seq_NoDup|].
  intros e I. apply in_map_iff in I. destruct I as (i & <- & I). apply in_seq in I. cbn [ke_a ke_b]. rewrite !in_seq. lia.
Qed.
Definition x_net (n : string) : NX_Model.netlist := NX_Model.Netlist [NX_Model.Circuit "top" [NX_Model.KNet 1 "A"; NX_Model.KNet 2 "B"; NX_Model.KNet 3 n] []] [].
Notation x_run rex pins nl := (run (fun h => h) rex rq_tech rq_stack rq_res 0%Qc 0%Qc false rq_db rq_lid false [] pins ["A"; "B"]
  OV_Props.ov_area 1%Qc "VSUBS" [] [] [] [] (fun p _ => [p]) SF_Props.flat_fringe 3000%Z (fun _ _ => []) (fun _ _ => []) [] ["met1_con"] UT_Model.R "top" nl).
(** the resistor number [i] of [v] ohms between nets [a] and [b] *)
Definition resistor (i : nat) (a b : nat) (v : Qc) : NX_Model.device :=
  NX_Model.Device ("ext_" ++ NX_Model.nat_str i) NX_Model.CResistor [("A", a); ("B", b)] [("R", v)].
Definition same_device (d : NX_Model.device) (e : nat * nat * nat * Qc) : bool :=
  let '(i, a, b, v) := e in
  eqb (NX_Model.d_name d) ("ext_" ++ NX_Model.nat_str i)%string && match NX_Model.d_class d with NX_Model.CResistor => true | _ => false end &&
  eqb (NX_Model.d_terms d) [("A", a); ("B", b)] && match NX_Model.d_params d with [(n, w)] => eqb n "R" && qeqb w v | _ => false end.
Fixpoint same_devices (ds : list NX_Model.device) (es : list (nat * nat * nat * Qc)) : bool :=
  match ds, es with [], [] => true | d :: ds, e :: es => same_device d e && same_devices ds es | _, _ => false end.
(** the run ends with one circuit which has these nets and resistors *)
Definition ends_with (o : option NX_Model.netlist) (ns : list (nat * string)) (es : list (nat * nat * nat * Qc)) : bool :=
  match o with
  | Some nl => match NX_Model.circuits nl with
               | [c] => eqb (map (fun n => (NX_Model.n_id n, NX_Model.n_name n)) (NX_Model.c_nets c)) ns && same_devices (NX_Model.c_devices c) es
               | _ => false
               end
  | None => false
  end.
Lemma ends_with_ok o ns es : ends_with o ns es = true -> exists nl c, o = Some nl /\ NX_Model.circuits nl = [c] /\
  NX_Model.c_nets c = map (fun n => NX_Model.KNet (fst n) (snd n)) ns /\
  NX_Model.c_devices c = map (fun e => let '(i, a, b, v) := e in resistor i a b v) es.
Proof.
  unfold ends_with. destruct o as [nl|]; [|discriminate]. destruct (NX_Model.circuits nl) as [|c [|? ?]] eqn:Ec; try discriminate.
  intros H. apply andb_prop in H. destruct H as [H1 H2]. apply eqb_eq in H1. exists nl, c. split; [reflexivity|]. split; [exact Ec|]. split.
  - rewrite <- H1, map_map. cbn [fst snd]. rewrite <- (map_id (NX_Model.c_nets c)) at 1. apply map_ext. intros [i n]. reflexivity.
  - clear -H2. revert es H2. induction (NX_Model.c_devices c) as [|d ds IH]; intros [|e es] H; try discriminate; [reflexivity|].
    cbn [same_devices] in H. apply andb_prop in H. destruct H as [H1 H2]. cbn [map]. rewrite (IH es H2). f_equal. clear -H1.
    destruct e as [[[i a] b] v]. unfold same_device in H1. apply andb_prop in H1. destruct H1 as [H1 H4]. apply andb_prop in H1. destruct H1 as [H1 H3].
    apply andb_prop in H1. destruct H1 as [H1 H2]. destruct d as [n k ts ps]. cbn [NX_Model.d_name NX_Model.d_class NX_Model.d_terms NX_Model.d_params] in *.
    apply eqb_eq in H1. apply eqb_eq in H3. destruct k; try discriminate. destruct ps as [|[m w] [|? ?]]; try discriminate.
    apply andb_prop in H4. destruct H4 as [H4 H5]. apply eqb_eq in H4. apply qeqb_true in H5. subst. reflexivity.
Qed.
(** both pins of A are on the net of A: its two elements to the inner node add up *)
Example C107_case : ends_with (x_run star x_pins (x_net "C"))
  [(1, "A"); (2, "B"); (3, "C"); (4, "FC_GND"); (5, "VSUBS"); (6, "$1")]%nat [(1, 6, 1, Q2Qc 10); (2, 6, 2, Q2Qc 5)]%nat = true.
Proof. vm_compute. reflexivity. Qed.

(** and the hypotheses of [C107_ends] hold for it *)
Example C107_ends_case : db_wf rq_db /\ layer_regions rq_tech (shapes_of_layer rq_tech false rq_db) [] ["met1_con"] <> None /\
  exists r reqs, request_tech rq_tech rq_stack rq_res 0%Qc 0%Qc false rq_db rq_lid = Some r /\
    request_nets rq_tech false rq_db rq_lid false [] x_pins ["A"; "B"] = Some reqs /\
    forall e out n, In e reqs -> output_for (fun h => h) star r (snd e) out -> In n (fst out) -> node_valid r (snd e) n.
Proof.
  split; [exact rq_db_wf|]. split; [vm_compute; discriminate|].
  destruct (request_tech rq_tech rq_stack rq_res 0%Qc 0%Qc false rq_db rq_lid) as [r|] eqn:Er.
  2: { assert (G : match request_tech rq_tech rq_stack rq_res 0%Qc 0%Qc false rq_db rq_lid with Some _ => true | None => false end = true) by (vm_compute; reflexivity).
       rewrite Er in G. discriminate G. }
  assert (L : name_of_layer r 0 <> None).
  { assert (G : match request_tech rq_tech rq_stack rq_res 0%Qc 0%Qc false rq_db rq_lid with Some r => match name_of_layer r 0 with Some _ => true | None => false end | None => false end = true) by (vm_compute; reflexivity).
    rewrite Er in G. intros C. rewrite C in G. discriminate G. }
  destruct (request_nets rq_tech false rq_db rq_lid false [] x_pins ["A"; "B"]) as [reqs|] eqn:En; [|vm_compute in En; discriminate En].
  exists r, reqs. split; [reflexivity|]. split; [reflexivity|]. intros e out n _ (vp & pp & Pv & _ & ->) I. unfold star in I. cbn [fst] in I.
  assert (N : ports_of vp = List.length (pins_on 0 (nr_pins (snd e)))).
  { unfold ports_of. rewrite (Pv 0%nat). destruct (map pin_point (pins_on 0 (nr_pins (snd e)))) eqn:M; apply (f_equal (@List.length _)) in M; rewrite map_length in M; rewrite M; reflexivity. }
  apply in_app_iff in I. destruct I as [I|[<-|[]]].
  - apply in_map_iff in I. destruct I as (i & <- & I). apply in_seq in I. split; [exact L|]. cbn [port kn_port kn_layer]. lia.
  - split; [exact L|exact I].
Qed.

(** ** What one would like and is not so *)
(** the extractor finds 5 ohms between two pins of net A: the netlist has a resistor with both
    ends at net A *)
Theorem C107_between_pins_refuted : exists rex nl' c, (forall a b c d, proper_output (rex a b c d)) /\
  x_run rex x_pins (x_net "C") = Some nl' /\ NX_Model.circuits nl' = [c] /\
  In (NX_Model.KNet 1 "A") (NX_Model.c_nets c) /\ NX_Model.c_devices c = [resistor 1 1 1 (Q2Qc 5)].
Proof.
  assert (G : ends_with (x_run direct x_pins (x_net "C")) [(1, "A"); (2, "B"); (3, "C"); (4, "FC_GND"); (5, "VSUBS")]%nat [(1, 1, 1, Q2Qc 5)]%nat = true) by (vm_compute; reflexivity).
  destruct (ends_with_ok _ _ _ G) as (nl' & c & E & Ec & En & Ed). exists direct, nl', c. split; [exact direct_proper|]. split; [exact E|]. split; [exact Ec|].
  split; [rewrite En; now left|exact Ed].
Qed.
(** nets A and B have nothing in common, but the extractor gives an inner node of each the same
    name: in the netlist there are 15 ohms between A and B *)
Theorem C107_nets_apart_refuted : exists rex nl' c s, (forall a b c d, proper_output (rex a b c d)) /\
  x_run rex x_pins (x_net "C") = Some nl' /\ NX_Model.circuits nl' = [c] /\
  In (NX_Model.KNet 1 "A") (NX_Model.c_nets c) /\ In (NX_Model.KNet 2 "B") (NX_Model.c_nets c) /\
  NX_Model.c_devices c = [resistor 1 s 1 (Q2Qc 10); resistor 2 s 2 (Q2Qc 5)].
Proof.
  destruct (ends_with_ok _ _ _ C107_case) as (nl' & c & E & Ec & En & Ed). exists star, nl', c, 6%nat. split; [exact star_proper|]. split; [exact E|]. split; [exact Ec|].
  rewrite En. split; [now left|]. split; [right; now left|exact Ed].
Qed.
(** KLayout calls the nets without a name $1, $2, ...: an inner node of that name is one with
    such a net of the layout *)
Theorem C107_unnamed_net_refuted : exists rex nl' c, (forall a b c d, proper_output (rex a b c d)) /\
  x_run rex (firstn 1 x_pins) (x_net "$1") = Some nl' /\ NX_Model.circuits nl' = [c] /\
  In (NX_Model.KNet 3 "$1") (NX_Model.c_nets c) /\ NX_Model.c_devices c = [resistor 1 3 1 (Q2Qc 5)].
Proof.
  assert (G : ends_with (x_run star (firstn 1 x_pins) (x_net "$1")) [(1, "A"); (2, "B"); (3, "$1"); (4, "FC_GND"); (5, "VSUBS")]%nat [(1, 3, 1, Q2Qc 5)]%nat = true) by (vm_compute; reflexivity).
  destruct (ends_with_ok _ _ _ G) as (nl' & c & E & Ec & En & Ed). exists star, nl', c. split; [exact star_proper|]. split; [exact E|]. split; [exact Ec|].
  split; [rewrite En; right; right; now left|exact Ed].
Qed.
Print Assumptions C107_between_pins_refuted.
Print Assumptions C107_nets_apart_refuted.
Print Assumptions C107_unnamed_net_refuted.
