(** C44-C47, C70, C71: the resistance extraction request, its technology, and its result. *)
From Coq Require Import String ZArith Lia.
From Verif Require Import PyBase PyLib ER_Model LV_Model LV_Spec LV_Proofs RQ_Model RQ_Spec RQ_Proofs.
Local Open Scope string_scope.
Local Open Scope list_scope.

(** ** a technology and an LVS database for the examples *)
Definition rq_tech : tech := Tech
  [ CLayer "poly_con" (66, 20)%Z KRegular PMetal "poly"; CLayer "licon_poly" (66, 44)%Z KRegular PContact "licon1";
    CLayer "li1_con" (67, 20)%Z KRegular PMetal "li1"; CLayer "mcon_con" (67, 44)%Z KRegular PVia "mcon";
    CLayer "met1_con" (68, 20)%Z KRegular PMetal "met1"; CLayer "met1_ind" (68, 20)%Z KRegular PMetal "met1";
    CLayer "met1_pin_con" (68, 16)%Z KPin PMetal "met1.pin"; CLayer "nsd" (65, 20)%Z KRegular PNImplant "nsdm" ]
  [ TLayer "poly" (66, 20)%Z (0, 0)%Z (0, 0)%Z; TLayer "li1" (67, 20)%Z (0, 0)%Z (0, 0)%Z; TLayer "met1" (68, 20)%Z (68, 16)%Z (68, 5)%Z ].
Definition rq_stack : list stacked :=
  [ SOther; SDiffusion (RContact "licon_nsd" "nsdm" "li1" (Q2Qc (17 # 100))); SMetal (Some (RContact "licon_poly" "poly" "li1" (Q2Qc (17 # 100))));
    SMetal (Some (RContact "mcon_con" "li1" "met1" (Q2Qc (17 # 100)))); SMetal None ].
Definition rq_res : resistances :=
  Resistances [("poly", Q2Qc 48200); ("li1", Q2Qc 12200); ("met1", Q2Qc 125)] [("poly", Q2Qc 152000)] [("mcon", Q2Qc 9300)].
Definition square (x y : Z) : poly := Poly [(x, y); (x, y + 10); (x + 10, y + 10); (x + 10, y)]%Z [].
Definition ring : poly := Poly [(0, 0); (0, 90); (90, 90); (90, 0)]%Z [[(30, 30); (60, 30); (60, 60); (30, 60)]%Z].
Definition rq_db : lvsdb := LvsDB
  [ LvsLayer 1 "met1_con" None; LvsLayer 2 "met1_ind" None; LvsLayer 3 "mcon_con" None; LvsLayer 4 "li1_con" None;
    LvsLayer 5 "licon_poly" None; LvsLayer 6 "poly_con" None; LvsLayer 7 "met1_pin_con" None; LvsLayer 8 "nsd" None ]
  (fun i => match i with
            | 1 => [(square 0 0, "A"); (square 20 0, "B")] | 2 => [(square 40 0, "A")] | 3 => [(square 0 0, "A")] | 4 => [(square 0 0, "A")]
            | 5 => [(square 0 0, "A")] | 6 => [(square 0 0, "A")] | 7 => [(square 0 0, "A")] | 8 => [(square 0 50, "B")] | _ => [] end%nat).
Definition rq_lid (p : gds) : nat :=
  match find (fun e => eqb (snd (snd e)) p) (enumerate (fst (layer_map rq_tech false rq_db))) with Some e => fst e | None => 99 end.
Example rq_db_wf : db_wf rq_db.
Proof. unfold db_wf; simpl. repeat constructor; simpl; intuition discriminate. Qed.

(** ** C44: shapes survive the way through protobuf *)
Theorem C44_from_pb : forall norm r, (forall p, In p r -> norm (pb_hull p) = pb_hull p) -> region_to_pb (klayout_region norm r) = r.
Proof.
  intros norm r H. unfold region_to_pb, klayout_region. rewrite map_map. rewrite <- (map_id r) at 2. apply map_ext_in. intros [h n] I.
  unfold polygon_to_pb, klayout_polygon. simpl. assert (Hh := H _ I). simpl in Hh. rewrite Hh. f_equal. destruct (eqb n "") eqn:E; [apply eqb_eq in E; congruence|reflexivity].
Qed.
Theorem C44_from_klayout : forall norm (r : list (poly * option string)),
  (forall s, In s r -> holes (fst s) = [] /\ norm (hull (fst s)) = hull (fst s) /\ snd s <> Some "") ->
  klayout_region norm (region_to_pb r) = r.
Proof.
  intros norm r H. unfold region_to_pb, klayout_region. rewrite map_map. rewrite <- (map_id r) at 2. apply map_ext_in. intros [[h hs] n] I.
  destruct (H _ I) as (E1 & E2 & E3). simpl in *. unfold klayout_polygon, polygon_to_pb. simpl. rewrite E2, E1.
  destruct n as [n|]; [|rewrite eqb_refl; reflexivity]. rewrite (proj2 (eqb_false n "")) by congruence. reflexivity.
Qed.
(** a polygon with a hole comes back without it *)
Theorem C44_holes_refuted : exists (norm : list point -> list point) r,
  (forall s, In s r -> norm (hull (fst s)) = hull (fst s)) /\ klayout_region norm (region_to_pb r) <> r.
Proof. exists (fun h => h), [(ring, Some "A")]. split; [reflexivity|]. discriminate. Qed.
Example C44_case : klayout_region (fun h => h) (region_to_pb [(square 0 0, Some "A"); (square 5 5, None)]) = [(square 0 0, Some "A"); (square 5 5, None)].
Proof. apply C44_from_klayout. intros s [<-|[<-|[]]]; simpl; repeat split; discriminate. Qed.

(** ** C45: one request for each net, with exactly its pins, terminals and polygons *)
Theorem C45_requests : forall t blackbox db lid send_empty devices pins nets, db_wf db ->
  net_requests t (extracted_layers t blackbox db) lid (shapes_of_net t blackbox db) send_empty devices pins nets =
  Some (map (fun n => (n, expected_request t blackbox db lid send_empty (flat_map dv_terminals devices) pins nets n))
            (requested t blackbox db lid send_empty (flat_map dv_terminals devices) pins nets)).
Proof. intros. apply requests_eq. assumption. Qed.
Theorem C45_once : forall t blackbox db lid send_empty devices pins nets reqs, db_wf db ->
  net_requests t (extracted_layers t blackbox db) lid (shapes_of_net t blackbox db) send_empty devices pins nets = Some reqs ->
  NoDup (dkeys reqs) /\
  (forall p, In p pins -> exists v, dget reqs (pin_net p) = Some v /\ In p (nr_pins v)) /\
  (forall d x, In d devices -> In x (dv_terminals d) -> exists v, dget reqs (tm_net x) = Some v /\ In x (nr_terminals v)) /\
  (forall n v, dget reqs n = Some v -> (forall p, In p (nr_pins v) -> In p pins /\ pin_net p = n) /\
                                       (forall x, In x (nr_terminals v) -> tm_net x = n /\ exists d, In d devices /\ In x (dv_terminals d))).
Proof.
  intros t bb db lid se devices pins nets reqs wf E. rewrite (requests_eq _ _ _ wf) in E. injection E as E.
  set (ts := flat_map dv_terminals devices) in *. set (f := expected_request t bb db lid se ts pins nets) in *. set (ks := requested t bb db lid se ts pins nets) in *.
  assert (K : dkeys reqs = ks) by (rewrite <- E; unfold dkeys; rewrite map_map; apply map_id).
  assert (N : NoDup (dkeys reqs)) by (rewrite K; apply distinct_NoDup).
  assert (G : forall n, In n ks -> dget reqs n = Some (f n)).
  { intros n I. apply In_dget; [exact N|]. rewrite <- E. apply in_map_iff. eauto. }
  assert (G' : forall n v, dget reqs n = Some v -> v = f n).
  { intros n v D. assert (I := dget_In _ _ D). rewrite <- E in I. apply in_map_iff in I. destruct I as (m & X & _). injection X as -> <-. reflexivity. }
  repeat split.
  - exact N.
  - intros p I. exists (f (pin_net p)). split.
    + apply G, distinct_In, in_app_iff. left. apply in_map, I.
    + apply filter_In. split; [exact I|apply eqb_refl].
  - intros d x I J. assert (T : In x ts) by (apply in_flat_map; eauto). exists (f (tm_net x)). split.
    + apply G, distinct_In, in_app_iff. right. apply in_app_iff. left. apply in_map, T.
    + apply filter_In. split; [exact T|apply eqb_refl].
  - rewrite (G' _ _ H) in H0. apply filter_In in H0. apply H0.
  - rewrite (G' _ _ H) in H0. apply filter_In in H0. apply eqb_eq, H0.
  - rewrite (G' _ _ H) in H0. apply filter_In in H0. apply eqb_eq, H0.
  - rewrite (G' _ _ H) in H0. apply filter_In in H0. destruct H0 as [I _]. apply in_flat_map in I. exact I.
Qed.
(** KLayout labels the shapes of an unnamed net with its expanded name '$n', while requests are made for its name, which is
    empty: the terminals of all unnamed nets then share one request, which has no polygons *)
Theorem C45_unnamed : forall t blackbox db lid devices pins nets reqs v, db_wf db ->
  (forall l s, In l (db_layers db) -> In s (db_shapes db (lv_index l)) -> snd s <> "") ->
  net_requests t (extracted_layers t blackbox db) lid (shapes_of_net t blackbox db) false devices pins nets = Some reqs ->
  dget reqs "" = Some v ->
  nr_regions v = [] /\ nr_terminals v = filter (fun x => eqb (tm_net x) "") (flat_map dv_terminals devices).
Proof.
  intros t bb db lid devices pins nets reqs v wf NE E D. rewrite (requests_eq _ _ _ wf) in E. injection E as E.
  assert (I := dget_In _ _ D). rewrite <- E in I. apply in_map_iff in I. destruct I as (m & X & _). injection X as -> <-. split; [|reflexivity].
  simpl. assert (Z : expected_regions t bb db lid false "" = []).
  { unfold expected_regions. induction (used_pairs t bb db) as [|q qs IH]; [reflexivity|]. cbn [flat_map]. rewrite IH, app_nil_r. unfold regions_on.
    destruct (layer_at t q) as [c|]; [|reflexivity].
    replace (net_polygons t bb db q "") with (@nil poly); [rewrite andb_false_r; reflexivity|].
    unfold net_polygons. rewrite filter_false_in; [reflexivity|]. intros s I. unfold all_shapes in I. apply in_flat_map in I.
    destruct I as (l & I & J). destruct (belongs t bb db q l); [|destruct J]. apply eqb_false. exact (NE l s I J). }
  clear -Z. induction nets as [|n nets IH]; simpl; [reflexivity|]. destruct (eqb n "") eqn:Q; [|exact IH]. apply eqb_eq in Q. subst n. simpl. rewrite Z. exact IH.
Qed.
Definition rq_pins : list pin := [Pin "VA" "A" 0 "met1" "met1_ind" (5, 5)%Z; Pin "VB" "B" 0 "met1" "met1_ind" (25, 5)%Z].
Definition rq_devices : list device :=
  [ Device 1 "$1" "nmos" "D$nmos" [] [ Terminal 1 0 "G" "A" [LRegion 5 "poly" [PbPoly (hull (square 0 0)) "A"]];
                                       Terminal 1 1 "S" "B" [LRegion 7 "nsdm" [PbPoly (hull (square 0 50)) "B"]];
                                       Terminal 1 2 "D" "" [] ];
    Device 2 "$2" "nmos" "D$nmos" [] [ Terminal 2 1 "S" "" [] ] ].
Definition rq_nets : list string := ["A"; "B"; ""; "C"; ""].
Definition rq_requests : option (dict string netreq) :=
  net_requests rq_tech (extracted_layers rq_tech false rq_db) rq_lid (shapes_of_net rq_tech false rq_db) false rq_devices rq_pins rq_nets.
Example C45_case :
  match rq_requests with
  | Some d => map (fun e : string * netreq => (fst e, map pin_label (nr_pins (snd e)), map (fun x => (tm_device x, tm_name x)) (nr_terminals (snd e)),
                map (fun r => (rr_layer r, rr_canonical r, rr_lvs r, List.length (rr_region r))) (nr_regions (snd e)))) d
  | None => []
  end =
  [ ("A", ["VA"], [(1%nat, "G")], [(0, "met1", "met1_con", 2); (0, "met1", "met1_ind", 2); (2, "mcon", "mcon_con", 1); (3, "li1", "li1_con", 1);
                                  (4, "licon1", "licon_poly", 1); (5, "poly", "poly_con", 1)]%nat);
    ("B", ["VB"], [(1%nat, "S")], [(0, "met1", "met1_con", 1); (0, "met1", "met1_ind", 1); (7, "nsdm", "nsd", 1)]%nat);
    ("", [], [(1%nat, "D"); (2%nat, "S")], []) ].
Proof. vm_compute. reflexivity. Qed.
Example C45_unnamed_case : (forall l s, In l (db_layers rq_db) -> In s (db_shapes rq_db (lv_index l)) -> snd s <> "") /\
  match rq_requests with Some d => option_map nr_regions (dget d "") | None => None end = Some [].
Proof.
  split; [|vm_compute; reflexivity]. intros l s I J. simpl in I.
  repeat (destruct I as [<-|I]; [simpl in J; repeat (destruct J as [<-|J]; [discriminate|]); destruct J|]). destruct I.
Qed.

(** ** C46: every port node is attributed to the pin or terminal at its place *)
Definition network_matches (norm : list point -> list point)
    (rex : ktech -> dict nat (list (poly * option string)) -> dict nat (list point) -> dict nat (list (poly * option string)) -> list knode * list kelement)
    (r : rextech) (e : string * netreq) (w : xnetwork) : Prop :=
  exists vertex_ports polygon_ports,
    ports_are vertex_ports (fun k => map pin_point (pins_on k (nr_pins (snd e)))) /\
    ports_are polygon_ports (fun k => map (fun x => klayout_polygon norm (snd x)) (polygons_on k (nr_terminals (snd e)))) /\
    let out := rex (klayout_tech r) (regions_by_layer norm (nr_regions (snd e))) vertex_ports polygon_ports in
    xw_net w = fst e /\ Forall2 (node_matches r (snd e)) (fst out) (xw_nodes w) /\ xw_elements w = snd out.
Theorem C46_networks : forall norm rex r reqs ws, extract norm rex r reqs = Some ws -> Forall2 (network_matches norm rex r) reqs ws.
Proof.
  intros norm rex r reqs ws E. refine (all_some_Forall2 _ _ _ _ _ E). intros [net v] w. unfold extract_net. cbn [fst snd].
  destruct (rex _ _ _ _) as [nodes els] eqn:X. destruct (all_some _) as [ns|] eqn:A; [|discriminate]. intros F; injection F as <-.
  exists (fst (pin_ports (nr_pins v))), (fst (terminal_ports norm (nr_terminals v))). cbn [fst snd xw_net xw_nodes xw_elements]. cbv zeta. rewrite X. cbn [fst snd].
  split; [apply pin_points|]. split; [apply terminal_polygons|]. split; [reflexivity|]. split; [|reflexivity].
  refine (all_some_Forall2 _ _ _ _ _ A). intros n x. apply result_node_ok.
Qed.
Theorem C46_succeeds : forall norm rex r reqs,
  (forall e vertex_ports polygon_ports n, In e reqs ->
     ports_are vertex_ports (fun k => map pin_point (pins_on k (nr_pins (snd e)))) ->
     ports_are polygon_ports (fun k => map (fun x => klayout_polygon norm (snd x)) (polygons_on k (nr_terminals (snd e)))) ->
     In n (fst (rex (klayout_tech r) (regions_by_layer norm (nr_regions (snd e))) vertex_ports polygon_ports)) -> node_valid r (snd e) n) ->
  extract norm rex r reqs <> None.
Proof.
  intros norm rex r reqs V E. apply all_some_None, in_map_iff in E. destruct E as ([net v] & E & I). unfold extract_net in E. cbn [fst snd] in E.
  specialize (V (net, v) (fst (pin_ports (nr_pins v))) (fst (terminal_ports norm (nr_terminals v)))). cbn [fst snd] in V. destruct (rex _ _ _ _) as [nodes els]. destruct (all_some _) as [ns|] eqn:A; [discriminate|].
  apply all_some_None, in_map_iff in A. destruct A as (n & A & J). revert A. apply result_node_total, (V n I (pin_points _) (terminal_polygons norm _) J).
Qed.
(** if the extractor's elements join its own nodes, the elements of the result join nodes of the result *)
Theorem C46_elements : forall norm rex r reqs ws,
  (forall a b c d el, In el (snd (rex a b c d)) -> In (ke_a el) (map kn_id (fst (rex a b c d))) /\ In (ke_b el) (map kn_id (fst (rex a b c d)))) ->
  extract norm rex r reqs = Some ws ->
  forall w el, In w ws -> In el (xw_elements w) -> In (ke_a el) (map xn_id (xw_nodes w)) /\ In (ke_b el) (map xn_id (xw_nodes w)).
Proof.
  intros norm rex r reqs ws J E w el I K. apply C46_networks in E. destruct (Forall2_In_r _ _ _ _ E I) as (e & _ & vp & pp & _ & _ & _ & F & X).
  rewrite X in K. destruct (J _ _ _ _ _ K) as [A B].
  assert (M : map xn_id (xw_nodes w) = map kn_id (fst (rex (klayout_tech r) (regions_by_layer norm (nr_regions (snd e))) vp pp))).
  { clear -F. induction F as [|n x ns xs M F IH]; [reflexivity|]. cbn [map]. rewrite IH. f_equal. apply M. }
  rewrite M. split; assumption.
Qed.
(** with the requests made from the LVS database, a node has the net of its network, or it is no port and has its own name *)
Theorem C46_net : forall t blackbox db lid send_empty devices pins nets reqs norm rex r ws, db_wf db ->
  net_requests t (extracted_layers t blackbox db) lid (shapes_of_net t blackbox db) send_empty devices pins nets = Some reqs ->
  extract norm rex r reqs = Some ws ->
  map xw_net ws = dkeys reqs /\
  forall w x, In w ws -> In x (xw_nodes w) -> xn_net x = xw_net w \/ xn_net x = xn_name x.
Proof.
  intros t bb db lid se devices pins nets reqs norm rex r ws wf R E. apply C46_networks in E.
  destruct (C45_once _ _ _ _ _ _ _ _ _ wf R) as (N & _ & _ & O). split.
  - clear R N O. unfold dkeys. induction E as [|e w es ws (a & b & _ & _ & X & _) F IH]; [reflexivity|]. cbn [map]. rewrite X, IH. reflexivity.
  - intros w x I J. assert (P : exists e, In e reqs /\ network_matches norm rex r e w).
    { clear -E I. induction E as [|e w' es ws' M F IH]; [destruct I|]. destruct I as [->|I]; [exists e; split; [left; reflexivity|exact M]|].
      destruct (IH I) as (e' & A & B). exists e'. split; [right; exact A|exact B]. }
    destruct P as ([net v] & Ie & a & b & _ & _ & X & F & _). cbn [fst snd] in *.
    assert (D : dget reqs net = Some v) by (apply In_dget; assumption). destruct (O net v D) as [Op Ot].
    assert (Q : exists n, node_matches r v n x).
    { clear -F J. revert J. induction F as [|n y ns ys M F IH]; intros J; [destruct J|]. destruct J as [->|J]; [eauto|apply IH, J]. }
    destruct Q as (n & _ & Nm & _ & M). rewrite X. destruct (kn_port n) as [i|i|].
    + left. destruct M as [(p & P & ->) _]. apply nth_error_In, filter_In in P. apply Op, P.
    + left. destruct M as [([y pg] & P & ->) _]. apply nth_error_In in P. unfold polygons_on in P. apply in_flat_map in P. destruct P as (y' & P & P').
      apply in_flat_map in P'. destruct P' as (rg & _ & P'). destruct (eqb _ _); [|destruct P']. apply in_map_iff in P'. destruct P' as (pg' & Y & _). injection Y as -> _.
      apply Ot, P.
    + right. destruct M as [M _]. congruence.
Qed.
Definition rq_rextech : rextech :=
  RexTech true [Conductor 0 "met1" "met1_con" 0%Qc 0%Qc SquareCounting 0%Qc; Conductor 5 "poly" "poly_con" 0%Qc 0%Qc SquareCounting 0%Qc] [].
(** an extractor with one node for each port and an inner node *)
Definition rq_rex (_ : ktech) (_ : dict nat (list (poly * option string))) (vp : dict nat (list point)) (pp : dict nat (list (poly * option string))) : list knode * list kelement :=
  (flat_map (fun e : nat * list point => map (fun i => KNode i "V" (fst e) (VertexPort i) (0, 0)%Z (0, 0)%Z (0, 0)%Z) (seq 0 (List.length (snd e)))) vp ++
   flat_map (fun e : nat * list (poly * option string) => map (fun i => KNode i "P" (fst e) (PolygonPort i) (0, 0)%Z (0, 0)%Z (0, 0)%Z) (seq 0 (List.length (snd e)))) pp ++
   [KNode 9 "$9" 0 NoPort (0, 0)%Z (0, 0)%Z (1, 1)%Z], []).
Example C46_case :
  option_map (map (fun w => (xw_net w, map (fun x => (xn_name x, xn_layer x, xn_net x)) (xw_nodes w))))
    (extract (fun h => h) rq_rex rq_rextech
       [("A", NetReq [Pin "VA" "A" 0 "met1" "met1_ind" (5, 5)%Z; Pin "VA2" "A" 0 "met1" "met1_ind" (6, 5)%Z]
                     [Terminal 1 0 "G" "A" [LRegion 5 "poly" [PbPoly (hull (square 0 0)) "A"]]] [])]) =
  Some [("A", [("V", "met1", "A"); ("V", "met1", "A"); ("P", "poly", "A"); ("$9", "met1", "$9")])].
Proof. vm_compute. reflexivity. Qed.

(** ** C47: the extractor gets exactly the polygons of the net on each layer *)
Theorem C47_regions : forall t blackbox db lid send_empty devices pins nets reqs norm n v q, db_wf db ->
  (forall p, In p (used_pairs t blackbox db) -> lid p = lid q -> p = q) ->
  net_requests t (extracted_layers t blackbox db) lid (shapes_of_net t blackbox db) send_empty devices pins nets = Some reqs ->
  dget reqs n = Some v -> In n nets -> In q (used_pairs t blackbox db) ->
  dget (regions_by_layer norm (nr_regions v)) (lid q) =
  match layer_at t q with
  | Some c => if conducts (cl_kind c) && (send_empty || match net_polygons t blackbox db q n with [] => false | _ => true end)
              then Some (map (fun p => (Poly (norm (hull p)) [], None)) (net_polygons t blackbox db q n)) else None
  | None => None
  end.
Proof.
  intros t bb db lid se devices pins nets reqs norm n v q wf Inj R D N U. rewrite (requests_eq _ _ _ wf) in R. injection R as R.
  assert (I := dget_In _ _ D). rewrite <- R in I. apply in_map_iff in I. destruct I as (m & X & _). injection X as -> <-.
  apply (regions_complete t bb db wf lid se norm); try assumption. intros r. simpl. rewrite in_flat_map. split.
  - intros (m & I & J). apply filter_In in I. destruct I as [_ E]. apply eqb_eq in E. subst m. exact J.
  - intros J. exists n. split; [apply filter_In; split; [exact N|apply eqb_refl]|exact J].
Qed.
(** and nothing on other layers *)
Theorem C47_only : forall t blackbox db lid send_empty devices pins nets reqs norm n v k, db_wf db ->
  net_requests t (extracted_layers t blackbox db) lid (shapes_of_net t blackbox db) send_empty devices pins nets = Some reqs ->
  dget reqs n = Some v -> (forall q, In q (used_pairs t blackbox db) -> lid q <> k) -> dget (regions_by_layer norm (nr_regions v)) k = None.
Proof.
  intros t bb db lid se devices pins nets reqs norm n v k wf R D K. rewrite (requests_eq _ _ _ wf) in R. injection R as R.
  assert (I := dget_In _ _ D). rewrite <- R in I. apply in_map_iff in I. destruct I as (m & X & _). injection X as -> <-.
  rewrite regions_dict. destruct (last_such _ _) as [r|] eqn:E; [|reflexivity]. exfalso. apply last_such_In in E. destruct E as [I L]. apply eqb_eq in L.
  simpl in I. apply in_flat_map in I. destruct I as (m & _ & I). unfold expected_regions in I. apply in_flat_map in I. destruct I as (q & U & I). apply (K q U).
  unfold regions_on in I. destruct (layer_at t q); [|destruct I]. destruct (_ && _); [|destruct I]. apply in_map_iff in I. destruct I as (x & <- & _). exact L.
Qed.
(** a ring of metal is handed over as a full square *)
Theorem C47_hole_refuted : exists (norm : list point -> list point) t db lid reqs v,
  db_wf db /\ (forall p, norm (hull p) = hull p) /\
  net_requests t (extracted_layers t false db) lid (shapes_of_net t false db) false [] [] ["A"] = Some reqs /\ dget reqs "A" = Some v /\
  shapes_of_net t false db (68, 20)%Z "A" = Some [ring] /\
  dget (regions_by_layer norm (nr_regions v)) (lid (68, 20)%Z) = Some [(Poly (hull ring) [], None)] /\ holes ring <> [].
Proof.
  exists (fun h => h), rq_tech, (LvsDB [LvsLayer 1 "met1_con" None] (fun _ => [(ring, "A")])), (fun _ => 0%nat).
  eexists. eexists. split; [repeat constructor; intros []|]. split; [reflexivity|]. split; [vm_compute; reflexivity|].
  split; [vm_compute; reflexivity|]. split; [vm_compute; reflexivity|]. split; [vm_compute; reflexivity|discriminate].
Qed.
Example C47_case :
  (forall p, In p (used_pairs rq_tech false rq_db) -> rq_lid p = rq_lid (68, 20)%Z -> p = (68, 20)%Z) /\
  match rq_requests with Some d => option_map (fun v => dget (regions_by_layer (fun h => h) (nr_regions v)) 0%nat) (dget d "A") | None => None end =
  Some (Some [(square 0 0, None); (square 40 0, None)]).
Proof.
  split; [|vm_compute; reflexivity]. intros p I. change (used_pairs rq_tech false rq_db) with
    [(68, 20); (67, 44); (67, 20); (66, 44); (66, 20); (68, 16); (65, 20)]%Z in I.
  repeat (destruct I as [<-|I]; [vm_compute; congruence|]). destruct I.
Qed.

(** ** C70: the technology of the resistance extraction *)
(** [layers_in_use] lists every LVS layer in use once *)
Theorem C70_layers : forall t blackbox db, db_wf db ->
  NoDup (layers_in_use t blackbox db) /\ forall l c, In (l, c) (layers_in_use t blackbox db) <-> in_use t blackbox db l c.
Proof. intros t bb db wf. split; [apply in_use_NoDup, wf|apply in_use_list]. Qed.
(** conductors: one for each implant or metal layer in use that is no pin layer, with the sheet resistance of the technology *)
Theorem C70_conductors : forall t blackbox db stack res sub wire b amax merge skip lid r, db_wf db ->
  prepare_tech t stack res sub wire b amax merge skip (extracted_layers t blackbox db) lid = Some r ->
  rt_skip_simplify r = skip /\
  Forall2 (fun e k => conductor_for res lid sub wire b amax (fst e) (snd e) k)
          (filter (fun e => gives_conductor (snd e)) (layers_in_use t blackbox db)) (rt_conductors r).
Proof. intros t bb db stack res sub wire b amax merge skip lid r wf E. destruct (prepare_ok _ _ _ _ _ _ _ _ _ _ _ _ wf r E) as (A & B & _). split; assumption. Qed.
(** vias: one for each contact or via layer with a resistance, between the layers of the process stack; but a via layer that
    is not in the process stack leaves an empty entry *)
Theorem C70_vias : forall t blackbox db stack res sub wire b amax merge skip lid r, db_wf db ->
  prepare_tech t stack res sub wire b amax merge skip (extracted_layers t blackbox db) lid = Some r ->
  Forall2 (fun e v => via_for t stack res lid merge (fst e) (snd e) v \/ (stray_via stack res (fst e) (snd e) /\ v = Via 0 "" "" 0 0 0%Qc 0%Qc))
          (filter (fun e => gives_via stack res (fst e) (snd e)) (layers_in_use t blackbox db)) (rt_vias r).
Proof. intros t bb db stack res sub wire b amax merge skip lid r wf E. destruct (prepare_ok _ _ _ _ _ _ _ _ _ _ _ _ wf r E) as (_ & _ & B). exact B. Qed.
(** it fails exactly if a metal layer in use has no resistance, or a contact or via with a resistance joins unknown layers *)
Theorem C70_fails : forall t blackbox db stack res sub wire b amax merge skip lid, db_wf db ->
  prepare_tech t stack res sub wire b amax merge skip (extracted_layers t blackbox db) lid = None <->
  exists l c, in_use t blackbox db l c /\ breaks t stack res l c.
Proof. intros. apply prepare_fail. assumption. Qed.
(** klayout_r_extractor_tech hands over every number unchanged *)
Theorem C70_handed_over : forall r,
  kt_skip_simplify (klayout_tech r) = rt_skip_simplify r /\
  Forall2 (fun c k => kc_layer k = co_layer c /\ kc_algorithm k = co_algorithm c /\ kc_min_b k = co_min_b c /\ kc_max_area k = co_max_area c /\ kc_resistance k = co_resistance c)
          (rt_conductors r) (kt_conductors (klayout_tech r)) /\
  Forall2 (fun v k => kv_cut k = vi_layer v /\ kv_bottom k = vi_bottom v /\ kv_top k = vi_top v /\ kv_resistance k = vi_resistance v /\ kv_merge k = vi_merge v)
          (rt_vias r) (kt_vias (klayout_tech r)).
Proof.
  intros [s cs vs]. unfold klayout_tech. simpl. split; [reflexivity|]. split.
  - induction cs as [|c cs IH]; simpl; constructor; [repeat split|exact IH].
  - induction vs as [|v vs IH]; simpl; constructor; [repeat split|exact IH].
Qed.
Definition rq_prepared (res : resistances) (stack : list stacked) : option rextech :=
  prepare_tech rq_tech stack res SquareCounting SquareCounting 0%Qc 0%Qc 0%Qc true (extracted_layers rq_tech false rq_db) rq_lid.
Example C70_case :
  option_map (fun r => (map (fun c => (co_layer c, co_canonical c, co_lvs c)) (rt_conductors r),
                        map (fun v => (vi_layer v, vi_lvs v, vi_bottom v, vi_top v)) (rt_vias r))) (rq_prepared rq_res rq_stack) =
  Some ([(0, "met1", "met1_con"); (0, "met1", "met1_ind"); (3, "li1", "li1_con"); (5, "poly", "poly_con"); (7, "nsdm", "nsd")]%nat,
        [(2, "mcon_con", 3, 0); (4, "licon_poly", 5, 3)]%nat).
Proof. vm_compute. reflexivity. Qed.
Example C70_case_numbers :
  match rq_prepared rq_res rq_stack with
  | Some (RexTech _ (m1 :: _ :: li :: _) (mcon :: licon :: _)) =>
      qeqb (co_resistance m1) (Q2Qc (125 # 1000)) && qeqb (co_resistance li) (Q2Qc (122 # 10)) &&
      qeqb (vi_resistance mcon) (Q2Qc (93 # 10) * Q2Qc (17 # 100) * Q2Qc (17 # 100)) && qeqb (vi_resistance licon) (Q2Qc 152 * Q2Qc (17 # 100) * Q2Qc (17 # 100))
  | _ => false
  end%Qc = true.
Proof. vm_compute. reflexivity. Qed.
Example C70_fails_case : in_use rq_tech false rq_db (LvsLayer 4 "li1_con" None) (CLayer "li1_con" (67, 20)%Z KRegular PMetal "li1") /\
  breaks rq_tech rq_stack (Resistances [("poly", Q2Qc 48200); ("met1", Q2Qc 125)] [] []) (LvsLayer 4 "li1_con" None) (CLayer "li1_con" (67, 20)%Z KRegular PMetal "li1") /\
  rq_prepared (Resistances [("poly", Q2Qc 48200); ("met1", Q2Qc 125)] [] []) rq_stack = None.
Proof.
  split; [|split].
  - split; [simpl; tauto|]. split; [reflexivity|]. eexists. repeat split.
  - split; [discriminate|reflexivity].
  - vm_compute. reflexivity.
Qed.
(** a via layer missing in the process stack is not ignored: the extractor gets a via on layer 0 between layer 0 and itself,
    and the conductor layer 0 loses its name *)
Theorem C70_stray_refuted : exists t db stack res lid r, db_wf db /\
  prepare_tech t stack res SquareCounting SquareCounting 0%Qc 0%Qc 0%Qc true (extracted_layers t false db) lid = Some r /\
  In (Via 0 "" "" 0 0 0%Qc 0%Qc) (rt_vias r) /\ (exists c, In c (rt_conductors r) /\ co_layer c = 0%nat /\ co_canonical c = "met1") /\ name_of_layer r 0 = Some "".
Proof.
  exists rq_tech, rq_db, [SOther; SMetal None], rq_res, rq_lid.
  destruct (rq_prepared rq_res [SOther; SMetal None]) as [r|] eqn:E; [|vm_compute in E; discriminate E].
  exists r. split; [exact rq_db_wf|]. split; [exact E|].
  assert (C : map (fun c => (co_layer c, co_canonical c)) (rt_conductors r) = [(0, "met1"); (0, "met1"); (3, "li1"); (5, "poly"); (7, "nsdm")]%nat /\ rt_vias r = [Via 0 "" "" 0 0 0%Qc 0%Qc]).
  { unfold rq_prepared in E. vm_compute in E. injection E as <-. split; reflexivity. }
  destruct C as [C V]. rewrite V. split; [left; reflexivity|]. split.
  - destruct (rt_conductors r) as [|c cs]; [discriminate C|]. simpl in C. injection C as C1 C2 _. exists c. split; [left; reflexivity|split; assumption].
  - unfold name_of_layer. rewrite V. reflexivity.
Qed.

(** ** C71: layer names in the result *)
(** without stray vias every node on a layer of the technology gets the canonical name of that layer *)
Theorem C71_names : forall t blackbox db stack res sub wire b amax merge skip lid r, db_wf db ->
  (forall p q, lid p = lid q -> p = q) -> (forall l c, in_use t blackbox db l c -> ~ stray_via stack res l c) ->
  prepare_tech t stack res sub wire b amax merge skip (extracted_layers t blackbox db) lid = Some r ->
  (forall k, In k (rt_conductors r) -> name_of_layer r (co_layer k) = Some (co_canonical k)) /\
  (forall v, In v (rt_vias r) -> name_of_layer r (vi_layer v) = Some (vi_canonical v)) /\
  (forall i n, name_of_layer r i = Some n -> exists p, i = lid p /\ canon_of t p = Some n).
Proof.
  intros t bb db stack res sub wire b amax merge skip lid r wf Inj NS E.
  destruct (prepare_ok _ _ _ _ _ _ _ _ _ _ _ _ wf r E) as (_ & Co & Vi).
  assert (Use : forall l c, In (l, c) (layers_in_use t bb db) -> layer_at t (cl_pair c) = Some c).
  { intros l c I. apply in_use_list in I. destruct I as (_ & _ & i & _ & _ & C). rewrite (layer_at_pair t _ _ C). exact C. }
  assert (A : forall k, In k (rt_conductors r) -> exists c, layer_at t (cl_pair c) = Some c /\ co_layer k = lid (cl_pair c) /\ co_canonical k = cl_orig c).
  { intros k I. destruct (Forall2_In_r _ _ _ _ Co I) as ([l c] & J & M). apply filter_In in J. destruct J as [J _]. exists c. split; [exact (Use l c J)|]. split; apply M. }
  assert (B : forall v, In v (rt_vias r) -> exists c, layer_at t (cl_pair c) = Some c /\ vi_layer v = lid (cl_pair c) /\ vi_canonical v = cl_orig c).
  { intros v I. destruct (Forall2_In_r _ _ _ _ Vi I) as ([l c] & J & M). apply filter_In in J. destruct J as [J _]. exists c. split; [exact (Use l c J)|].
    destruct M as [M|[M _]]; [split; apply M|]. destruct (NS l c); [apply in_use_list, J|exact M]. }
  assert (Same : forall c c', layer_at t (cl_pair c) = Some c -> layer_at t (cl_pair c') = Some c' -> lid (cl_pair c) = lid (cl_pair c') -> c = c').
  { intros c c' H1 H2 H3. apply Inj in H3. rewrite H3, H2 in H1. congruence. }
  assert (G : forall c i, layer_at t (cl_pair c) = Some c -> i = lid (cl_pair c) -> (exists n, name_of_layer r i = Some n) -> name_of_layer r i = Some (cl_orig c)).
  { intros c i H1 -> (n & Hn). rewrite Hn. unfold name_of_layer in Hn. destruct (last_such _ (rt_vias r)) as [v|] eqn:L.
    - apply last_such_In in L. destruct L as [I L]. apply eqb_eq in L. destruct (B v I) as (c' & C1 & C2 & C3). injection Hn as <-. rewrite C3.
      rewrite (Same c c' H1 C1) by congruence. reflexivity.
    - destruct (last_such _ (rt_conductors r)) as [k|] eqn:L'; [|discriminate]. apply last_such_In in L'. destruct L' as [I L']. apply eqb_eq in L'.
      destruct (A k I) as (c' & C1 & C2 & C3). injection Hn as <-. rewrite C3. rewrite (Same c c' H1 C1) by congruence. reflexivity. }
  repeat split.
  - intros k I. destruct (A k I) as (c & C1 & C2 & C3). rewrite C3. apply G; [exact C1|exact C2|].
    unfold name_of_layer. destruct (last_such _ (rt_vias r)); [eauto|]. destruct (last_such _ (rt_conductors r)) as [k'|] eqn:L; [simpl; eauto|].
    assert (X := proj1 (last_such_None _ _) L k I). simpl in X. rewrite eqb_refl in X. discriminate.
  - intros v I. destruct (B v I) as (c & C1 & C2 & C3). rewrite C3. apply G; [exact C1|exact C2|].
    unfold name_of_layer. destruct (last_such _ (rt_vias r)) as [v'|] eqn:L; [eauto|].
    assert (X := proj1 (last_such_None _ _) L v I). simpl in X. rewrite eqb_refl in X. discriminate.
  - intros i n H. unfold name_of_layer in H. destruct (last_such _ (rt_vias r)) as [v|] eqn:L.
    + apply last_such_In in L. destruct L as [I L]. apply eqb_eq in L. destruct (B v I) as (c & C1 & C2 & C3). injection H as <-.
      exists (cl_pair c). split; [congruence|]. unfold canon_of. fold (layer_at t (cl_pair c)). rewrite C1. simpl. congruence.
    + destruct (last_such _ (rt_conductors r)) as [k|] eqn:L'; [|discriminate]. apply last_such_In in L'. destruct L' as [I L']. apply eqb_eq in L'.
      destruct (A k I) as (c & C1 & C2 & C3). injection H as <-. exists (cl_pair c). split; [congruence|]. unfold canon_of. fold (layer_at t (cl_pair c)). rewrite C1. simpl. congruence.
Qed.
Example C71_case : (forall l c, in_use rq_tech false rq_db l c -> ~ stray_via rq_stack rq_res l c) /\
  option_map (fun r => map (name_of_layer r) [0; 2; 3; 7]%nat) (rq_prepared rq_res rq_stack) = Some [Some "met1"; Some "mcon"; Some "li1"; Some "nsdm"].
Proof.
  split; [|vm_compute; reflexivity]. intros l c (I & _ & i & N & _ & C) (_ & P & _ & S). simpl in I.
  repeat (destruct I as [<-|I]; [injection N as <-; injection C as <-; first [discriminate P|discriminate S]|]). destruct I.
Qed.
(** the ports of a device terminal lie on the annotated layer of its own LVS layer, while conductors are registered for one
    annotated layer of the GDS pair: if two LVS layers share the pair, a port can be on a layer that no conductor has *)
Theorem C71_terminal_refuted : exists t db stack res lid r d reg, db_wf db /\
  (forall p, In p (used_pairs t false db) -> option_map snd (nth_error (fst (layer_map t false db)) (lid p)) = Some p) /\
  prepare_tech t stack res SquareCounting SquareCounting 0%Qc 0%Qc 0%Qc true (extracted_layers t false db) lid = Some r /\
  option_map (fun ds => map (fun x => tm_regions (snd x)) (flat_map (fun e => map (fun x => (fst e, x)) (dv_terminals (snd e))) ds)) (devices_by_name t false db [d]) = Some [[reg]] /\
  lr_canonical reg = "met1" /\ (exists k, In k (rt_conductors r) /\ co_canonical k = "met1" /\ co_lvs k = "met1_ind") /\
  forall k, In k (rt_conductors r) -> co_layer k <> lr_layer reg.
Proof.
  exists rq_tech, rq_db, rq_stack, rq_res, rq_lid.
  destruct (rq_prepared rq_res rq_stack) as [r|] eqn:E; [|vm_compute in E; discriminate E].
  exists r, (KDevice 1 "$1" "ind" "D$ind" [] [(0, "A")]%nat (fun _ => Some ("A", [TRef "$1" 0 [(2%nat, [(square 40 0, Some "A")])]]))),
         (LRegion 1 "met1" [PbPoly (hull (square 40 0)) "A"]).
  split; [exact rq_db_wf|]. split.
  { intros p I. change (used_pairs rq_tech false rq_db) with [(68, 20); (67, 44); (67, 20); (66, 44); (66, 20); (68, 16); (65, 20)]%Z in I.
    repeat (destruct I as [<-|I]; [vm_compute; reflexivity|]). destruct I. }
  split; [exact E|]. split; [vm_compute; reflexivity|]. split; [reflexivity|].
  assert (C : map (fun c => (co_layer c, (co_canonical c, co_lvs c))) (rt_conductors r) =
    [(0, ("met1", "met1_con")); (0, ("met1", "met1_ind")); (3, ("li1", "li1_con")); (5, ("poly", "poly_con")); (7, ("nsdm", "nsd"))]%nat)
    by (unfold rq_prepared in E; vm_compute in E; injection E as <-; reflexivity).
  split.
  - assert (I : In (0%nat, ("met1", "met1_ind")) (map (fun c => (co_layer c, (co_canonical c, co_lvs c))) (rt_conductors r))) by (rewrite C; right; left; reflexivity).
    apply in_map_iff in I. destruct I as (k & X & I). injection X as _ X1 X2. exists k. repeat split; assumption.
  - intros k I. assert (J := in_map (fun c => (co_layer c, (co_canonical c, co_lvs c))) _ _ I). rewrite C in J. simpl in *.
    repeat (destruct J as [J|J]; [injection J as J _ _; rewrite <- J; discriminate|]). destruct J.
Qed.

Print Assumptions C44_from_pb.
Print Assumptions C44_from_klayout.
Print Assumptions C44_holes_refuted.
Print Assumptions C45_requests.
Print Assumptions C45_once.
Print Assumptions C45_unnamed.
Print Assumptions C46_networks.
Print Assumptions C46_succeeds.
Print Assumptions C46_elements.
Print Assumptions C46_net.
Print Assumptions C47_regions.
Print Assumptions C47_only.
Print Assumptions C47_hole_refuted.
Print Assumptions C70_layers.
Print Assumptions C70_conductors.
Print Assumptions C70_vias.
Print Assumptions C70_fails.
Print Assumptions C70_handed_over.
Print Assumptions C70_stray_refuted.
Print Assumptions C71_names.
Print Assumptions C71_terminal_refuted.
