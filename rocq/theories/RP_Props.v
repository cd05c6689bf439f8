(** C87, C88: the report database of a 2.5D run. *)
From Coq Require Import String ZArith QArith Qabs Lia.
From Verif Require Import PyBase PyLib PyStr PyNum ER_Model RP_Model RP_Spec RP_Proofs.
From Verif Require NX_Model LV_Model LV_Spec RQ_Model RQ_Spec RQ_Proofs RQ_Props.
Local Open Scope string_scope.
Local Open Scope list_scope.

(** ** C87: the capacitances *)
(** the items are those of the contributions, in order, numbered within each category *)
Theorem C87_items : forall (G : Type) (float_text : Qc -> string) (xs : list (call G)), reported float_text xs (rd_items (snd (run float_text xs))).
Proof. intros. apply run_reported. Qed.
(** under the title of a contribution are its own shapes and no others *)
Theorem C87_own_shapes : forall (G : Type) (float_text : Qc -> string) (xs1 : list (call G)) x xs2,
  exists t, titled float_text (S (in_category (category x) xs1)) x t /\
    under (category x ++ [t]) (rd_items (snd (run float_text (xs1 ++ x :: xs2)))) = shown x (category x ++ [t]).
Proof. intros G f xs1 x xs2. eexists. split; [apply title_ok|apply under_own]. Qed.
(** the n-th entry of a key in the tables of results is the n-th title in the category of that key *)
Theorem C87_tables : forall (G : Type) (float_text : Qc -> string) (xs : list (call G)) k n c, Forall plain xs ->
  nth_error (table (fst (run float_text xs)) k) n = Some c ->
  exists x t, In x xs /\ key_of x = k /\ cap_of x = c /\ titled float_text (S n) x t /\
    under (category x ++ [t]) (rd_items (snd (run float_text xs))) = shown x (category x ++ [t]).
Proof.
  intros G f xs k n c P E. rewrite table_run in E. rewrite nth_error_map in E.
  destruct (nth_error (filter _ xs) n) as [x|] eqn:F; [|discriminate E]. injection E as <-.
  destruct (filter_nth _ _ _ _ F) as (l1 & l2 & -> & L & K). apply keyb_eq in K. subst k.
  apply Forall_app in P. destruct P as [P1 P2]. inversion P2 as [|? ? Px P3].
  exists x. destruct (C87_own_shapes G f l1 x l2) as (t & T & U). exists t. rewrite <- (in_category_key l1 x Px P1) in L. rewrite L in T.
  split; [apply in_elt|]. repeat split; assumption.
Qed.
(** and each key has as many titles as entries *)
Theorem C87_count : forall (G : Type) (float_text : Qc -> string) (xs : list (call G)) (x : call G), Forall plain xs -> plain x ->
  in_category (category x) xs = List.length (table (fst (run float_text xs)) (key_of x)).
Proof. intros G f xs x P Px. rewrite table_run, map_length. apply in_category_key; assumption. Qed.

Definition rp_text (_ : Qc) : string := "1.0".
Definition rp_calls : list (call nat) :=
  [ COverlap (OverlapCap ("m2", "A", "m1", "B") (Q2Qc (12345 # 10000)) 0 0) 1 2 [3];
    CSidewall (SidewallCap ("m1", "A", "B") (Q2Qc (1 # 4)) 1 1) 4 5;
    COverlap (OverlapCap ("m2", "A", "m1", "B") (Q2Qc (1 # 8)) 0 0) 6 7 [8; 9];
    CFringe (SideOverlapCap ("m1", "A", "m2", "B") (Q2Qc 2)) 10 11 (Some 12) ]%nat.
Example C87_case : Forall plain rp_calls /\
  rd_items (snd (run rp_text rp_calls)) =
  [ (["[C] Overlap"; "top_layer=m2"; "bot_layer=m1"; "A – B"; "#1 1.234 fF"; "Top Polygon"], [2]);
    (["[C] Overlap"; "top_layer=m2"; "bot_layer=m1"; "A – B"; "#1 1.234 fF"; "Bottom Polygon"], [1]);
    (["[C] Overlap"; "top_layer=m2"; "bot_layer=m1"; "A – B"; "#1 1.234 fF"; "Overlap Area"], [3]);
    (["[C] Sidewall"; "layer=m1"; "inside=A"; "outside=B"; "#1: len 1.0 µm, distance 1.0 µm, 0.25 fF"], [4; 5]);
    (["[C] Overlap"; "top_layer=m2"; "bot_layer=m1"; "A – B"; "#2 0.125 fF"; "Top Polygon"], [7]);
    (["[C] Overlap"; "top_layer=m2"; "bot_layer=m1"; "A – B"; "#2 0.125 fF"; "Bottom Polygon"], [6]);
    (["[C] Overlap"; "top_layer=m2"; "bot_layer=m1"; "A – B"; "#2 0.125 fF"; "Overlap Area"], [8; 9]);
    (["[C] Fringe / Side Overlap"; "inside_layer=m1"; "inside_net=A"; "outside_layer=m2"; "outside_net=B"; "#1: 2.0 fF"; "Inside Edge"], [10]);
    (["[C] Fringe / Side Overlap"; "inside_layer=m1"; "inside_net=A"; "outside_layer=m2"; "outside_net=B"; "#1: 2.0 fF"; "Outside Polygon"], [11]);
    (["[C] Fringe / Side Overlap"; "inside_layer=m1"; "inside_net=A"; "outside_layer=m2"; "outside_net=B"; "#1: 2.0 fF"; "Lateral Shield"], [12]) ]%nat.
Proof.
  split; [|vm_compute; reflexivity].
  assert (A : no_dash "A" /\ no_dash "B").
  { split; intros [|c a] b E; [discriminate E|injection E as _ E; destruct a; discriminate E|discriminate E|injection E as _ E; destruct a; discriminate E]. }
  repeat constructor; exact (proj1 A) || exact (proj2 A).
Qed.
(** with a dash in the names of nets, two pairs of nets share a category *)
Theorem C87_dash_refuted : exists (x y : call nat), key_of x <> key_of y /\ category x = category y.
Proof.
  exists (COverlap (OverlapCap ("m2", "A – B", "m1", "C") 1 0 0) 1 2 [])%nat, (COverlap (OverlapCap ("m2", "A", "m1", "B – C") 1 0 0) 1 2 [])%nat.
  split; [discriminate|reflexivity].
Qed.

(** ** C88: the resistances *)
Import RQ_Model.
(** the result is reported unless an element ends at a node its network does not have *)
Theorem C88_reported_iff : forall center ws db, (exists db', output_rex_result center ws db = Some db') <-> Forall closed ws.
Proof. intros. apply result_ok. Qed.
(** each node and each element is listed once, in order, with its place and its resistance *)
Theorem C88_items : forall center ws db db', output_rex_result center ws db = Some db' ->
  exists iss, rd_items db' = rd_items db ++ List.concat iss /\ Forall2 (network_items center) ws iss.
Proof. intros center ws db db' E. apply (proj2 (result_ok center ws db) db' E). Qed.
(** with an extractor whose elements join its own nodes, reporting the result never fails *)
Theorem C88_extracted : forall center norm rex r reqs ws db,
  (forall a b c d el, In el (snd (rex a b c d)) -> In (ke_a el) (map kn_id (fst (rex a b c d))) /\ In (ke_b el) (map kn_id (fst (rex a b c d)))) ->
  extract norm rex r reqs = Some ws -> output_rex_result center ws db <> None.
Proof.
  intros center norm rex r reqs ws db J E N. assert (C : Forall closed ws).
  { apply Forall_forall. intros w I el K. destruct (RQ_Props.C46_elements norm rex r reqs ws J E w el I K) as [A B].
    apply in_map_iff in A, B. destruct A as (a & A1 & A2), B as (b & B1 & B2). split; eauto. }
  apply (C88_reported_iff center ws db) in C. destruct C as (d & D). rewrite N in D. discriminate D.
Qed.
Definition rp_network : xnetwork := XNetwork "A"
  [XNode 1 "VA" "met1" "A" (LPoint (100, 200)%Z "A"); XNode 2 "$2" "li1" "$2" (LBox (0, 0)%Z (10, 20)%Z "A")]
  [KElement 0 1 2 (Q2Qc (12345678 # 1000000)); KElement 1 2 1 (Q2Qc (1 # 2000))].
Definition rp_center (b : (Z * Z) * (Z * Z)) : Z * Z := (Z.div (fst (fst b) + fst (snd b)) 2, Z.div (snd (fst b) + snd (snd b)) 2)%Z.
Example C88_case : closed rp_network /\ option_map (@rd_items mark) (output_rex_result rp_center [rp_network] new_rdb) =
  Some [ (["[R] Extraction Result"; "Networks"; "Net A"; "Nodes"; "VA, port net A, layer met1"], [MBox (95, 195) (105, 205)]);
         (["[R] Extraction Result"; "Networks"; "Net A"; "Nodes"; "$2, port net $2, layer li1"], [MBox (0, 0) (10, 20)]);
         (["[R] Extraction Result"; "Networks"; "Net A"; "Elements"; "VA (met1) ↔︎ $2 (li1): 12.346 Ω"], [MArrow (100, 200) (5, 10)]);
         (["[R] Extraction Result"; "Networks"; "Net A"; "Elements"; "$2 (li1) ↔︎ VA (met1): 0.5 mΩ"], [MArrow (5, 10) (100, 200)]) ]%Z.
Proof.
  split; [|vm_compute; reflexivity].
  assert (A : forall i, i = 1%nat \/ i = 2%nat -> exists n, In n (xw_nodes rp_network) /\ xn_id n = i).
  { intros i [-> | ->]; [exists (nth 0 (xw_nodes rp_network) (XNode 0 "" "" "" (LPoint (0, 0)%Z "")))|exists (nth 1 (xw_nodes rp_network) (XNode 0 "" "" "" (LPoint (0, 0)%Z "")))];
      (split; [apply nth_In; cbn; lia|reflexivity]). }
  intros e [<-|[<-|[]]]; (split; apply A; cbn [ke_a ke_b]; auto).
Qed.
(** the technology is reported unless a via ends at a layer which is no conductor *)
Theorem C88_tech_iff : forall db t, (exists db', output_rex_tech db t = Some db') <->
  forall v, In v (rt_vias t) -> (exists c, In c (rt_conductors t) /\ co_layer c = vi_bottom v) /\ (exists c, In c (rt_conductors t) /\ co_layer c = vi_top v).
Proof.
  intros db t. rewrite tech_some.
  assert (X : forall i, In i (map co_layer (rt_conductors t)) <-> exists c, In c (rt_conductors t) /\ co_layer c = i).
  { intros i. rewrite in_map_iff. split; intros (c & A & B); exists c; tauto. }
  split; intros H v I; specialize (H v I); rewrite !X in *; exact H.
Qed.
(** and it is listed in full: whether simplification is skipped, one line for each conductor and one for each via, in their order *)
Theorem C88_tech_listed : forall db t db', output_rex_tech db t = Some db' ->
  rd_items db' = rd_items db /\
  exists cs vs, Forall2 conductor_line (rt_conductors t) cs /\ Forall2 (via_line (rt_conductors t)) (rt_vias t) vs /\
    let tech := ["[R] Extraction Request"; "[R] Extraction Tech"] in
    rd_cats db' = (rd_cats db ++ map (fun l => tech ++ l)
      ([[if rt_skip_simplify t then "Skip simplify: True" else "Skip simplify: False"]; ["Conductors"]; ["Vias"]] ++
       map (fun s => ["Conductors"; s]) cs ++ map (fun s => ["Vias"; s]) vs))%list.
Proof.
  intros db t db' E. unfold output_rex_tech in E. cbv zeta in E.
  match type of E with output_vias _ _ (fold_left ?g ?l ?d) = _ => set (G := g) in E; set (db0 := d) in E end.
  assert (F : forall l d, rd_items (fold_left G l d) = rd_items d /\ rd_cats (fold_left G l d) = (rd_cats d ++ map (fun c => (tech_path ++ ["Conductors"; conductor_title c])%list) l)%list).
  { induction l as [|c l IH]; intros d; [split; [reflexivity|cbn; now rewrite app_nil_r]|]. cbn [fold_left]. destruct (IH (G d c)) as [A B]. split; [rewrite A; reflexivity|].
    rewrite B. unfold G. cbn [create_category rd_cats map]. rewrite <- app_assoc. reflexivity. }
  destruct (F (rt_conductors t) db0) as [A B]. split; [rewrite (output_vias_items _ _ _ _ E), A; reflexivity|].
  destruct (output_vias_cats _ _ _ _ E) as (vs & V & C). exists (map conductor_title (rt_conductors t)), vs. split.
  { generalize (rt_conductors t). intros l. induction l as [|c l IH]; constructor; [|exact IH].
    exists (show_round 3 (co_resistance c)). split; [apply show_round_rounds; discriminate|reflexivity]. }
  split; [exact V|]. cbv zeta. rewrite C, B. unfold db0. cbn [create_category rd_cats]. rewrite !map_app, !map_map. cbn [map app].
  rewrite <- !app_assoc. cbn [app]. destruct (rt_skip_simplify t); reflexivity.
Qed.
Example C88_tech_case : match RQ_Props.rq_prepared RQ_Props.rq_res RQ_Props.rq_stack with
  | Some t => match output_rex_tech new_rdb t with
              | Some db => filter (fun p => eqb (nth 2 p "") "Vias") (rd_cats db)
              | None => [] end
  | None => [] end =
  [ ["[R] Extraction Request"; "[R] Extraction Tech"; "Vias"];
    ["[R] Extraction Request"; "[R] Extraction Tech"; "Vias"; "2: mcon (LVS mcon_con, li1↔︎met1), 0.269 mΩ/µm^2"];
    ["[R] Extraction Request"; "[R] Extraction Tech"; "Vias"; "4: licon1 (LVS licon_poly, poly↔︎li1), 4.393 mΩ/µm^2"] ].
Proof. vm_compute. reflexivity. Qed.
(** a layout with a contact but nothing drawn on the metal above it stops the run: the
    request is made, but reporting it raises a KeyError *)
Definition rp_db : LV_Model.lvsdb := LV_Model.LvsDB (LV_Model.db_layers RQ_Props.rq_db)
  (fun i => match i with 3 => [(RQ_Props.square 0 0, "A")] | 4 => [(RQ_Props.square 0 0, "A")] | _ => [] end%nat).
Theorem C88_stops_refuted : exists t db stack res lid r, LV_Spec.db_wf db /\
  prepare_tech t stack res SquareCounting SquareCounting 0%Qc 0%Qc 0%Qc true (LV_Model.extracted_layers t false db) lid = Some r /\
  forall report, output_rex_tech report r = None.
Proof.
  exists RQ_Props.rq_tech, rp_db, RQ_Props.rq_stack, RQ_Props.rq_res, RQ_Props.rq_lid.
  destruct (prepare_tech RQ_Props.rq_tech RQ_Props.rq_stack RQ_Props.rq_res SquareCounting SquareCounting 0%Qc 0%Qc 0%Qc true (LV_Model.extracted_layers RQ_Props.rq_tech false rp_db) RQ_Props.rq_lid)
    as [r|] eqn:E; [|vm_compute in E; discriminate E].
  exists r. split; [exact RQ_Props.rq_db_wf|]. split; [reflexivity|]. intros report.
  destruct (output_rex_tech report r) as [d|] eqn:D; [exfalso|reflexivity].
  assert (C : map co_layer (rt_conductors r) = [3]%nat /\ map vi_top (rt_vias r) = [0]%nat) by (vm_compute in E; injection E as <-; split; reflexivity).
  destruct C as [C V]. destruct (rt_vias r) as [|v vs] eqn:R; [discriminate V|]. injection V as V _.
  assert (X : exists d, output_rex_tech report r = Some d) by eauto. apply tech_some with (v := v) in X; [|rewrite R; left; reflexivity].
  destruct X as [_ X]. rewrite C, V in X. destruct X as [X|[]]. discriminate X.
Qed.

Print Assumptions C87_items.
Print Assumptions C87_own_shapes.
Print Assumptions C87_tables.
Print Assumptions C87_count.
Print Assumptions C87_dash_refuted.
Print Assumptions C88_reported_iff.
Print Assumptions C88_items.
Print Assumptions C88_extracted.
Print Assumptions C88_tech_iff.
Print Assumptions C88_stops_refuted.
Print Assumptions C88_tech_listed.
