(** Lemmas for the resistance extraction request. *)
From Coq Require Import String ZArith Lia FinFun.
From Verif Require Import PyBase PyLib ER_Model LV_Model LV_Spec LV_Proofs RQ_Model RQ_Spec.
Local Open Scope string_scope.
Local Open Scope list_scope.

Lemma dict_of_keys {K V} `{EqDec K} (d : dict K V) (f : K -> V) : (forall e, In e d -> snd e = f (fst e)) -> d = map (fun k => (k, f k)) (dkeys d).
Proof.
  induction d as [|[k v] d IH]; intros E; [reflexivity|]. simpl. f_equal.
  - f_equal. apply (E (k, v)). left; reflexivity.
  - apply IH. intros e I. apply E. right; exact I.
Qed.
Lemma concat_map_flat {A B} (f : A -> list B) l : List.concat (map f l) = flat_map f l.
Proof. induction l as [|a l IH]; simpl; [reflexivity|]. rewrite IH. reflexivity. Qed.
Lemma flat_map_flat_map {A B C} (f : A -> list B) (g : B -> list C) l : flat_map g (flat_map f l) = flat_map (fun a => flat_map g (f a)) l.
Proof. induction l as [|a l IH]; simpl; [reflexivity|]. rewrite flat_map_app, IH. reflexivity. Qed.
Lemma flat_map_map {A B C} (f : A -> B) (g : B -> list C) l : flat_map g (map f l) = flat_map (fun a => g (f a)) l.
Proof. induction l as [|a l IH]; simpl; [reflexivity|]. rewrite IH. reflexivity. Qed.
Lemma flat_map_ext_in {A B} (f g : A -> list B) l : (forall a, In a l -> f a = g a) -> flat_map f l = flat_map g l.
Proof. intros E. induction l as [|a l IH]; simpl; [reflexivity|]. rewrite E, IH; [reflexivity|intros; apply E; right; assumption|left; reflexivity]. Qed.

(** ** net requests *)
Lemma keys_dset (d : dict string netreq) l n v : dkeys d = distinct l -> dkeys (dset d n v) = distinct (l ++ [n]).
Proof.
  intros E. rewrite distinct_snoc. assert (W : In n l <-> In n (dkeys d)) by (rewrite E; symmetry; apply distinct_In).
  destruct (in_dec eq_dec n l) as [I|I].
  - rewrite dkeys_dset_present by (apply W, I). exact E.
  - rewrite dkeys_dset_absent by (rewrite <- W; exact I). unfold dkeys in *. rewrite map_app, E. reflexivity.
Qed.
Lemma request_dset d n v k : request_of (dset d n v) k = if eq_dec k n then v else request_of d k.
Proof. unfold request_of. rewrite dget_dset. destruct (eq_dec k n); reflexivity. Qed.

Lemma pins_keys ps : forall d l, dkeys d = distinct l -> dkeys (fold_left add_pin ps d) = distinct (l ++ map pin_net ps).
Proof.
  induction ps as [|p ps IH]; intros d l E; simpl; [rewrite app_nil_r; exact E|].
  rewrite (IH _ (l ++ [pin_net p])) by (apply keys_dset, E). rewrite <- app_assoc. reflexivity.
Qed.
Lemma pins_request ps : forall d k, request_of (fold_left add_pin ps d) k =
  let v := request_of d k in NetReq (nr_pins v ++ filter (fun p => eqb (pin_net p) k) ps) (nr_terminals v) (nr_regions v).
Proof.
  induction ps as [|p ps IH]; intros d k; cbn [fold_left filter].
  - cbv zeta. rewrite app_nil_r. destruct (request_of d k); reflexivity.
  - rewrite IH. unfold add_pin. cbv zeta. rewrite request_dset. unfold eqb.
    destruct (eq_dec k (pin_net p)) as [->|N], (eq_dec (pin_net p) _); try congruence; simpl; rewrite <- ?app_assoc; reflexivity.
Qed.
Lemma terms_keys ts : forall d l, dkeys d = distinct l -> dkeys (fold_left add_terminal ts d) = distinct (l ++ map tm_net ts).
Proof.
  induction ts as [|p ts IH]; intros d l E; simpl; [rewrite app_nil_r; exact E|].
  rewrite (IH _ (l ++ [tm_net p])) by (apply keys_dset, E). rewrite <- app_assoc. reflexivity.
Qed.
Lemma terms_request ts : forall d k, request_of (fold_left add_terminal ts d) k =
  let v := request_of d k in NetReq (nr_pins v) (nr_terminals v ++ filter (fun p => eqb (tm_net p) k) ts) (nr_regions v).
Proof.
  induction ts as [|p ts IH]; intros d k; cbn [fold_left filter].
  - cbv zeta. rewrite app_nil_r. destruct (request_of d k); reflexivity.
  - rewrite IH. unfold add_terminal. cbv zeta. rewrite request_dset. unfold eqb.
    destruct (eq_dec k (tm_net p)) as [->|N], (eq_dec (tm_net p) _); try congruence; simpl; rewrite <- ?app_assoc; reflexivity.
Qed.
Lemma region_keys n rs : forall d l, dkeys d = distinct l ->
  dkeys (fold_left (add_rregion n) rs d) = distinct (l ++ match rs with [] => [] | _ => [n] end).
Proof.
  destruct rs as [|r rs]; intros d l E; [simpl; rewrite app_nil_r; exact E|].
  cbn [fold_left]. assert (K : dkeys (add_rregion n d r) = distinct (l ++ [n])) by (apply keys_dset, E).
  revert K. generalize (add_rregion n d r). clear. induction rs as [|r rs IH]; intros d K; cbn [fold_left]; [exact K|].
  apply IH. unfold add_rregion. rewrite (keys_dset d (l ++ [n])) by exact K. rewrite distinct_snoc.
  destruct (in_dec eq_dec n (l ++ [n])) as [_|N]; [reflexivity|]. destruct N. apply in_app_iff. right; left; reflexivity.
Qed.
Lemma region_request n rs : forall d k, request_of (fold_left (add_rregion n) rs d) k =
  let v := request_of d k in if eqb n k then NetReq (nr_pins v) (nr_terminals v) (nr_regions v ++ rs) else v.
Proof.
  induction rs as [|r rs IH]; intros d k; cbn [fold_left]; cbv zeta.
  - rewrite app_nil_r. destruct (request_of d k), (eqb n k); reflexivity.
  - rewrite IH. cbv zeta. unfold add_rregion. cbv zeta. rewrite request_dset. unfold eqb.
    destruct (eq_dec k n) as [->|N], (eq_dec n _); try congruence; simpl; rewrite <- ?app_assoc; reflexivity.
Qed.
Definition add_net (f : string -> list rregion) (d : dict string netreq) (n : string) := fold_left (add_rregion n) (f n) d.
Lemma nets_keys f ns : forall d l, dkeys d = distinct l ->
  dkeys (fold_left (add_net f) ns d) = distinct (l ++ filter (fun n => match f n with [] => false | _ => true end) ns).
Proof.
  induction ns as [|n ns IH]; intros d l E; cbn [fold_left filter]; [rewrite app_nil_r; exact E|].
  rewrite (IH _ (l ++ match f n with [] => [] | _ => [n] end)) by (apply region_keys, E).
  destruct (f n); [rewrite app_nil_r; reflexivity|rewrite <- app_assoc; reflexivity].
Qed.
Lemma nets_request f ns : forall d k, request_of (fold_left (add_net f) ns d) k =
  let v := request_of d k in NetReq (nr_pins v) (nr_terminals v) (nr_regions v ++ flat_map f (filter (fun m => eqb m k) ns)).
Proof.
  induction ns as [|n ns IH]; intros d k; cbn [fold_left filter]; cbv zeta.
  - simpl. rewrite app_nil_r. destruct (request_of d k); reflexivity.
  - rewrite IH. unfold add_net. rewrite region_request. cbv zeta. destruct (eqb n k) eqn:E; [|reflexivity].
    apply eqb_eq in E. subst k. simpl. rewrite <- app_assoc. reflexivity.
Qed.
Lemma request_list d : NoDup (dkeys d) -> d = map (fun k => (k, request_of d k)) (dkeys d).
Proof.
  intros N. apply dict_of_keys. intros [k v] I. simpl. unfold request_of.
  assert (G : dget d k = Some v) by (apply In_dget; assumption). rewrite G. reflexivity.
Qed.

Section Context.
Variables (t : tech) (blackbox : bool) (db : lvsdb).
Hypothesis wf : db_wf db.
Notation extracted := (extracted_layers t blackbox db).
Lemma extracted_list : extracted = map (fun q => (q, sources t blackbox db q)) (used_pairs t blackbox db).
Proof.
  rewrite <- (extracted_keys t blackbox db wf). apply dict_of_keys. intros [q xs] I. simpl.
  assert (G : dget extracted q = Some xs) by (apply In_dget; [apply (extracted_wf t blackbox db wf)|exact I]).
  rewrite (extracted_get t blackbox db wf) in G. destruct (sources t blackbox db q); [discriminate|]. injection G as <-. reflexivity.
Qed.
Lemma used_sources q : In q (used_pairs t blackbox db) -> sources t blackbox db q <> [].
Proof.
  rewrite <- (extracted_keys t blackbox db wf). intros I E.
  assert (G : dget extracted q = None) by (rewrite (extracted_get t blackbox db wf), E; reflexivity).
  apply (proj1 (dget_None _ _) G), I.
Qed.

Variables (lid : gds -> nat) (empty_truthy : bool).
Lemma net_region_eq n q x : In q (used_pairs t blackbox db) -> In x (sources t blackbox db q) ->
  net_region t lid (shapes_of_net t blackbox db) empty_truthy n q x =
  Some (match layer_at t q with
        | Some c => if conducts (cl_kind c) && (empty_truthy || match net_polygons t blackbox db q n with [] => false | _ => true end)
                    then [RRegion (lid q) (cl_orig c) (x_name x) (map sent (net_polygons t blackbox db q n))] else []
        | None => [] end).
Proof.
  intros U I. unfold net_region. rewrite (source_pair t blackbox db q x I), info_by_pair. fold (layer_at t q).
  destruct (used_canon t blackbox db q U) as (c & C). fold (layer_at t q) in C. rewrite C.
  rewrite net_shapes_eq by exact wf. rewrite canon_get. unfold canon_of. fold (layer_at t q). rewrite C. simpl.
  assert (S : sources t blackbox db q <> []) by (intros E; rewrite E in I; destruct I).
  destruct (sources t blackbox db q) as [|x0 xs]; [congruence|]. fold (net_polygons t blackbox db q n).
  unfold region_truthy. replace (region_to_pb (map (fun s => (s, None)) (net_polygons t blackbox db q n))) with (map sent (net_polygons t blackbox db q n))
    by (unfold region_to_pb; rewrite map_map; reflexivity).
  destruct (cl_kind c); simpl; try reflexivity; destruct (net_polygons t blackbox db q n); simpl; rewrite ?orb_false_r, ?orb_true_r; try reflexivity;
    destruct empty_truthy; reflexivity.
Qed.
Lemma net_regions_eq n : net_regions t extracted lid (shapes_of_net t blackbox db) empty_truthy n = Some (expected_regions t blackbox db lid empty_truthy n).
Proof.
  unfold net_regions. rewrite extracted_list, flat_map_map. cbn [fst snd].
  replace (flat_map (fun q => map (net_region t lid (shapes_of_net t blackbox db) empty_truthy n q) (sources t blackbox db q)) (used_pairs t blackbox db))
    with (map (fun e : gds * xlayer => net_region t lid (shapes_of_net t blackbox db) empty_truthy n (fst e) (snd e))
              (flat_map (fun q => map (pair q) (sources t blackbox db q)) (used_pairs t blackbox db)))
    by (rewrite map_flat_map; apply flat_map_ext_in; intros q _; rewrite map_map; reflexivity).
  erewrite all_some_map.
  2:{ intros [q x] I. apply in_flat_map in I. destruct I as (q' & U & I). apply in_map_iff in I. destruct I as (x' & E & I).
      injection E as -> ->. cbn [fst snd]. rewrite net_region_eq by assumption. refine (f_equal Some _).
      exact (eq_refl ((fun e : gds * xlayer => match layer_at t (fst e) with
        | Some c => if conducts (cl_kind c) && (empty_truthy || match net_polygons t blackbox db (fst e) n with [] => false | _ => true end)
                    then [RRegion (lid (fst e)) (cl_orig c) (x_name (snd e)) (map sent (net_polygons t blackbox db (fst e) n))] else []
        | None => [] end) (q, x))). }
  f_equal. rewrite concat_map_flat, flat_map_flat_map. unfold expected_regions. apply flat_map_ext_in. intros q U.
  rewrite flat_map_map. unfold regions_on. cbn [fst snd]. destruct (layer_at t q) as [c|].
  2: { induction (sources t blackbox db q) as [|x l IH]; [reflexivity|exact IH]. }
  destruct (_ && _); [|induction (sources t blackbox db q) as [|x l IH]; [reflexivity|exact IH]].
  induction (sources t blackbox db q) as [|x l IH]; simpl; [reflexivity|]. f_equal; exact IH.
Qed.
Lemma net_steps_eq ns : forall d,
  fold_left (net_step t extracted lid (shapes_of_net t blackbox db) empty_truthy) ns (Some d) =
  Some (fold_left (add_net (expected_regions t blackbox db lid empty_truthy)) ns d).
Proof.
  induction ns as [|n ns IH]; intros d; cbn [fold_left]; [reflexivity|]. unfold net_step at 2. rewrite net_regions_eq. apply IH.
Qed.
Lemma requests_eq devices pins nets :
  net_requests t extracted lid (shapes_of_net t blackbox db) empty_truthy devices pins nets =
  Some (map (fun n => (n, expected_request t blackbox db lid empty_truthy (flat_map dv_terminals devices) pins nets n))
            (requested t blackbox db lid empty_truthy (flat_map dv_terminals devices) pins nets)).
Proof.
  unfold net_requests. rewrite net_steps_eq. f_equal.
  set (ts := flat_map dv_terminals devices). set (f := expected_regions t blackbox db lid empty_truthy).
  set (d := fold_left (add_net f) nets _).
  assert (K : dkeys d = requested t blackbox db lid empty_truthy ts pins nets).
  { unfold d, requested. rewrite app_assoc. apply nets_keys, terms_keys. apply (pins_keys pins [] []). reflexivity. }
  assert (N : NoDup (dkeys d)) by (rewrite K; apply distinct_NoDup).
  rewrite (request_list d N), K. apply map_ext. intros n. f_equal. unfold d.
  rewrite nets_request, terms_request, pins_request. reflexivity.
Qed.

(** ** regions by layer *)
Variable norm : list point -> list point.
Definition given (p : poly) : poly * option string := (Poly (norm (hull p)) [], None).
Lemma given_sent p : klayout_polygon norm (sent p) = given p.
Proof. reflexivity. Qed.
Lemma regions_dict rs k : dget (regions_by_layer norm rs) k = option_map (fun r => klayout_region norm (rr_region r)) (last_such (fun r => eqb (rr_layer r) k) rs).
Proof. unfold regions_by_layer. apply (comp_dict_get rr_layer (fun r => klayout_region norm (rr_region r)) rs k). Qed.
Lemma regions_complete rs n q : In q (used_pairs t blackbox db) ->
  (forall p, In p (used_pairs t blackbox db) -> lid p = lid q -> p = q) ->
  (forall r, In r rs <-> In r (expected_regions t blackbox db lid empty_truthy n)) ->
  dget (regions_by_layer norm rs) (lid q) =
  match layer_at t q with
  | Some c => if conducts (cl_kind c) && (empty_truthy || match net_polygons t blackbox db q n with [] => false | _ => true end)
              then Some (map given (net_polygons t blackbox db q n)) else None
  | None => None
  end.
Proof.
  intros U Inj Rs. rewrite regions_dict.
  assert (A : forall r, In r (expected_regions t blackbox db lid empty_truthy n) -> rr_layer r = lid q -> In r (regions_on t blackbox db lid empty_truthy n q)).
  { intros r I L. apply in_flat_map in I. destruct I as (p & Up & I).
    assert (R : rr_layer r = lid p).
    { unfold regions_on in I. destruct (layer_at t p); [|destruct I]. destruct (_ && _); [|destruct I].
      apply in_map_iff in I. destruct I as (x & <- & _). reflexivity. }
    rewrite (Inj p Up) in I by congruence. exact I. }
  assert (S : forall r, In r (regions_on t blackbox db lid empty_truthy n q) -> klayout_region norm (rr_region r) = map given (net_polygons t blackbox db q n) /\ rr_layer r = lid q).
  { intros r I. unfold regions_on in I. destruct (layer_at t q); [|destruct I]. destruct (_ && _); [|destruct I].
    apply in_map_iff in I. destruct I as (x & <- & _). split; [|reflexivity]. unfold klayout_region. simpl. rewrite map_map. reflexivity. }
  destruct (last_such _ _) as [r|] eqn:E.
  - apply last_such_In in E. destruct E as [I L]. apply eqb_eq in L. specialize (A r (proj1 (Rs r) I) L). destruct (S r A) as [Rg _]. simpl. rewrite Rg.
    unfold regions_on in A. destruct (layer_at t q); [|destruct A]. destruct (_ && _); [reflexivity|destruct A].
  - simpl. assert (E' := proj1 (last_such_None _ _) E).
    destruct (layer_at t q) as [c|] eqn:C; [|reflexivity]. destruct (_ && _) eqn:B; [|reflexivity]. exfalso.
    assert (X := used_sources q U). destruct (sources t blackbox db q) as [|x xs] eqn:Sx; [congruence|].
    set (r := RRegion (lid q) (cl_orig c) (x_name x) (map sent (net_polygons t blackbox db q n))).
    assert (I : In r (expected_regions t blackbox db lid empty_truthy n)).
    { apply in_flat_map. exists q. split; [exact U|]. unfold regions_on. rewrite C, B, Sx. left; reflexivity. }
    specialize (E' r (proj2 (Rs r) I)). simpl in E'. rewrite eqb_refl in E'. discriminate.
Qed.
End Context.

(** ** ports *)
Lemma fold_flat {A B S} (f : S -> B -> S) (g : A -> list B) l : forall s, fold_left (fun s a => fold_left f (g a) s) l s = fold_left f (flat_map g l) s.
Proof. induction l as [|a l IH]; intros s; simpl; [reflexivity|]. rewrite IH, fold_left_app. reflexivity. Qed.
Definition all_polygons (ts : list terminal) : list (nat * terminal * pbpoly) :=
  flat_map (fun x => flat_map (fun r => map (fun p => (lr_layer r, x, p)) (lr_region r)) (tm_regions x)) ts.
Lemma fold_pair {A V W} (key : A -> nat) (v : A -> V) (w : A -> W) l : forall a b,
  fold_left (fun (st : dict nat (list V) * dict nat (list W)) e => (dappend (fst st) (key e) (v e), dappend (snd st) (key e) (w e))) l (a, b) =
  (group key v l a, group key w l b).
Proof. induction l as [|e l IH]; intros a b; [reflexivity|]. cbn [fold_left fst snd]. rewrite IH. reflexivity. Qed.
Lemma fold_map {A B S} (f : S -> B -> S) (g : A -> B) l : forall s, fold_left f (map g l) s = fold_left (fun s a => f s (g a)) l s.
Proof. induction l as [|a l IH]; intros s; simpl; [reflexivity|apply IH]. Qed.
Lemma fold_ext {A S} (f g : S -> A -> S) l : (forall s a, f s a = g s a) -> forall s, fold_left f l s = fold_left g l s.
Proof. intros E. induction l as [|a l IH]; intros s; simpl; [reflexivity|]. rewrite E. apply IH. Qed.
Lemma terminal_ports_eq norm ts : terminal_ports norm ts =
  (group (fun e => fst (fst e)) (fun e => klayout_polygon norm (snd e)) (all_polygons ts) [], group (fun e => fst (fst e)) (fun e => snd (fst e)) (all_polygons ts) []).
Proof.
  rewrite <- fold_pair. unfold terminal_ports, all_polygons. rewrite <- fold_flat. apply fold_ext. intros s x.
  rewrite <- fold_flat. apply fold_ext. intros s' r. rewrite fold_map. reflexivity.
Qed.
Lemma polygons_on_eq k ts : polygons_on k ts = map (fun e => (snd (fst e), snd e)) (filter (fun e => eqb (fst (fst e)) k) (all_polygons ts)).
Proof.
  unfold polygons_on, all_polygons. rewrite filter_flat_map, map_flat_map. apply flat_map_ext. intros x.
  rewrite filter_flat_map, map_flat_map. apply flat_map_ext. intros r. induction (lr_region r) as [|p l IH]; simpl.
  - destruct (eqb _ _); reflexivity.
  - destruct (eqb (lr_layer r) k) eqn:E; simpl; rewrite <- IH; reflexivity.
Qed.
Lemma group_ports {A V} (key : A -> nat) (v : A -> V) l : ports_are (group key v l []) (fun k => map v (filter (fun e => eqb (key e) k) l)).
Proof. intros k. rewrite group_get. reflexivity. Qed.
Lemma terminal_polygons norm ts : ports_are (fst (terminal_ports norm ts)) (fun k => map (fun e => klayout_polygon norm (snd e)) (polygons_on k ts)).
Proof. rewrite terminal_ports_eq. intros k. rewrite polygons_on_eq, map_map. apply group_ports. Qed.
Lemma terminal_owners norm ts : ports_are (snd (terminal_ports norm ts)) (fun k => map fst (polygons_on k ts)).
Proof. rewrite terminal_ports_eq. intros k. rewrite polygons_on_eq, map_map. apply group_ports. Qed.
Lemma pin_ports_eq ps : pin_ports ps = (group pin_layer pin_point ps [], group pin_layer (fun p => (pin_label p, pin_net p)) ps []).
Proof. rewrite <- fold_pair. reflexivity. Qed.
Lemma pin_points ps : ports_are (fst (pin_ports ps)) (fun k => map pin_point (pins_on k ps)).
Proof. rewrite pin_ports_eq. apply group_ports. Qed.
Lemma pin_owners ps : ports_are (snd (pin_ports ps)) (fun k => map (fun p => (pin_label p, pin_net p)) (pins_on k ps)).
Proof. rewrite pin_ports_eq. apply group_ports. Qed.
Lemma port_at_are {V} (d : dict nat (list V)) f k i : ports_are d f -> port_at d k i = nth_error (f k) i.
Proof. intros P. unfold port_at. rewrite P. destruct (f k); [destruct i|]; reflexivity. Qed.

Lemma dget_fold_set {A K V} `{EqDec K} (key : A -> K) (val : A -> V) l : forall d k,
  dget (fold_left (fun d x => dset d (key x) (val x)) l d) k =
  match last_such (fun x => eqb (key x) k) l with Some x => Some (val x) | None => dget d k end.
Proof.
  unfold last_such. induction l as [|x l IH] using rev_ind; intros d k; [reflexivity|].
  rewrite fold_left_app, rev_app_distr. simpl. rewrite dget_dset. destruct (eqb (key x) k) eqn:E.
  - apply eqb_eq in E. destruct (eq_dec k (key x)); [reflexivity|congruence].
  - apply eqb_neq in E. destruct (eq_dec k (key x)); [congruence|apply IH].
Qed.
Lemma layer_names_get r k : dget (layer_names r) k = name_of_layer r k.
Proof.
  unfold layer_names, name_of_layer. rewrite dget_fold_set. destruct (last_such _ (rt_vias r)); [reflexivity|].
  rewrite dget_fold_set. destruct (last_such _ (rt_conductors r)); reflexivity.
Qed.
Lemma result_node_ok norm r v n x :
  result_node (layer_names r) (snd (pin_ports (nr_pins v))) (snd (terminal_ports norm (nr_terminals v))) n = Some x -> node_matches r v n x.
Proof.
  unfold result_node, node_matches. rewrite layer_names_get. destruct (name_of_layer r (kn_layer n)) as [cn|]; [|discriminate].
  destruct (kn_port n) as [i|i|].
  - rewrite (port_at_are _ _ _ i (pin_owners _)), nth_error_map. destruct (nth_error _ i) as [p|] eqn:E; [|discriminate].
    simpl. intros F; injection F as <-. simpl. repeat split. eauto.
  - rewrite (port_at_are _ _ _ i (terminal_owners norm _)), nth_error_map. destruct (nth_error _ i) as [p|] eqn:E; [|discriminate].
    simpl. intros F; injection F as <-. simpl. repeat split. eauto.
  - intros F; injection F as <-. repeat split.
Qed.
Lemma result_node_total norm r v n : node_valid r v n ->
  result_node (layer_names r) (snd (pin_ports (nr_pins v))) (snd (terminal_ports norm (nr_terminals v))) n <> None.
Proof.
  unfold result_node, node_valid. rewrite layer_names_get. destruct (name_of_layer r (kn_layer n)) as [cn|]; [|intros [[] _]; reflexivity].
  intros [_ V]. destruct (kn_port n) as [i|i|]; [| |discriminate].
  - rewrite (port_at_are _ _ _ i (pin_owners _)), nth_error_map. destruct (nth_error _ i) as [p|] eqn:E; [discriminate|].
    apply nth_error_None in E. lia.
  - rewrite (port_at_are _ _ _ i (terminal_owners norm _)), nth_error_map. destruct (nth_error _ i) as [p|] eqn:E; [discriminate|].
    apply nth_error_None in E. lia.
Qed.

(** ** technology *)
Lemma times_1000 r : (Q2Qc 1000 * (r / Q2Qc 1000) = r)%Qc.
Proof. apply Qcmult_div_r. intros E. discriminate E. Qed.
Lemma resistance_table l n : resistance_of l n = table l n.
Proof. unfold resistance_of, table. rewrite comp_dict_get. reflexivity. Qed.
Lemma contact_named stack n : contact_by_name stack n = named (all_contacts stack) n.
Proof. unfold contact_by_name, named. rewrite comp_dict_get. fold (all_contacts stack). destruct (last_such _ _); reflexivity. Qed.
Lemma bottom_top_named stack n : bottom_and_top stack n = option_map (fun c => (rc_below c, rc_above c)) (named (metal_contacts stack) n).
Proof. unfold bottom_and_top, named. rewrite comp_dict_get. reflexivity. Qed.
Lemma metal_contact_known stack n m : named (metal_contacts stack) n = Some m -> exists k, named (all_contacts stack) n = Some k.
Proof.
  intros E. apply last_such_In in E. destruct E as [I N].
  destruct (named (all_contacts stack) n) as [k|] eqn:K; [eauto|]. exfalso.
  enough (K' : eqb (rc_name m) n = false) by (rewrite N in K'; discriminate K'). apply (proj1 (last_such_None _ _) K m).
  apply in_flat_map in I. destruct I as (s & I & J). apply in_flat_map. exists s. split; [exact I|].
  destruct s as [| |[c|]|]; solve [exact J|destruct J].
Qed.

Lemma all_some_collect {A X B} (R : A -> X -> Prop) (f : X -> option (list B)) (g : A -> bool) (P : A -> B -> Prop) L Xs vs :
  Forall2 R L Xs -> (forall l x ys, In l L -> R l x -> f x = Some ys -> Forall2 P (if g l then [l] else []) ys) ->
  all_some (map f Xs) = Some vs -> Forall2 P (filter g L) (List.concat vs).
Proof.
  intros F. revert vs. induction F as [|l x L Xs Rx F IH]; intros vs H E; simpl in E.
  - injection E as <-. constructor.
  - destruct (f x) as [ys|] eqn:Y; [|discriminate]. destruct (all_some (map f Xs)) as [zs|] eqn:Z; [|discriminate].
    injection E as <-. simpl. assert (Q := H l x ys (or_introl eq_refl) Rx Y).
    assert (Q' := IH zs (fun l x ys I => H l x ys (or_intror I)) eq_refl).
    destruct (g l); [apply (Forall2_app Q Q')|]. inversion Q; subst. exact Q'.
Qed.
Lemma all_some_pairs {A X B} (R : A -> X -> Prop) (f : X -> option B) (P : A -> B -> Prop) L Xs vs :
  Forall2 R L Xs -> (forall l x y, In l L -> R l x -> f x = Some y -> P l y) -> all_some (map f Xs) = Some vs -> Forall2 P L vs.
Proof.
  intros F. revert vs. induction F as [|l x L Xs Rx F IH]; intros vs H E; simpl in E.
  - injection E as <-. constructor.
  - destruct (f x) as [ys|] eqn:Y; [|discriminate]. destruct (all_some (map f Xs)) as [zs|] eqn:Z; [|discriminate].
    injection E as <-. constructor; [apply (H l x ys (or_introl eq_refl) Rx Y)|]. apply IH; [|reflexivity]. intros l' x' y I. apply H. right; exact I.
Qed.
Lemma all_some_fail {A X B} (R : A -> X -> Prop) (f : X -> option B) L Xs : Forall2 R L Xs ->
  (all_some (map f Xs) = None <-> exists l x, In l L /\ R l x /\ In x Xs /\ f x = None).
Proof.
  intros F. rewrite all_some_None. split.
  - intros I. apply in_map_iff in I. destruct I as (x & E & I). clear -F E I. induction F as [|l y L Xs Rx F IH]; [destruct I|].
    destruct I as [->|I]; [exists l, x; repeat split; try (left; reflexivity); assumption|]. destruct (IH I) as (l' & x' & I1 & I2 & I3 & I4).
    exists l', x'. repeat split; try (right; assumption); assumption.
  - intros (l & x & _ & _ & I & E). apply in_map_iff. eauto.
Qed.

Lemma NoDup_app_intro {A} (l r : list A) : NoDup l -> (forall x, In x l -> ~ In x r) -> NoDup r -> NoDup (l ++ r).
Proof.
  intros N D R. induction N as [|x l I N IH]; simpl; [exact R|]. constructor.
  - rewrite in_app_iff. intros [J|J]; [apply I, J|]. apply (D x); [left; reflexivity|exact J].
  - apply IH. intros y J. apply D. right; exact J.
Qed.
Lemma Forall2_In_r {A B} (P : A -> B -> Prop) l r b : Forall2 P l r -> In b r -> exists a, In a l /\ P a b.
Proof.
  intros F. induction F as [|a y l r M F IH]; intros I; [destruct I|]. destruct I as [->|I]; [exists a; split; [left; reflexivity|exact M]|].
  destruct (IH I) as (a' & J & M'). exists a'. split; [right; exact J|exact M'].
Qed.
Section Technology.
Variables (t : tech) (blackbox : bool) (db : lvsdb) (stack : list stacked) (res : resistances) (lid : gds -> nat).
Variables (sub wire : algorithm) (b amax merge : Qc) (skip : bool).
Hypothesis wf : db_wf db.
Notation of_pair q := (filter (belongs t blackbox db q) (db_layers db)).
Lemma filter_combine {A} (P : A -> bool) (l : list A) : forall n,
  map snd (filter (fun e : nat * A => P (snd e)) (combine (seq n (List.length l)) l)) = filter P l.
Proof. induction l as [|a l IH]; intros n; simpl; [reflexivity|]. destruct (P a); simpl; rewrite IH; reflexivity. Qed.
Lemma sources_layers q : Forall2 (fun l x => x_name x = lv_name l /\ x_pair x = q) (of_pair q) (sources t blackbox db q).
Proof.
  unfold sources. rewrite <- (filter_combine (belongs t blackbox db q) (db_layers db) 0). fold (enumerate (db_layers db)).
  induction (filter _ (enumerate (db_layers db))) as [|e l IH]; simpl; constructor; [split; reflexivity|exact IH].
Qed.

Definition via_entry_ok (c : clayer) (l : lvslayer) (v : via) : Prop :=
  via_for t stack res lid merge l c v \/ (stray_via stack res l c /\ v = empty_via).
Lemma contact_via_ok c q l x ys : cl_kind c <> KPin -> cl_purpose c = PContact -> cl_pair c = q -> x_name x = lv_name l -> x_pair x = q ->
  contact_via t stack res merge lid (cl_orig c) x = Some ys -> Forall2 (via_entry_ok c) (if gives_via stack res l c then [l] else []) ys.
Proof.
  intros K Pu Q N Xp. unfold contact_via, gives_via. rewrite N, contact_named, Pu.
  replace (match cl_kind c with KPin => false | _ => match named (all_contacts stack) (lv_name l) with
     | Some k => match table (res_contacts res) (rc_below k) with Some _ => true | None => false end | None => false end end)
    with (match named (all_contacts stack) (lv_name l) with
     | Some k => match table (res_contacts res) (rc_below k) with Some _ => true | None => false end | None => false end) by (destruct (cl_kind c); congruence).
  destruct (named (all_contacts stack) (lv_name l)) as [k|] eqn:Nk; [|intros E; injection E as <-; constructor].
  rewrite resistance_table. destruct (table (res_contacts res) (rc_below k)) as [r|] eqn:T; [|intros E; injection E as <-; constructor].
  rewrite !gds_pair_eq. destruct (pair_of t (rc_below k)) as [pb|] eqn:B; [|discriminate]. destruct (pair_of t (rc_above k)) as [pa|] eqn:A; [|discriminate].
  intros E; injection E as <-. constructor; [|constructor]. left. unfold via_for. simpl. rewrite Pu, Q, Xp. repeat split; try assumption; try reflexivity.
  exists (rc_below k), (rc_above k), k, r, pb, pa. repeat split; try assumption.
  unfold ohm_by_square. rewrite Qcmult_assoc, times_1000. reflexivity.
Qed.
Lemma metal_via_ok c q l x r ys : cl_kind c <> KPin -> cl_purpose c = PVia -> cl_pair c = q -> x_name x = lv_name l -> x_pair x = q ->
  table (res_vias res) (cl_orig c) = Some r ->
  metal_via t stack merge lid (cl_orig c) r x = Some ys -> Forall2 (via_entry_ok c) (if gives_via stack res l c then [l] else []) ys.
Proof.
  intros K Pu Q N Xp T. unfold metal_via, gives_via. rewrite N, bottom_top_named, contact_named, Pu, T.
  replace (match cl_kind c with KPin => false | _ => true end) with true by (destruct (cl_kind c); congruence).
  destruct (named (metal_contacts stack) (lv_name l)) as [m|] eqn:Nm; simpl.
  2:{ intros E; injection E as <-. constructor; [|constructor]. right. split; [|reflexivity]. repeat split; try assumption. congruence. }
  destruct (metal_contact_known _ _ _ Nm) as (k & Nk). rewrite Nk.
  rewrite !gds_pair_eq. destruct (pair_of t (rc_below m)) as [pb|] eqn:B; [|discriminate]. destruct (pair_of t (rc_above m)) as [pa|] eqn:A; [|discriminate].
  intros E; injection E as <-. constructor; [|constructor]. left. unfold via_for. simpl. rewrite Pu, Q, Xp. repeat split; try assumption; try reflexivity.
  exists (rc_below m), (rc_above m), k, r, pb, pa. repeat split; try assumption; [|exists m; repeat split; assumption].
  unfold ohm_by_square. rewrite Qcmult_assoc, times_1000. reflexivity.
Qed.

Notation entry := (tech_entry t stack res sub wire b amax merge lid).
Lemma layer_at_pair q c : layer_at t q = Some c -> cl_pair c = q.
Proof. intros E. apply last_such_In in E. destruct E as [_ E]. apply eqb_eq in E. exact E. Qed.
Definition is_pin (c : clayer) : bool := match cl_kind c with KPin => true | _ => false end.
Lemma entry_unfold q c : layer_at t q = Some c -> entry (q, sources t blackbox db q) =
  if is_pin c then Some ([], [])
  else match cl_purpose c with
         | PNImplant | PPImplant => Some (map (implant_conductor sub b amax lid (cl_orig c)) (sources t blackbox db q), [])
         | PMetal => match all_some (map (metal_conductor res sub wire b amax lid (cl_orig c)) (sources t blackbox db q)) with Some cs => Some (cs, []) | None => None end
         | PContact => match all_some (map (contact_via t stack res merge lid (cl_orig c)) (sources t blackbox db q)) with Some vs => Some ([], List.concat vs) | None => None end
         | PVia => match table (res_vias res) (cl_orig c) with
                   | None => Some ([], [])
                   | Some r => match all_some (map (metal_via t stack merge lid (cl_orig c) r) (sources t blackbox db q)) with Some vs => Some ([], List.concat vs) | None => None end
                   end
         | PNWell | POther => Some ([], [])
         end.
Proof.
  intros C. unfold tech_entry. cbn [fst snd]. rewrite info_by_pair, canon_get. unfold canon_of. fold (layer_at t q). rewrite C. cbn [option_map]. rewrite resistance_table. unfold is_pin. destruct (cl_kind c); reflexivity.
Qed.
Definition conductors_ok (c : clayer) (ls : list lvslayer) (cs : list conductor) : Prop :=
  Forall2 (fun l k => conductor_for res lid sub wire b amax l c k) (if gives_conductor c then ls else []) cs.
Definition vias_ok (c : clayer) (ls : list lvslayer) (vs : list via) : Prop :=
  Forall2 (via_entry_ok c) (filter (fun l => gives_via stack res l c) ls) vs.
Lemma filter_false_in {A} (P : A -> bool) l : (forall a, In a l -> P a = false) -> filter P l = [].
Proof. intros E. induction l as [|a l IH]; simpl; [reflexivity|]. rewrite E by (left; reflexivity). apply IH. intros; apply E; right; assumption. Qed.
Lemma filter_false {A} (P : A -> bool) l : (forall a, P a = false) -> filter P l = [].
Proof. intros E. induction l as [|a l IH]; simpl; [reflexivity|]. rewrite E. exact IH. Qed.
Lemma entry_ok q c cs vs : layer_at t q = Some c -> entry (q, sources t blackbox db q) = Some (cs, vs) ->
  conductors_ok c (of_pair q) cs /\ vias_ok c (of_pair q) vs.
Proof.
  intros C. rewrite (entry_unfold q c C). assert (Q := layer_at_pair q c C). assert (S := sources_layers q).
  destruct (is_pin c) eqn:Kb.
  { assert (Kp : cl_kind c = KPin) by (unfold is_pin in Kb; destruct (cl_kind c); congruence).
    intros E; injection E as <- <-. split.
    - unfold conductors_ok, gives_conductor. rewrite Kp. constructor.
    - unfold vias_ok. rewrite filter_false; [constructor|]. intros l. unfold gives_via. rewrite Kp. reflexivity. }
  assert (Kp : cl_kind c <> KPin) by (intros E; unfold is_pin in Kb; rewrite E in Kb; discriminate Kb). clear Kb.
  assert (NoVia : cl_purpose c <> PContact -> cl_purpose c <> PVia -> vias_ok c (of_pair q) []).
  { intros P1 P2. unfold vias_ok. rewrite filter_false; [constructor|]. intros l. unfold gives_via. destruct (cl_kind c), (cl_purpose c); congruence. }
  assert (NoCond : cl_purpose c <> PNImplant -> cl_purpose c <> PPImplant -> cl_purpose c <> PMetal -> conductors_ok c (of_pair q) []).
  { intros P1 P2 P3. unfold conductors_ok. replace (gives_conductor c) with false; [constructor|]. unfold gives_conductor. destruct (cl_kind c), (cl_purpose c); congruence. }
  assert (Implant : cl_purpose c = PNImplant \/ cl_purpose c = PPImplant -> conductors_ok c (of_pair q) (map (implant_conductor sub b amax lid (cl_orig c)) (sources t blackbox db q))).
  { intros P. unfold conductors_ok. replace (gives_conductor c) with true by (unfold gives_conductor; destruct (cl_kind c); try congruence; destruct P as [-> | ->]; reflexivity).
    clear -S Kp P Q. induction S as [|l x ls xs [N X] S IH]; simpl; constructor; [|exact IH].
    unfold conductor_for, implant_conductor; simpl. rewrite X, N, Q. repeat split; try assumption. destruct P as [-> | ->]; split; reflexivity. }
  destruct (cl_purpose c) eqn:Pu.
  - intros E; injection E as <- <-. split; [apply NoCond|apply NoVia]; discriminate.
  - intros E; injection E as <- <-. split; [apply Implant; left; reflexivity|apply NoVia; discriminate].
  - intros E; injection E as <- <-. split; [apply Implant; right; reflexivity|apply NoVia; discriminate].
  - destruct (all_some _) as [cs'|] eqn:E; [|discriminate]. intros F; injection F as <- <-. split; [|apply NoVia; discriminate].
    unfold conductors_ok. replace (gives_conductor c) with true by (unfold gives_conductor; rewrite Pu; destruct (cl_kind c); congruence).
    refine (all_some_pairs _ _ _ _ _ _ S _ E). intros l x y _ [N X] Y. unfold metal_conductor in Y. rewrite resistance_table in Y.
    destruct (table (res_layers res) (cl_orig c)) as [r|] eqn:T; [|discriminate]. injection Y as <-.
    unfold conductor_for. simpl. rewrite X, N, Q, Pu. repeat split; try assumption. unfold milliohm_to_ohm. rewrite times_1000. exact T.
  - destruct (all_some _) as [vs'|] eqn:E; [|discriminate]. intros F; injection F as <- <-. split; [apply NoCond; discriminate|].
    refine (all_some_collect _ _ _ _ _ _ _ S _ E). intros l x ys _ [N X] Y. exact (contact_via_ok c q l x ys Kp Pu Q N X Y).
  - destruct (table (res_vias res) (cl_orig c)) as [r|] eqn:T.
    + destruct (all_some _) as [vs'|] eqn:E; [|discriminate]. intros F; injection F as <- <-. split; [apply NoCond; discriminate|].
      refine (all_some_collect _ _ _ _ _ _ _ S _ E). intros l x ys _ [N X] Y. exact (metal_via_ok c q l x r ys Kp Pu Q N X T Y).
    + intros F; injection F as <- <-. split; [apply NoCond; discriminate|]. unfold vias_ok. rewrite filter_false; [constructor|].
      intros l. unfold gives_via. rewrite Pu, T. destruct (cl_kind c); reflexivity.
  - intros E; injection E as <- <-. split; [apply NoCond|apply NoVia]; discriminate.
Qed.
Lemma entry_fail q c : layer_at t q = Some c ->
  (entry (q, sources t blackbox db q) = None <-> exists l, In l (of_pair q) /\ breaks t stack res l c).
Proof.
  intros C. rewrite (entry_unfold q c C). assert (Q := layer_at_pair q c C). assert (S := sources_layers q). unfold breaks.
  destruct (is_pin c) eqn:Kb.
  { assert (Kp : cl_kind c = KPin) by (unfold is_pin in Kb; destruct (cl_kind c); congruence).
    split; [discriminate|]. intros (l & _ & [] & _). exact Kp. }
  assert (Kp : cl_kind c <> KPin) by (intros E; unfold is_pin in Kb; rewrite E in Kb; discriminate Kb). clear Kb.
  assert (Vac : (Some (@nil conductor, @nil via) = None) <-> (exists l, In l (of_pair q) /\ cl_kind c <> KPin /\ False)) by (split; [discriminate|intros (? & _ & _ & [])]).
  assert (Related : forall l, In l (of_pair q) -> exists x, x_name x = lv_name l /\ x_pair x = q /\ In x (sources t blackbox db q)).
  { clear -S. induction S as [|l x ls xs [N X] S IH]; intros l' I; [destruct I|]. destruct I as [->|I]; [exists x; repeat split; try assumption; left; reflexivity|].
    destruct (IH l' I) as (x' & A & B & D). exists x'. repeat split; try assumption. right; exact D. }
  destruct (cl_purpose c) eqn:Pu; try exact Vac.
  - split; [discriminate|intros (? & _ & _ & [])].
  - split; [discriminate|intros (? & _ & _ & [])].
  - destruct (all_some _) as [cs'|] eqn:E.
    + split; [discriminate|]. intros (l & I & _ & T). exfalso. destruct (Related l I) as (x & N & X & J).
      assert (F : all_some (map (metal_conductor res sub wire b amax lid (cl_orig c)) (sources t blackbox db q)) = None).
      { apply (proj2 (all_some_fail _ _ _ _ S)). exists l, x. repeat split; try assumption. unfold metal_conductor. rewrite resistance_table, T. reflexivity. }
      congruence.
    + split; [intros _|reflexivity]. apply (proj1 (all_some_fail _ _ _ _ S)) in E. destruct E as (l & x & I & _ & _ & F).
      exists l. repeat split; try assumption. unfold metal_conductor in F. rewrite resistance_table in F. destruct (table (res_layers res) (cl_orig c)); [discriminate|reflexivity].
  - assert (Iff : forall l x, x_name x = lv_name l -> contact_via t stack res merge lid (cl_orig c) x = None <->
       (exists k, named (all_contacts stack) (lv_name l) = Some k /\ table (res_contacts res) (rc_below k) <> None /\ unresolved t (rc_below k) (rc_above k))).
    { intros l x N. unfold contact_via. rewrite N, contact_named. destruct (named (all_contacts stack) (lv_name l)) as [k|].
      2:{ split; [discriminate|intros (k & F & _); discriminate]. }
      rewrite resistance_table. destruct (table (res_contacts res) (rc_below k)) as [r|] eqn:T.
      2:{ split; [discriminate|]. intros (k' & F & G & _). injection F as <-. congruence. }
      rewrite !gds_pair_eq. unfold unresolved. split.
      - intros F. exists k. repeat split; [congruence|]. destruct (pair_of t (rc_below k)); [|left; reflexivity]. destruct (pair_of t (rc_above k)); [discriminate|right; reflexivity].
      - intros (k' & F & _ & [G|G]); injection F as <-; rewrite G; [reflexivity|]. destruct (pair_of t (rc_below k)); reflexivity. }
    destruct (all_some _) as [cs'|] eqn:E.
    + split; [discriminate|]. intros (l & I & _ & T). exfalso. destruct (Related l I) as (x & N & X & J).
      assert (F : all_some (map (contact_via t stack res merge lid (cl_orig c)) (sources t blackbox db q)) = None).
      { apply (proj2 (all_some_fail _ _ _ _ S)). exists l, x. repeat split; try assumption. apply (Iff l x N), T. }
      congruence.
    + split; [intros _|reflexivity]. apply (proj1 (all_some_fail _ _ _ _ S)) in E. destruct E as (l & x & I & [N _] & _ & F).
      exists l. repeat split; try assumption. apply (Iff l x N), F.
  - destruct (table (res_vias res) (cl_orig c)) as [r|] eqn:T.
    2:{ split; [discriminate|]. intros (l & _ & _ & F & _). congruence. }
    assert (Iff : forall l x, x_name x = lv_name l -> metal_via t stack merge lid (cl_orig c) r x = None <->
       (exists m, named (metal_contacts stack) (lv_name l) = Some m /\ unresolved t (rc_below m) (rc_above m))).
    { intros l x N. unfold metal_via. rewrite N, contact_named, bottom_top_named. destruct (named (metal_contacts stack) (lv_name l)) as [m|] eqn:Nm; simpl.
      2:{ split; [discriminate|intros (k & F & _); discriminate]. }
      destruct (metal_contact_known _ _ _ Nm) as (k & Nk). rewrite Nk.
      rewrite !gds_pair_eq. unfold unresolved. split.
      - intros F. exists m. repeat split. destruct (pair_of t (rc_below m)); [|left; reflexivity]. destruct (pair_of t (rc_above m)); [discriminate|right; reflexivity].
      - intros (k' & F & [G|G]); injection F as <-; rewrite G; [reflexivity|]. destruct (pair_of t (rc_below m)); reflexivity. }
    destruct (all_some _) as [cs'|] eqn:E.
    + split; [discriminate|]. intros (l & I & _ & _ & T'). exfalso. destruct (Related l I) as (x & N & X & J).
      assert (F : all_some (map (metal_via t stack merge lid (cl_orig c) r) (sources t blackbox db q)) = None).
      { apply (proj2 (all_some_fail _ _ _ _ S)). exists l, x. repeat split; try assumption. apply (Iff l x N), T'. }
      congruence.
    + split; [intros _|reflexivity]. apply (proj1 (all_some_fail _ _ _ _ S)) in E. destruct E as (l & x & I & [N _] & _ & F).
      exists l. repeat split; try assumption; [congruence|]. apply (Iff l x N), F.
Qed.

Notation prepare := (prepare_tech t stack res sub wire b amax merge skip (extracted_layers t blackbox db) lid).
Lemma in_use_list l c : In (l, c) (layers_in_use t blackbox db) <-> in_use t blackbox db l c.
Proof.
  unfold layers_in_use, in_use. rewrite in_flat_map. split.
  - intros (q & U & I). destruct (layer_at t q) as [c'|] eqn:C; [|destruct I]. apply in_map_iff in I. destruct I as (l' & E & I). injection E as <- <-.
    apply filter_In in I. destruct I as [I B]. unfold belongs in B. apply andb_true_iff in B. destruct B as [H B].
    destruct (info_of t (lv_name l')) as [i|] eqn:N; [|discriminate]. apply andb_true_iff in B. destruct B as [Hd B]. apply eqb_eq in B.
    repeat split; try assumption. exists i. repeat split; [|rewrite B; exact C]. destruct (hidden blackbox i); [discriminate|reflexivity].
  - intros (I & H & i & N & Hd & C). exists (cl_pair i). split.
    + unfold used_pairs. apply distinct_In, in_flat_map. exists l. split; [exact I|]. rewrite N, H, Hd. left; reflexivity.
    + rewrite C. apply in_map_iff. exists l. split; [reflexivity|]. apply filter_In. split; [exact I|]. unfold belongs. rewrite H, N, Hd, eqb_refl. reflexivity.
Qed.
Lemma in_use_NoDup : NoDup (layers_in_use t blackbox db).
Proof.
  unfold layers_in_use. assert (U : NoDup (used_pairs t blackbox db)) by apply distinct_NoDup.
  induction U as [|q qs N U IH]; cbn [flat_map]; [constructor|]. apply NoDup_app_intro; [| |exact IH].
  - destruct (layer_at t q) as [c|]; [|constructor]. apply FinFun.Injective_map_NoDup; [intros x y E; injection E as E; exact E|].
    apply NoDup_filter. exact (NoDup_map_inv _ _ wf).
  - intros [l c] I J. apply in_flat_map in J. destruct J as (p & P & J). apply N.
    destruct (layer_at t q) as [c1|]; [|destruct I]. apply in_map_iff in I. destruct I as (l1 & E1 & I). injection E1 as -> _.
    destruct (layer_at t p) as [c2|]; [|destruct J]. apply in_map_iff in J. destruct J as (l2 & E2 & J). injection E2 as -> _.
    apply filter_In in I, J. destruct I as [_ I], J as [_ J]. unfold belongs in I, J. apply andb_true_iff in I, J. destruct I as [_ I], J as [_ J].
    destruct (info_of t (lv_name l)) as [i|]; [|discriminate]. apply andb_true_iff in I, J. destruct I as [_ I], J as [_ J]. apply eqb_eq in I, J. congruence.
Qed.
Lemma prepare_ok r : prepare = Some r -> rt_skip_simplify r = skip /\
  Forall2 (fun e k => conductor_for res lid sub wire b amax (fst e) (snd e) k) (filter (fun e => gives_conductor (snd e)) (layers_in_use t blackbox db)) (rt_conductors r) /\
  Forall2 (fun e v => via_entry_ok (snd e) (fst e) v) (filter (fun e => gives_via stack res (fst e) (snd e)) (layers_in_use t blackbox db)) (rt_vias r).
Proof.
  unfold prepare_tech. rewrite (extracted_list t blackbox db wf), map_map.
  destruct (all_some _) as [es|] eqn:E; [|discriminate]. intros F; injection F as <-. simpl. split; [reflexivity|].
  unfold layers_in_use. rewrite !filter_flat_map.
  assert (U : forall q, In q (used_pairs t blackbox db) -> exists c, layer_at t q = Some c) by (intros q I; apply (used_canon t blackbox db q I)).
  revert es E U. generalize (used_pairs t blackbox db). intros qs. induction qs as [|q qs IH]; intros es E U; simpl in E.
  - injection E as <-. simpl. split; constructor.
  - destruct (entry (q, sources t blackbox db q)) as [[cs vs]|] eqn:En; [|discriminate].
    destruct (all_some _) as [es'|] eqn:E'; [|discriminate]. injection E as <-. simpl.
    destruct (IH es' eq_refl (fun q I => U q (or_intror I))) as [A B]. destruct (U q (or_introl eq_refl)) as (c & C).
    destruct (entry_ok q c cs vs C En) as [A' B']. rewrite C. split.
    + apply Forall2_app; [|exact A]. unfold conductors_ok in A'. clear -A'. revert cs A'. destruct (gives_conductor c) eqn:G.
      * induction (of_pair q) as [|l ls IH]; intros cs F; inversion F; subst; simpl; [constructor|]. rewrite G. constructor; [assumption|apply IH; assumption].
      * intros cs F; inversion F; subst. rewrite filter_false_in; [constructor|]. intros e I. apply in_map_iff in I. destruct I as (l & <- & _). exact G.
    + apply Forall2_app; [|exact B]. unfold vias_ok in B'. clear -B'. revert vs B'.
      induction (of_pair q) as [|l ls IH]; intros vs F; simpl in *; [inversion F; constructor|].
      destruct (gives_via stack res l c); [|apply IH, F]. inversion F; subst. constructor; [assumption|apply IH; assumption].
Qed.
Lemma prepare_fail : prepare = None <-> exists l c, in_use t blackbox db l c /\ breaks t stack res l c.
Proof.
  unfold prepare_tech. rewrite (extracted_list t blackbox db wf), map_map.
  destruct (all_some _) as [es|] eqn:E.
  - split; [discriminate|]. intros (l & c & I & B). exfalso. apply in_use_list in I. unfold layers_in_use in I. apply in_flat_map in I.
    destruct I as (q & U & I). destruct (layer_at t q) as [c'|] eqn:C; [|destruct I]. apply in_map_iff in I. destruct I as (l' & X & I). injection X as <- <-.
    assert (N : all_some (map (fun q => entry (q, sources t blackbox db q)) (used_pairs t blackbox db)) = None).
    { apply all_some_None, in_map_iff. exists q. split; [|exact U]. apply (entry_fail q c' C). eauto. }
    congruence.
  - split; [intros _|reflexivity]. apply all_some_None, in_map_iff in E. destruct E as (q & E & U).
    destruct (used_canon t blackbox db q U) as (c & C). fold (layer_at t q) in C. apply (entry_fail q c C) in E. destruct E as (l & I & B).
    exists l, c. split; [|exact B]. apply in_use_list. unfold layers_in_use. apply in_flat_map. exists q. split; [exact U|]. rewrite C.
    apply in_map_iff. eauto.
Qed.
End Technology.
