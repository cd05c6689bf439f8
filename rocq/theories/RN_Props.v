(** Property theorems C01-C09 (resistor networks, conductances, triangles). *)
From Coq Require Import String Permutation.
From Coq Require Qcabs.
From Verif Require Import PyBase QcLra RN_Model RN_Spec RN_Inv RN_Ops RN_Conn RN_Elim RN_All RN_Hist.
From Verif Require Import Cond_Model Cond_Proofs Tri_Model Tri_Spec Tri_Proofs.

Local Open Scope Qc_scope.
Arguments cond_between n (a b)%nat_scope.
Arguments total_cond n a%nat_scope.
Arguments current n v a%nat_scope.
Arguments connect_nodes n (a b)%nat_scope.
Arguments eliminate_node n i%nat_scope.
Arguments location n i%nat_scope.
Arguments added_between l (x y)%nat_scope.

(** ** C01 *)
(** Every admissible history runs without an exception and ends in a network whose
    self-check reports nothing, whose point/id tables are inverse to each other, and in
    which every resistor is known identically from both ends and listed exactly once in
    both star lists. *)
Theorem C01_consistent : forall l, run_ok empty_net l ->
  exists n, run empty_net l = Some n /\
    check n = 0%nat /\
    (forall p i, dget (nodes n) p = Some i <-> dget (locations n) i = Some p) /\
    (forall a b r, dget (s n) (a, b) = Some r ->
       dget (s n) (b, a) = Some r /\
       In (r, b) (star_of n a) /\ occurrences b (map snd (star_of n a)) = 1%nat /\
       In (r, a) (star_of n b) /\ occurrences a (map snd (star_of n b)) = 1%nat) /\
    (forall a r b, In (r, b) (star_of n a) -> dget (s n) (a, b) = Some r).
Proof.
  intros l OK. destruct (run_Inv l Inv_empty OK) as (n & R & I). exists n. split; [exact R|].
  split; [apply check_zero, I|]. split; [apply I|].
  assert (One : forall a b r, dget (s n) (a, b) = Some r ->
     In (r, b) (star_of n a) /\ occurrences b (map snd (star_of n a)) = 1%nat).
  { intros a b r E. destruct (s_star I _ _ E) as (la & L & J). unfold star_of. rewrite L. split; [exact J|].
    pose proof (star_nd I _ L) as Nd. unfold occurrences.
    apply (NoDup_count_occ' Nat.eq_dec); [exact Nd|]. apply (in_map snd) in J. exact J. }
  split.
  - intros a b r E. pose proof (s_sym I _ _ E) as E'. destruct (One _ _ _ E), (One _ _ _ E'). auto.
  - intros a r b. unfold star_of. destruct (dget (node_to_s n) a) as [la|] eqn:L; [|intros []].
    intros J. exact (star_s I _ _ _ L J).
Qed.
Print Assumptions C01_consistent.

Definition hist1 : list op :=
  [ONode (0,0)%Z; ONode (1,0)%Z; ONode (2,0)%Z; ONode (3,3)%Z; OPrecious 0%nat; OPrecious 3%nat;
   OCond 0%nat 1%nat 1; OCond 1%nat 2%nat (Q2Qc 2); OCond 1%nat 3%nat (Q2Qc 3); OCond 2%nat 1%nat 1; OElim 1%nat; ONode (7,7)%Z; OCond 4%nat 2%nat 1;
   OConnect 3%nat 4%nat; OElimAll].
Example C01_nontrivial : run_ok empty_net hist1.
Proof. apply run_okb_ok. vm_compute. reflexivity. Qed.

(** ** C02 *)
(** [n1] is [n] without node [i]; the voltage [u] of [i] that makes its own net
    current zero exists and is unique, and with it every other node sees the same
    current before and after. *)
Theorem C02_eliminate_equivalent : forall n i n1 v,
  reachable n -> (exists b, In b (node_list n) /\ cond_between n i b <> 0) ->
  Q2Qc (1 # 10000000000) < Qcabs' (total_cond n i) ->
  eliminate_node n i = Some n1 ->
  node_list n1 = remove Nat.eq_dec i (node_list n) /\
  exists u, let v' := fun x => if Nat.eq_dec x i then u else v x in
    current n v' i = 0 /\
    (forall u2, current n (fun x => if Nat.eq_dec x i then u2 else v x) i = 0 -> u2 = u) /\
    forall x, In x (node_list n1) -> current n1 v x = current n v' x.
Proof.
  intros n i n1 v R (b & _ & B) T E. apply reachable_Inv in R.
  assert (J : In i (dkeys (node_to_s n))).
  { unfold cond_between in B. destruct (dget (s n) (i, b)) eqn:S; [|congruence].
    destruct (s_star R _ _ S) as (l & L & _). eapply dget_Some_key; eauto. }
  destruct (eliminate_node_ok _ R J) as (m & Em & G & _). assert (m = n1) by congruence. subst m.
  split; [apply G|].
  assert (Sg : significant (total_cond n i) = true \/ pendant n i) by (apply regular_elim; left; exact T).
  destruct (@eliminate_extend n i v R J Sg) as [u U]. exists u. cbn.
  split; [exact U|]. split.
  - intros u2 U2. fold (vset v i u2) in U2. fold (vset v i u) in U.
    assert (SN : total_cond n i <> 0).
    { intros Z. rewrite Z in T. vm_compute in T. discriminate. }
    assert (Li : In i (node_list n)) by (apply In_keys_loc; auto).
    assert (EQ : forall w, current n (vset v i w) i = w * total_cond n i - qsumf (fun b => cond_between n i b * v b) (node_list n)).
    { intros w. unfold current, total_cond. rewrite <- qsumf_scal, <- qsumf_minus. apply qsumf_ext.
      intros c _. unfold vset. destruct (Nat.eq_dec i i); [|congruence].
      destruct (Nat.eq_dec c i) as [->|]; [|ring]. rewrite cond_irr by exact R. ring. }
    rewrite EQ in U, U2.
    replace u2 with ((u2 * total_cond n i) / total_cond n i) by (field; exact SN).
    replace u with ((u * total_cond n i) / total_cond n i) by (field; exact SN). f_equal.
    set (q := qsumf _ _) in *.
    replace (u2 * total_cond n i) with (u2 * total_cond n i - q + q) by ring.
    replace (u * total_cond n i) with (u * total_cond n i - q + q) by ring. rewrite U, U2. reflexivity.
  - intros x Jx. change (current n1 v x = current n (vset v i u) x).
    rewrite <- (@eliminate_current n i n1 _ R J Sg E U x Jx).
    apply current_ext; [exact Jx|]. intros y Jy. destruct (node_list_gone _ G Jy) as [_ N].
    unfold vset. destruct (Nat.eq_dec y i); [contradiction|reflexivity].
Qed.
Print Assumptions C02_eliminate_equivalent.

Definition net2 : net := match run empty_net (firstn 10 hist1) with Some n => n | None => empty_net end.
Lemma net2_reachable : reachable net2.
Proof.
  exists (firstn 10 hist1). split; [apply run_okb_ok; vm_compute; reflexivity|].
  unfold net2. destruct (run empty_net (firstn 10 hist1)) eqn:E; [reflexivity|].
  assert (X : (if run empty_net (firstn 10 hist1) then true else false) = true) by (vm_compute; reflexivity).
  rewrite E in X. discriminate X.
Qed.
Example C02_nontrivial : reachable net2 /\ Q2Qc (1 # 10000000000) < Qcabs' (total_cond net2 1) /\
  cond_between net2 1 2 = Q2Qc 3 /\ In 2%nat (node_list net2).
Proof.
  split; [apply net2_reachable|].
  split; [vm_compute; reflexivity|]. split; [qceq|]. vm_compute; auto.
Qed.

(** ** C03 *)
(** eliminate_all ends normally (no exception, the fuel bound of the model is never
    reached); every node that still has a resistor is precious; precious nodes keep id and
    location; no node is added or moved. *)
Theorem C03_eliminate_all_terminates : forall n, reachable n ->
  exists n1, eliminate_all n = Done n1 /\
    (forall a b, cond_between n1 a b <> 0 -> In a (precious n) /\ In b (precious n)) /\
    (forall i, In i (dkeys (node_to_s n1)) -> In i (precious n)) /\
    (forall i p, In i (precious n) -> location n i = Some p -> location n1 i = Some p) /\
    (forall i p, location n1 i = Some p -> location n i = Some p) /\
    precious n1 = precious n /\ node_names n1 = node_names n.
Proof.
  intros n R. apply reachable_Inv in R.
  destruct (eliminate_all_ok R) as (n1 & log & _ & E & I1 & EL & Nd & Inc & P1 & P2 & L & X & P & Nm).
  exists n1. split; [exact E|]. split; [|split; [exact P2|split; [|split; [|auto]]]].
  - assert (K : forall a b, cond_between n1 a b <> 0 -> In a (precious n)).
    { intros a b N. unfold cond_between in N. destruct (dget (s n1) (a, b)) eqn:S; [|congruence].
      apply P2. destruct (s_star I1 _ _ S) as (l & Ll & _). eapply dget_Some_key; eauto. }
    intros a b N. split; [eapply K; eauto|]. apply K with (b := a). rewrite cond_sym by exact I1. exact N.
  - intros i p Pi Li. unfold location in *. rewrite L. destruct (in_dec Nat.eq_dec i log) as [J|]; [|exact Li].
    exfalso. eapply P1; eauto.
  - intros i p. unfold location. rewrite L. destruct (in_dec Nat.eq_dec i log); [discriminate|auto].
Qed.
Print Assumptions C03_eliminate_all_terminates.
Example C03_nontrivial : reachable net2 /\ node_list net2 = [0; 1; 2; 3]%nat /\
  match eliminate_all net2 with
  | Done n1 => qeqb (cond_between n1 0 3) (Q2Qc (3 # 4)) && list_eqb (node_list n1) [0; 3]%nat
  | _ => false
  end = true.
Proof. split; [apply net2_reachable|]. split; vm_compute; reflexivity. Qed.

(** ** C04 *)
(** [lossless n log]: every node of [log] is [regular] (total conductance above 1e-10 in
    magnitude, or at most one neighbour) at the moment it is eliminated. *)
Theorem C04_eliminate_all_equivalent : forall n n1 log,
  reachable n -> eliminate_all_log n = Done (n1, log) -> lossless n log ->
  eliminate_all n = Done n1 /\
  (forall v, (forall i, In i (node_list n) -> ~ In i (node_list n1) -> current n v i = 0) ->
     forall x, In x (node_list n1) -> current n1 v x = current n v x) /\
  (forall v, exists w, (forall x, In x (node_list n1) -> w x = v x) /\
     (forall i, In i (node_list n) -> ~ In i (node_list n1) -> current n w i = 0) /\
     forall x, In x (node_list n1) -> current n w x = current n1 v x).
Proof.
  intros n n1 log R E Ls. pose proof (reachable_Inv R) as I.
  destruct (eliminate_all_ok I) as (m & log' & E' & EA & I1 & EL & Nd & Inc & _ & _ & L & _).
  rewrite E in E'. injection E' as <- <-.
  assert (NL : forall x, In x (node_list n1) <-> In x (node_list n) /\ ~ In x log).
  { intros x. unfold node_list. split.
    - intros J. apply dkeys_dget in J. destruct J as [p Q]. rewrite L in Q.
      destruct (in_dec Nat.eq_dec x log); [discriminate|]. split; [eapply dget_Some_key; eauto|assumption].
    - intros [J N]. apply dkeys_dget in J. destruct J as [p Q]. apply dget_Some_key with (v := p). rewrite L.
      destruct (in_dec Nat.eq_dec x log); [contradiction|exact Q]. }
  assert (LI : forall x, In x log -> In x (node_list n) /\ ~ In x (node_list n1)).
  { intros x J. split; [apply In_keys_loc; auto|]. rewrite NL. tauto. }
  split; [exact EA|]. split.
  - intros v K x Jx. eapply eliminate_list_current; eauto. intros i J. apply K; apply LI, J.
  - intros v. destruct (@eliminate_list_extend log n n1 v I Nd Inc Ls EL) as (w & W1 & W2).
    exists w. assert (A : forall x, In x (node_list n1) -> w x = v x) by (intros x J; apply W1, NL, J).
    split; [exact A|]. split.
    + intros i J N. apply W2. destruct (in_dec Nat.eq_dec i log) as [|Nl]; [assumption|]. exfalso; apply N, NL; auto.
    + intros x Jx. rewrite <- (@eliminate_list_current log n n1 w I Nd Inc Ls EL W2 x Jx).
      apply current_ext; [exact Jx|]. intros y Jy. apply A, Jy.
Qed.
Print Assumptions C04_eliminate_all_equivalent.
Example C04_nontrivial :
  match eliminate_all_log net2 with
  | Done (n1, log) => log = [1; 2]%nat
  | _ => False
  end /\ lossless net2 [1; 2]%nat.
Proof.
  split.
  - assert (X : match eliminate_all_log net2 with Done (_, log) => list_eqb log [1; 2]%nat | _ => false end = true)
      by (vm_compute; reflexivity).
    destruct (eliminate_all_log net2) as [[n1 log]| |]; try discriminate X. apply list_eqb_true, X.
  - cbn [lossless]. split; [left; vm_compute; reflexivity|].
    intros m Em. split; [|intros m2 _; exact Logic.I]. left.
    assert (X : match eliminate_node net2 1 with Some k => qltb (Q2Qc (1 # 10000000000)) (Qcabs' (total_cond k 2)) | None => true end = true)
      by (vm_compute; reflexivity).
    rewrite Em in X. apply qltb_true, X.
Qed.

(** Without the proviso the claim is false: two precious nodes joined through a middle
    node by two conductances of 1e-11 each are disconnected, although a current flows
    between them before. *)
Definition weak : Qc := Q2Qc (1 # 100000000000).
Definition weak_hist : list op :=
  [ONode (0,0)%Z; ONode (1,0)%Z; ONode (2,0)%Z; OPrecious 0%nat; OPrecious 2%nat; OCond 0%nat 1%nat weak; OCond 1%nat 2%nat weak].
Theorem C04_weak_resistors_refuted : exists n n1 v,
  reachable n /\ eliminate_all n = Done n1 /\ In 0%nat (node_list n1) /\
  current n v 1 = 0 /\ node_list n1 = [0; 2]%nat /\
  current n v 0 <> 0 /\ current n1 v 0 = 0.
Proof.
  set (v := fun x => match x with 0%nat => Q2Qc 2 | 1%nat => 1 | _ => 0 end).
  assert (X : match run empty_net weak_hist with
    | Some n => match eliminate_all n with
       | Done n1 => qeqb (current n v 1) 0 && list_eqb (node_list n1) [0; 2]%nat
                    && negb (qeqb (current n v 0) 0) && qeqb (current n1 v 0) 0
       | _ => false end
    | None => false end = true) by (vm_compute; reflexivity).
  destruct (run empty_net weak_hist) as [n|] eqn:R; [|discriminate X].
  destruct (eliminate_all n) as [n1| |] eqn:E; try discriminate X.
  exists n, n1, v. repeat (rewrite andb_true_iff in X). destruct X as [[[X1 X2] X3] X4].
  apply qeqb_true in X1, X4. apply list_eqb_true in X2. apply negb_true_iff, qeqb_false in X3.
  split; [exists weak_hist; split; [apply run_okb_ok; vm_compute; reflexivity|exact R]|].
  split; [exact E|]. rewrite X2. cbn. auto.
Qed.
Print Assumptions C04_weak_resistors_refuted.

(** Elimination never produces negative conductances out of non-negative ones. *)
Theorem C04_nonnegative : forall n n1, reachable n -> (forall a b, 0 <= cond_between n a b) ->
  eliminate_all n = Done n1 -> forall a b, 0 <= cond_between n1 a b.
Proof.
  intros n n1 R P E. apply reachable_Inv in R.
  destruct (eliminate_all_ok R) as (m & log & _ & EA & _ & EL & Nd & Inc & _).
  assert (m = n1) by congruence. subst m. exact (@nonneg_eliminate_list log n n1 R Nd Inc P EL).
Qed.
Print Assumptions C04_nonnegative.

(** ** C05 *)
(** Joining [b] to [a]: no exception; with both at the same voltage before, all other
    nodes see their old current and [a] the sum of both; [b] is gone if it had a
    resistor. *)
Theorem C05_connect_is_short : forall n a b, reachable n ->
  a <> b -> In a (node_list n) -> In b (node_list n) ->
  exists n1, connect_nodes n a b = Some n1 /\
    ((exists y, cond_between n b y <> 0) -> node_list n1 = remove Nat.eq_dec b (node_list n)) /\
    (forall x p, x <> b -> location n x = Some p -> location n1 x = Some p) /\
    (forall v, v b = v a ->
       current n1 v a = current n v a + current n v b /\
       forall x, In x (node_list n) -> x <> a -> x <> b -> current n1 v x = current n v x).
Proof.
  intros n a b R N A B. apply reachable_Inv in R.
  assert (X : exists n1, connect_nodes n a b = Some n1 /\
     ((exists y, cond_between n b y <> 0) -> node_list n1 = remove Nat.eq_dec b (node_list n)) /\
     (forall x p, x <> b -> location n x = Some p -> location n1 x = Some p)).
  { destruct (in_dec Nat.eq_dec b (dkeys (node_to_s n))) as [J|J].
    - destruct (@connect_nodes_ok n a b R N A J) as (n1 & E & _ & L & NL & _).
      exists n1. split; [exact E|]. split; [auto|]. intros x p Nx. unfold location. rewrite L.
      destruct (eq_dec x b); [contradiction|auto].
    - exists n. split; [apply connect_nodes_absent, J|]. split; [|auto].
      intros [y Y]. exfalso. apply J. unfold cond_between in Y. destruct (dget (s n) (b, y)) eqn:S; [|congruence].
      destruct (s_star R _ _ S) as (l & L & _). eapply dget_Some_key; eauto. }
  destruct X as (n1 & E & G & L). exists n1. split; [exact E|]. split; [exact G|]. split; [exact L|].
  intros v V. split.
  - rewrite (@connect_current n a b n1 v a R N A B E V A N). destruct (Nat.eq_dec a a); [reflexivity|congruence].
  - intros x Jx Nxa Nxb. rewrite (@connect_current n a b n1 v x R N A B E V Jx Nxb).
    destruct (Nat.eq_dec x a); [contradiction|reflexivity].
Qed.
Print Assumptions C05_connect_is_short.
Example C05_nontrivial : reachable net2 /\ In 0%nat (node_list net2) /\ In 1%nat (node_list net2) /\
  cond_between net2 1 0 <> 0 /\
  match connect_nodes net2 0 1 with Some n1 => qeqb (cond_between n1 0 2) (Q2Qc 3) | None => false end = true.
Proof.
  split; [apply net2_reachable|]. split; [vm_compute; auto|]. split; [vm_compute; auto|]. split; [qcneq|].
  vm_compute; reflexivity.
Qed.
(** A node without resistors is not removed: the call returns early. *)
Theorem C05_isolated_node_stays_refuted : exists n a b n1, reachable n /\ a <> b /\
  In a (node_list n) /\ In b (node_list n) /\ connect_nodes n a b = Some n1 /\ In b (node_list n1).
Proof.
  set (l := [ONode (0,0)%Z; ONode (1,1)%Z]).
  exists (match run empty_net l with Some n => n | None => empty_net end), 0%nat, 1%nat. eexists.
  split; [exists l; split; [repeat split|reflexivity]|]. split; [discriminate|].
  split; [vm_compute; auto|]. split; [vm_compute; auto|]. split; [vm_compute; reflexivity|]. vm_compute; auto.
Qed.
Print Assumptions C05_isolated_node_stays_refuted.

(** ** C06 *)
Theorem C06_parallel : forall n l, reachable n ->
  (forall a b g, In (a, b, g) l -> a <> b /\ In a (node_list n) /\ In b (node_list n)) ->
  forall x y, x <> y ->
    cond_between (add_all n l) x y = cond_between n x y + added_between l x y /\
    cond_between (add_all n l) x y = cond_between (add_all n l) y x /\
    ((forall a b g, In (a, b, g) l -> same_pair x y a b = false) ->
       cond_between (add_all n l) x y = cond_between n x y).
Proof.
  intros n l R H x y _. apply reachable_Inv in R. destruct (@add_all_ok l n R H) as [I C].
  split; [apply C|]. split; [apply cond_sym, I|]. intros Z. rewrite C.
  replace (added_between l x y) with 0; [ring|]. symmetry. apply qsumf_zero.
  intros [[a b] g] J. rewrite (Z a b g J). reflexivity.
Qed.
Print Assumptions C06_parallel.
Example C06_nontrivial : reachable net2 /\
  let l := [(0%nat, 2%nat, 1); (2%nat, 0%nat, Q2Qc 5); (1%nat, 3%nat, 1)] in
  (forall a b g, In (a, b, g) l -> a <> b /\ In a (node_list net2) /\ In b (node_list net2)) /\
  added_between l 0 2 = Q2Qc 6 /\ cond_between (add_all net2 l) 2 0 = Q2Qc 6.
Proof.
  split; [apply net2_reachable|]. split; [|split; qceq].
  assert (E : node_list net2 = [0; 1; 2; 3]%nat) by (vm_compute; reflexivity). rewrite E.
  intros a b g J. cbn in J. repeat (destruct J as [J|J]; [injection J as <- <- <-; cbn; repeat split; auto; lia|]). destruct J.
Qed.

(** ** C07 *)
(** The id of a point: it can be looked up again, later calls return it unchanged; over
    any further history the id either still denotes that point or is dead for good. *)
Theorem C07_ids_stable : forall n p n1 i, reachable n -> node_id n p = (n1, i) ->
  location n1 i = Some p /\ has_node n1 p = true /\ node_id n1 p = (n1, i) /\
  (forall q n2 j, node_id n1 q = (n2, j) -> j = i -> q = p) /\
  (forall l n2, run_ok n1 l -> run n1 l = Some n2 ->
     (location n2 i = Some p /\ node_id n2 p = (n2, i)) \/
     (location n2 i = None /\
      forall l' n3 q, run_ok n2 l' -> run n2 l' = Some n3 -> snd (node_id n3 q) <> i)).
Proof.
  intros n p n1 i R E. apply reachable_Inv in R. destruct (node_id_spec _ R E) as (I1 & N & L & Lt).
  assert (Again : forall m, dget (nodes m) p = Some i -> node_id m p = (m, i)).
  { intros m Q. unfold node_id. rewrite Q. reflexivity. }
  split; [exact L|]. split; [unfold has_node, dmem; rewrite N; reflexivity|]. split; [apply Again, N|]. split.
  - intros q n2 j F ->. destruct (node_id_spec _ I1 F) as (I2 & N2 & L2 & _).
    pose proof (@node_id_locs n1 q i I1 Lt) as Q. rewrite F in Q. cbn in Q. congruence.
  - intros l n2 OK Rn. destruct (run_ids l I1 OK Rn) as (I2 & Lt2 & L2). destruct (L2 i Lt) as [Q|Q].
    + left. unfold location. rewrite Q. split; [exact L|]. apply Again, (i_nl I2). congruence.
    + right. split; [exact Q|]. intros l' n3 q OK' Rn'. eapply id_dead; eauto. lia.
Qed.
Print Assumptions C07_ids_stable.
Example C07_nontrivial : reachable net2 /\
  let (n1, i) := node_id net2 (9,9)%Z in
  i = 4%nat /\ run_ok n1 [OCond 4%nat 0%nat 1; ORemove 4%nat] /\
  match run n1 [OCond 4%nat 0%nat 1; ORemove 4%nat] with
  | Some n2 => (if location n2 4 then false else true) && Nat.eqb (snd (node_id n2 (9,9)%Z)) 5
  | None => false
  end = true.
Proof.
  split; [apply net2_reachable|]. destruct (node_id net2 (9,9)%Z) as [n1 i] eqn:E.
  assert (X : (let (n1, i) := node_id net2 (9,9)%Z in
     Nat.eqb i 4 && run_okb n1 [OCond 4%nat 0%nat 1; ORemove 4%nat] &&
     match run n1 [OCond 4%nat 0%nat 1; ORemove 4%nat] with
     | Some n2 => (if location n2 4 then false else true) && Nat.eqb (snd (node_id n2 (9,9)%Z)) 5
     | None => false
     end) = true) by (vm_compute; reflexivity).
  rewrite E in X. apply andb_true_iff in X. destruct X as [X X3]. apply andb_true_iff in X. destruct X as [X1 X2].
  split; [apply Nat.eqb_eq, X1|]. split; [apply run_okb_ok, X2|exact X3].
Qed.

(** ** C08 *)
(** A triangle without obtuse corner is returned as it is.  Otherwise the longest side, if it is the first or the second one, is split at a point of
    the grid next to the foot of the altitude; along an axis this is the foot, and the parts tile the triangle.  On other sides the area of the parts
    is wrong by the given number at most. *)
Theorem C08_triangle_split_partial : forall t, integral t ->
  ((forall k, (k < 3)%nat -> ~ obtuse t k) -> expand_skinny_tris t = [t]) /\
  (area2 t <> 0 -> forall i, (i < 2)%nat -> stretched t i ->
     let A := corner t i in let B := corner t ((i + 1) mod 3) in let C := corner t ((i + 2) mod 3) in
     obtuse t ((i + 2) mod 3) /\
     exists F X u, 0 < u /\ u < 1 /\ F = padd B (pscale (psub A B) u) /\ sprod (psub C F) (psub A B) = 0 /\
       expand_skinny_tris t = [(B, C, X); (X, C, A)] /\ grid_point X /\ next_to X F /\
       Qcabs.Qcabs (area2 (B, C, X) + area2 (X, C, A) - area2 t) <= Q2Qc (1 # 2) * (Qcabs.Qcabs (fst A - fst B) + Qcabs.Qcabs (snd A - snd B)) /\
       (along_axis A B -> X = F /\ tiles (expand_skinny_tris t) t)) /\
  (~ stretched t 0 -> ~ stretched t 1 -> ~ stretched t 2 -> expand_skinny_tris t = [t]).
Proof.
  intros t In. split; [apply not_obtuse_unsplit|]. split.
  - intros N i Li L. apply stretched_long in L. split; [apply long_side_obtuse; [lia|exact L]|]. apply split_first_two; auto.
    intros j Lj. destruct (long_side t j) eqn:Q; [|reflexivity]. assert (i = j) by (apply (@long_side_unique t); auto; lia). lia.
  - rewrite <- !stretched_long. intros L0 L1 L2. unfold expand_skinny_tris, is_skinny_tri. apply not_true_is_false in L0, L1, L2. rewrite L0, L1, L2. reflexivity.
Qed.
Print Assumptions C08_triangle_split_partial.
Example C08_nontrivial : let t := ((0, 0), (Q2Qc 10, 0), (Q2Qc 5, 1)) : qpt * qpt * qpt in
  integral t /\ area2 t <> 0 /\ stretched t 0 /\ along_axis (corner t 0) (corner t 1).
Proof. split; [intros [|[|k]]; cbn; [exists 0%Z, 0%Z|exists 10%Z, 0%Z|exists 5%Z, 1%Z]; reflexivity|]. split; [qcneq|]. split; [vm_compute; reflexivity|right; reflexivity]. Qed.
Theorem C08_third_side_refuted : exists t, integral t /\ area2 t <> 0 /\ obtuse t 1 /\ stretched t 2 /\ along_axis (corner t 2) (corner t 0) /\
  ~ tiles (expand_skinny_tris t) t.
Proof.
  exists bad_tri. destruct bad_tri_not_tiled as (A & B & C & D). apply stretched_long in B. split; [|split; [exact A|]; split; [exact C|]; split; [exact B|]; split; [right; reflexivity|exact D]].
  intros [|[|k]]; cbn; [exists 0%Z, 0%Z|exists 5%Z, 1%Z|exists 10%Z, 0%Z]; reflexivity.
Qed.
Print Assumptions C08_third_side_refuted.
(** On a slanted side the rounded point is not on the side. *)
Theorem C08_slanted_refuted : exists t, integral t /\ area2 t <> 0 /\ stretched t 0 /\ ~ tiles (expand_skinny_tris t) t.
Proof.
  exists slanted_tri. split; [|exact slanted_tri_gap].
  intros [|[|k]]; cbn; [exists 0%Z, 0%Z|exists 10%Z, 3%Z|exists 5%Z, 3%Z]; reflexivity.
Qed.
Print Assumptions C08_slanted_refuted.

(** ** C09 *)
(** The results are fresh objects (all existing objects keep their value), parallel
    adds, serial is the harmonic sum above the threshold and 0 below it. *)
Theorem C09_conductance_laws : forall h a b c,
  (a < List.length h)%nat -> (b < List.length h)%nat -> (c < List.length h)%nat ->
  let val := hget h in
  (* parallel *)
  (exists h1 r, c_parallel h a b = (h1, r) /\ hget h1 r = val a + val b /\
     (forall x, (x < List.length h)%nat -> hget h1 x = val x)) /\
  (forall h1 r h2 r', c_parallel h a b = (h1, r) -> c_parallel h b a = (h2, r') -> hget h1 r = hget h2 r') /\
  (forall h1 r h2 r2 h3 r3 h4 r4, c_parallel h a b = (h1, r) -> c_parallel h1 r c = (h2, r2) ->
     c_parallel h b c = (h3, r3) -> c_parallel h3 a r3 = (h4, r4) -> hget h2 r2 = hget h4 r4) /\
  (val b = 0 -> forall h1 r, c_parallel h a b = (h1, r) -> hget h1 r = val a) /\
  (* serial *)
  (forall h1 r, c_serial h a b = Some (h1, r) ->
     (forall x, (x < List.length h)%nat -> hget h1 x = val x) /\
     (Qcabs' (val a) < Q2Qc (1 # 10000000000) \/ Qcabs' (val b) < Q2Qc (1 # 10000000000) -> hget h1 r = 0) /\
     (Q2Qc (1 # 10000000000) <= Qcabs' (val a) -> Q2Qc (1 # 10000000000) <= Qcabs' (val b) ->
        val a + val b <> 0 /\ hget h1 r = val a * val b / (val a + val b))) /\
  (c_serial h a b = None <-> Q2Qc (1 # 10000000000) <= Qcabs' (val a) /\
     Q2Qc (1 # 10000000000) <= Qcabs' (val b) /\ val a + val b = 0) /\
  (forall h1 r h2 r', c_serial h a b = Some (h1, r) -> c_serial h b a = Some (h2, r') -> hget h1 r = hget h2 r') /\
  (forall h1 r h2 r2 h3 r3 h4 r4,
     (forall x, In x [a; b; c] -> Q2Qc (1 # 10000000000) <= Qcabs' (val x)) ->
     c_serial h a b = Some (h1, r) -> c_serial h b c = Some (h3, r3) ->
     Q2Qc (1 # 10000000000) <= Qcabs' (hget h1 r) -> Q2Qc (1 # 10000000000) <= Qcabs' (hget h3 r3) ->
     c_serial h1 r c = Some (h2, r2) -> c_serial h3 a r3 = Some (h4, r4) -> hget h2 r2 = hget h4 r4).
Proof.
  intros h a b c A B C val.
  assert (SE : forall x y h1 r, (x < List.length h)%nat -> (y < List.length h)%nat ->
     c_serial h x y = Some (h1, r) ->
     exists g, ser (val x) (val y) = Some g /\ h1 = h ++ [g] /\ r = List.length h).
  { intros x y h1 r X Y. rewrite c_serial_spec by auto. fold val. destruct (ser (val x) (val y)) as [g|]; [|discriminate].
    intros [= <- <-]. exists g; auto. }
  assert (Len : forall g, List.length (h ++ [g]) = S (List.length h)) by (intros; rewrite app_length; cbn; lia).
  split; [|split; [|split; [|split; [|split; [|split; [|split]]]]]].
  - destruct (c_parallel h a b) as [h1 r] eqn:E. exists h1, r. split; [reflexivity|].
    apply c_parallel_spec in E; auto. destruct E as [-> ->]. rewrite hget_app_last. split; [reflexivity|].
    intros x X. rewrite hget_app by exact X. reflexivity.
  - intros h1 r h2 r' E1 E2. apply c_parallel_spec in E1; auto. apply c_parallel_spec in E2; auto.
    destruct E1 as [-> ->], E2 as [-> ->]. rewrite !hget_app_last. ring.
  - intros h1 r h2 r2 h3 r3 h4 r4 E1 E2 E3 E4. apply c_parallel_spec in E1; auto. apply c_parallel_spec in E3; auto.
    destruct E1 as [-> ->], E3 as [-> ->].
    apply c_parallel_spec in E2; [|rewrite Len; lia|rewrite Len; lia].
    apply c_parallel_spec in E4; [|rewrite Len; lia|rewrite Len; lia].
    destruct E2 as [-> ->], E4 as [-> ->]. rewrite !hget_app_last, !hget_app by auto. ring.
  - intros Z h1 r E. apply c_parallel_spec in E; auto. destruct E as [-> ->]. rewrite hget_app_last.
    fold (val a) (val b). rewrite Z. ring.
  - intros h1 r E. destruct (SE _ _ _ _ A B E) as (g & G & -> & ->). split; [|split].
    + intros x X. rewrite hget_app by exact X. reflexivity.
    + intros D. rewrite hget_app_last. rewrite ser_open in G; [congruence|]. rewrite !c_small_spec. exact D.
    + intros X Y. apply c_small_not in X, Y. rewrite hget_app_last.
      destruct (Qc_eq_dec (val a + val b) 0) as [Z|Z]; [rewrite (ser_opposite X Y Z) in G; discriminate|].
      split; [exact Z|]. rewrite (ser_phys X Y Z) in G. congruence.
  - rewrite c_serial_spec by auto. fold (val a) (val b). rewrite <- !c_small_not. split.
    + intros E. destruct (ser (val a) (val b)) eqn:G; [discriminate|].
      destruct (c_small (val a)) eqn:X; [rewrite ser_open in G by auto; discriminate|].
      destruct (c_small (val b)) eqn:Y; [rewrite ser_open in G by auto; discriminate|].
      split; [reflexivity|]. split; [reflexivity|].
      destruct (Qc_eq_dec (val a + val b) 0) as [Z|Z]; [exact Z|]. rewrite (ser_phys X Y Z) in G. discriminate.
    + intros (X & Y & Z). rewrite (ser_opposite X Y Z). reflexivity.
  - intros h1 r h2 r' E1 E2. destruct (SE _ _ _ _ A B E1) as (g & G & -> & ->).
    destruct (SE _ _ _ _ B A E2) as (g' & G' & -> & ->). rewrite !hget_app_last.
    rewrite ser_comm in G. congruence.
  - intros h1 r h2 r2 h3 r3 h4 r4 Big E1 E3 B1 B3 E2 E4.
    destruct (SE _ _ _ _ A B E1) as (g & G & -> & ->). destruct (SE _ _ _ _ B C E3) as (g' & G' & -> & ->).
    rewrite hget_app_last in B1, B3. rewrite c_serial_spec in E2 by (rewrite Len; lia).
    rewrite c_serial_spec in E4 by (rewrite Len; lia). rewrite hget_app_last, hget_app in E2, E4 by auto.
    fold (val a) (val c) in E2, E4.
    assert (Q : ser g (val c) = ser (val a) g').
    { apply (@ser_assoc (val a) (val b) (val c)); auto; apply c_small_not; auto; apply Big; cbn; auto. }
    rewrite Q in E2. destruct (ser (val a) g') as [z|]; [|discriminate].
    injection E2 as <- <-. injection E4 as <- <-.
    rewrite !hget_app_last. reflexivity.
Qed.
Print Assumptions C09_conductance_laws.
Example C09_nontrivial : match c_serial [1; 1; Q2Qc 2] 0%nat 1%nat with
  | Some (h1, r) => qeqb (hget h1 r) (Q2Qc (1 # 2)) | None => false end = true.
Proof. vm_compute; reflexivity. Qed.
