(** C33, C34, C35, C37: combined dielectric surfaces, FasterCap files and z rounding. *)
From Coq Require Import String Permutation Lqa QArith.Qround.
From Verif Require Import PyBase QcLra PyLib PyStr NX_Model NX_Proofs SW_Model FG_Model FG_Spec FG_Proofs.
Local Open Scope string_scope.
Local Open Scope list_scope.

(** ** C33 *)
(** finalize never raises KeyError, and keeps every triangle once, one orientation per pair *)
Theorem C33_combine {pt} (d : dict hkey (list (@tri pt))) : NoDup (dkeys d) ->
  exists r, combine_diel d = Some r /\ combined d r.
Proof. exact (combine_ok d). Qed.
(** the boundary of every material is the same set of triangles before and after *)
Theorem C33_boundary {pt} (d r : dict hkey (list (@tri pt))) cond m : NoDup (dkeys d) ->
  (forall a b, In (a, b) (dkeys d) -> a <> b) -> combine_diel d = Some r ->
  Permutation (collect_diel r cond m) (collect_diel d cond m).
Proof.
  intros W Hd H. unfold collect_diel. apply Permutation_app_tail. apply (combine_side m d r W); [|exact H].
  intros [a b] Hk E. injection E as E _. now apply (Hd a b Hk).
Qed.
Print Assumptions C33_combine.
Print Assumptions C33_boundary.

Definition ex_diel : dict hkey (list (@tri nat)) :=
  [((None, Some "ox"), [(1, 2, 3)]); ((Some "ox", Some "nit"), [(4, 5, 6); (7, 8, 9)]);
   ((Some "ox", None), [(10, 11, 12)]); ((Some "nit", None), [])]%nat.
Example C33_example : NoDup (dkeys ex_diel) /\ (forall a b, In (a, b) (dkeys ex_diel) -> a <> b) /\
  combine_diel ex_diel = Some [((None, Some "ox"), [(1, 2, 3); (12, 11, 10)]);
                               ((Some "ox", Some "nit"), [(4, 5, 6); (7, 8, 9)]); ((Some "nit", None), [])]%nat.
Proof.
  split; [repeat constructor; cbn; intuition discriminate|]. split; [|vm_compute; reflexivity].
  cbn. intros a b H. repeat (destruct H as [H|H]; [injection H as <- <-; discriminate|]). destruct H.
Qed.

(** ** C34, C35 *)
Section Files.
Context {pt : Type}.
Notation tri := (@tri pt).
Variables (prefix : string) (k_void : Qc) (materials : dict string Qc) (max_len : option nat) (hash : string -> string).
Variables (diel : dict hkey (list tri)) (cond : dict (string * option string) (list tri)).
Notation W := (@write_fastcap pt prefix k_void materials max_len hash diel cond).

Lemma write_split out : W = Some out -> exists ds cs, out = ds ++ cs /\
  Forall2 (diel_file k_void materials) ds (filter has_tris diel) /\
  Forall2 (cond_file k_void materials) cs (flat (group cond)) /\
  (forall i e, nth_error out i = Some e -> numbered prefix (S i) (fst e)) /\
  (forall i e, nth_error ds i = Some e -> g_num (fst e) = S i) /\
  (forall e, In e cs -> (List.length ds < g_num (fst e))%nat) /\
  (forall e e', In e cs -> In e' cs -> (g_num (fst e) = g_num (fst e') <-> g_cond (fst e) = g_cond (fst e'))) /\
  plus_ok cs.
Proof.
  unfold write_fastcap. destruct (write_diel prefix k_void materials 0 diel) as [ds|] eqn:E1; [|discriminate].
  destruct (write_nets prefix k_void materials max_len hash (List.length ds) (List.length ds) (group cond)) as [cs|] eqn:E2; [|discriminate].
  intros [= <-]. exists ds, cs. split; [reflexivity|].
  apply write_diel_spec in E1. destruct E1 as [F1 G1]. destruct (group_spec cond) as (W1 & W2 & W3).
  apply write_nets_spec in E2; [|exact W1|exact W2]. destruct E2 as (F2 & G2 & N2 & P2).
  split; [exact F1|]. split; [exact F2|]. split; [|split; [|split; [|split; [exact N2|exact P2]]]].
  - intros i e Hi. destruct (Nat.ltb_spec i (List.length ds)).
    + rewrite nth_error_app1 in Hi by assumption. now apply G1 in Hi.
    + rewrite nth_error_app2 in Hi by assumption. apply G2 in Hi. destruct Hi as [A _].
      now replace (S i) with (S (List.length ds + (i - List.length ds))) by lia.
  - intros i e Hi. now apply G1 in Hi.
  - intros e He. apply In_nth_error in He. destruct He as [i Hi]. now apply G2 in Hi.
Qed.

(** every non-empty surface is in exactly one file with the right permittivities: first the
    dielectric interfaces in order, then the conductor surfaces *)
Theorem C34_every_surface_once out : W = Some out ->
  exists ds cs surfaces, out = ds ++ cs /\
    Forall2 (diel_file k_void materials) ds (filter has_tris diel) /\
    Forall2 (cond_file k_void materials) cs surfaces /\ Permutation surfaces (filter has_tris cond).
Proof.
  intros H. apply write_split in H. destruct H as (ds & cs & -> & F1 & F2 & _).
  exists ds, cs, (flat (group cond)). repeat split; auto. now apply group_spec.
Qed.
(** files are numbered 1, 2, 3, ... in the order of the list file *)
Theorem C34_file_numbers out i e : W = Some out -> nth_error out i = Some e ->
  exists rest, g_name (fst e) = (prefix ++ nat_str (i + 1) ++ "_" ++ rest)%string.
Proof.
  intros H Hi. apply write_split in H. destruct H as (ds & cs & -> & _ & _ & H & _).
  rewrite Nat.add_1_r. exact (H i e Hi).
Qed.
(** two files carry the same conductor number exactly when they belong to the same net *)
Theorem C34_conductor_numbers out i j e e' : W = Some out -> nth_error out i = Some e -> nth_error out j = Some e' -> i <> j ->
  (g_num (fst e) = g_num (fst e') <-> g_cond (fst e) <> None /\ g_cond (fst e) = g_cond (fst e')).
Proof.
  intros H Hi Hj Hij. apply write_split in H. destruct H as (ds & cs & -> & F1 & F2 & _ & N1 & N2 & N3 & _).
  assert (D : forall k x, nth_error ds k = Some x -> g_cond (fst x) = None).
  { intros k x Hk. apply nth_error_In in Hk. clear - F1 Hk. induction F1 as [|a s l m (A & B & C) F IH]; destruct Hk; [now subst|auto]. }
  assert (C : forall x, In x cs -> g_cond (fst x) <> None).
  { intros x Hk. clear - F2 Hk. induction F2 as [|a s l m (A & B & C) F IH]; destruct Hk; [subst; congruence|auto]. }
  destruct (Nat.ltb_spec i (List.length ds)) as [Li|Li], (Nat.ltb_spec j (List.length ds)) as [Lj|Lj].
  - rewrite nth_error_app1 in Hi, Hj by assumption. rewrite (N1 _ _ Hi), (N1 _ _ Hj), (D _ _ Hi). split; [lia|tauto].
  - rewrite nth_error_app1 in Hi by assumption. rewrite nth_error_app2 in Hj by assumption.
    apply nth_error_In in Hj. specialize (N2 _ Hj). rewrite (N1 _ _ Hi), (D _ _ Hi). split; [lia|tauto].
  - rewrite nth_error_app2 in Hi by assumption. rewrite nth_error_app1 in Hj by assumption.
    apply nth_error_In in Hi. specialize (N2 _ Hi). specialize (C _ Hi). rewrite (N1 _ _ Hj), (D _ _ Hj). split; [lia|tauto].
  - rewrite nth_error_app2 in Hi, Hj by assumption. apply nth_error_In in Hi, Hj. rewrite (N3 _ _ Hi Hj). specialize (C _ Hi). tauto.
Qed.
(** '+' on every entry of a net but the last, which alone renames the conductor *)
Theorem C34_collation out l1 e l2 net : W = Some out -> out = l1 ++ e :: l2 -> g_cond (fst e) = Some net ->
  (plus_of e = true -> g_rename (fst e) = false /\ exists e' l3, l2 = e' :: l3 /\ g_cond (fst e') = Some net) /\
  (plus_of e = false -> g_rename (fst e) = true /\ forall e', In e' l2 -> g_cond (fst e') <> Some net).
Proof.
  intros H E Hc. apply write_split in H. destruct H as (ds & cs & Eo & F1 & _ & _ & _ & _ & _ & P).
  assert (X : exists l0, cs = l0 ++ e :: l2).
  { rewrite E in Eo. clear - Eo F1 Hc. revert l1 Eo. induction F1 as [|a s l m (A & B & C) F IH]; intros l1 Eo.
    - exists l1. symmetry. exact Eo.
    - destruct l1 as [|x l1]; injection Eo as <- Eo; [congruence|]. now apply (IH l1). }
  destruct X as [l0 X]. destruct (P _ _ _ X) as (R & P1 & P2). rewrite Hc in P1, P2. split; intros Hp; rewrite R, Hp; auto.
Qed.
(** the writer succeeds when all materials are declared *)
Theorem C34_no_key_error :
  (forall a b l, In ((a, b), l) diel -> (forall m, a = Some m \/ b = Some m -> In m (dkeys materials))) ->
  (forall n a l, In ((n, Some a), l) cond -> In a (dkeys materials)) -> exists out, W = Some out.
Proof.
  assert (K : forall o, (forall m, o = Some m -> In m (dkeys materials)) -> exists k, k_of k_void materials o = Some k).
  { intros [[|c s]|] H; cbn; [eauto| |eauto]. apply dkeys_dget, H. reflexivity. }
  intros HD HC. unfold write_fastcap.
  assert (A : forall d n, (forall a b l, In ((a, b), l) d -> (forall m, a = Some m \/ b = Some m -> In m (dkeys materials))) ->
     exists l, @write_diel pt prefix k_void materials n d = Some l).
  { induction d as [|[[a b] l] d IH]; intros n H; cbn [write_diel]; [eauto|].
    destruct l as [|t l]; [apply IH; intros; eapply H; [right|]; eauto|]. cbn [nonempty fst snd].
    destruct (K a) as [ka ->]; [intros m Hm; eapply H; [now left|now left]|].
    destruct (K b) as [kb ->]; [intros m Hm; eapply H; [now left|now right]|].
    destruct (IH (S n)) as [r ->]; [intros; eapply H; [right|]; eauto|]. eauto. }
  destruct (A diel 0%nat HD) as [ds ->].
  assert (B : forall nn cn l n, (forall a d, In (Some a, d) l -> In a (dkeys materials)) ->
     exists r, @write_net pt prefix k_void materials max_len hash nn cn n l = Some r).
  { intros nn cn. induction l as [|[o d] l IH]; intros n H; cbn [write_net]; [eauto|].
    destruct (K o) as [ko ->]; [intros m ->; eapply H; now left|].
    destruct (IH (S n)) as [r ->]; [intros; eapply H; right; eauto|]. eauto. }
  assert (C : forall g cn n, (forall nn l a d, In (nn, l) g -> In (Some a, d) l -> In a (dkeys materials)) ->
     exists r, @write_nets pt prefix k_void materials max_len hash cn n g = Some r).
  { induction g as [|[nn l] g IH]; intros cn n H; cbn [write_nets]; [eauto|].
    destruct (B nn (S cn) l n) as [r ->]; [intros; eapply H; [now left|eauto]|].
    destruct (IH (S cn) (n + List.length l)%nat) as [r2 ->]; [intros; eapply H; [right; eauto|eauto]|]. eauto. }
  destruct (C (group cond) (List.length ds) (List.length ds)) as [r ->]; [|eauto].
  intros nn l a d Hn Hd. destruct (group_spec cond) as (_ & _ & P).
  assert (X : In ((nn, Some a), d) (flat (group cond))).
  { unfold flat. apply in_flat_map. exists (nn, l). split; [exact Hn|]. apply in_map_iff. exists (Some a, d). auto. }
  apply (Permutation_in _ P) in X. apply filter_In in X. destruct X as [X _]. eapply HC, X.
Qed.

(** C35: no two files have the same name, whatever the shortening and hash *)
Theorem C35_distinct_names out : W = Some out -> NoDup (map (fun e => g_name (fst e)) out).
Proof.
  intros H. apply write_split in H. destruct H as (ds & cs & Eo & _ & _ & N & _). clear Eo.
  apply (NoDup_nth_error _). intros i j Hi E. rewrite map_length in Hi. rewrite !nth_error_map in E.
  destruct (nth_error out i) as [x|] eqn:Ex; [|apply nth_error_None in Ex; lia].
  destruct (nth_error out j) as [y|] eqn:Ey; [|discriminate]. cbn in E. injection E as E.
  assert (X := @numbered_inj pt prefix _ _ _ _ (N _ _ Ex) (N _ _ Ey) E). lia.
Qed.
End Files.
Print Assumptions C34_every_surface_once.
Print Assumptions C34_file_numbers.
Print Assumptions C34_conductor_numbers.
Print Assumptions C34_collation.
Print Assumptions C34_no_key_error.
Print Assumptions C35_distinct_names.

(** names fit the limit when prefix, number, material and hash leave room *)
Lemma slen_app a b : String.length (a ++ b)%string = (String.length a + String.length b)%nat.
Proof. induction a; cbn; congruence. Qed.
Lemma take_len n s : (String.length (take n s) <= n)%nat.
Proof. revert s. induction n; intros [|c s]; cbn; try lia. specialize (IHn s). lia. Qed.
Theorem C35_fits (prefix outside net : string) (hash : string -> string) n limit :
  (String.length (prefix ++ "_" ++ nat_str n ++ "_outside=" ++ outside ++ "_net=.geo") + String.length (hash net) + 1 <= limit)%nat ->
  (String.length (cond_name prefix (Some limit) hash n outside net) <= limit)%nat.
Proof.
  intros H. unfold cond_name. match goal with |- context [Nat.ltb ?a ?b] => destruct (Nat.ltb_spec a b) end; [|assumption].
  match goal with |- context [slice_to net ?z] => set (e := z) end.
  assert (E : (String.length (slice_to net e) <= Z.to_nat e)%nat).
  { unfold slice_to. destruct (Z.ltb_spec e 0); [exfalso; unfold e in *; lia|]. apply take_len. }
  set (sl := String.length (slice_to net e)) in *. assert (Es : sl = String.length (slice_to net e)) by reflexivity. clearbody sl.
  rewrite !slen_app in *. rewrite <- Es. clear Es. unfold e in E. rewrite !slen_app in E. cbn [String.length] in *. lia.
Qed.
(** without that room the "shortened" name can still be too long *)
Theorem C35_no_room_refuted : exists prefix outside net hash n limit,
  (forall s, String.length (hash s) = 22%nat) /\ (limit < String.length (cond_name prefix (Some limit) hash n outside net))%nat.
Proof.
  exists "cell_", "ox", "net_with_a_very_long_name_indeed", (fun _ => "abcdefghijklmnopqrstuv"), 3%nat, 40%nat.
  split; [reflexivity|]. apply Nat.ltb_lt. vm_compute. reflexivity.
Qed.
Print Assumptions C35_fits.
Print Assumptions C35_no_room_refuted.

Definition ex_mats : dict string Qc := [("ox", Q2Qc (39 # 10)); ("nit", Q2Qc (7 # 1))].
Definition ex_cond : dict (string * option string) (list (@tri nat)) :=
  [(("VDD", Some "ox"), [(1, 2, 3)]); (("GND", Some "ox"), [(4, 5, 6)]); (("VDD", None), []); (("VDD", Some "nit"), [(7, 8, 9)]);
   (("GND", None), [(3, 2, 1)])]%nat.
Definition ex_out := write_fastcap "c_" 1%Qc ex_mats (Some 34%nat) (fun n => n) ex_diel ex_cond.
Example C34_example :
  match ex_out with
  | Some out => map (fun e => (g_name (fst e), g_num (fst e), g_cond (fst e), g_rename (fst e), plus_of e)) out
  | None => []
  end =
  [("c_1_outside=(void)_inside=ox.geo", 1, None, false, false);
   ("c_2_outside=ox_inside=nit.geo", 2, None, false, false);
   ("c_3_outside=ox_inside=(void).geo", 3, None, false, false);
   ("c_4_outside=ox_net=VDD.geo", 4, Some "VDD", false, true);
   ("c_5_outside=nit_net=VDD.geo", 4, Some "VDD", true, false);
   ("c_6_outside=ox_net=GND.geo", 5, Some "GND", false, true);
   ("c_7_outside=(void)_net=GND.geo", 5, Some "GND", true, false)]%nat.
Proof. vm_compute. reflexivity. Qed.
Example C35_example :
  let net := "a_rather_long_net_name_that_does_not_fit" in
  (String.length ("c_" ++ "_" ++ nat_str 7 ++ "_outside=" ++ "ox" ++ "_net=.geo") + String.length "HASH" + 1 <= 40)%nat /\
  cond_name "c_" (Some 40%nat) (fun _ => "HASH") 7 "ox" net = "c_7_outside=ox_net=a_rather_lo_HASH.geo".
Proof. cbn zeta. split; [apply Nat.leb_le|]; vm_compute; reflexivity. Qed.

(** ** C37 *)
Local Open Scope Qc_scope.
Definition one_millionth : Qc := Q2Qc (1 # 1000000).
Definition units (n : Z) : Qc := Q2Qc (inject_Z n).

Lemma Qfloor_iff (q : Q) (n : Z) : Qfloor q = n <-> (inject_Z n <= q)%Q /\ (q < inject_Z (n + 1))%Q.
Proof.
  split.
  - intros <-. split; [apply Qfloor_le|apply Qlt_floor].
  - intros [A B]. apply Z.le_antisymm.
    + apply Zlt_succ_le. rewrite Zlt_Qlt. eapply Qle_lt_trans; [apply Qfloor_le|exact B].
    + rewrite <- (Qfloor_Z n). now apply Qfloor_resp_le.
Qed.
Lemma units_this n : (this (units n) == inject_Z n)%Q.
Proof. unfold units. apply Qred_correct. Qed.
Lemma floor_units (x : Qc) (n : Z) : Qfloor (this x) = n <-> units n <= x /\ x < units n + 1.
Proof.
  rewrite Qfloor_iff. unfold Qcle, Qclt. cbn [this Qcplus Q2Qc]. rewrite !Qred_correct, units_this, inject_Z_plus.
  change (this 1%Qc) with 1%Q. tauto.
Qed.
Lemma pos_ne c : 0 < c -> c <> 0.
Proof. intros H E. rewrite E in H. exact (Qclt_not_eq _ _ H eq_refl). Qed.
Lemma div_le a b c : 0 < c -> (a <= b / c <-> a * c <= b).
Proof.
  intros H. assert (c <> 0) by now apply pos_ne.
  assert (E : b = (b / c) * c) by (field; assumption). split; intros G.
  - rewrite E. apply Qcmult_le_compat_r; [exact G|now apply Qclt_le_weak].
  - apply (Qcmult_lt_0_le_reg_r _ _ c H). now rewrite <- E.
Qed.
Lemma div_lt a b c : 0 < c -> (b / c < a <-> b < a * c).
Proof.
  intros H. split; intros G; apply Qcnot_le_lt; intros C; [apply (proj2 (div_le a b c H)) in C|apply (proj1 (div_le a b c H)) in C];
  revert C; now apply Qclt_not_le.
Qed.

(** rounding to unit n happens exactly on [n - 1e-6, n + 1 - 1e-6) units: never up by more than
    1e-6 units, never down by a unit or more *)
Theorem C37_interval (dbu z : Qc) (n : Z) : 0 < dbu ->
  (z2norm dbu z = n <-> (units n - one_millionth) * dbu <= z /\ z < (units n + 1 - one_millionth) * dbu).
Proof.
  intros H. unfold z2norm. rewrite floor_units, <- (div_le _ _ _ H), <- (div_lt _ _ _ H).
  unfold one_millionth. split; intros [A B]; split; revert A B; set (q := z / dbu); set (u := units n); clearbody q u; intros; qclra.
Qed.
Theorem C37_monotone (dbu z z' : Qc) : 0 < dbu -> z <= z' -> (z2norm dbu z <= z2norm dbu z')%Z.
Proof.
  intros H L. unfold z2norm. apply Qfloor_resp_le. change (z / dbu + Q2Qc (1 # 1000000) <= z' / dbu + Q2Qc (1 # 1000000)).
  assert (A : z / dbu <= z' / dbu). { apply (div_le _ _ _ H). assert (E : z / dbu * dbu = z) by (field; now apply pos_ne). now rewrite E. }
  revert A. set (q := z / dbu). set (q' := z' / dbu). clearbody q q'. intros. qclra.
Qed.
Theorem C37_multiples (dbu : Qc) (n : Z) : 0 < dbu -> z2norm dbu (units n * dbu) = n.
Proof.
  intros H. apply (C37_interval dbu _ n H). split.
  - apply Qcmult_le_compat_r; [|now apply Qclt_le_weak]. unfold one_millionth. set (u := units n). clearbody u. qclra.
  - apply Qcmult_lt_compat_r; [exact H|]. unfold one_millionth. set (u := units n). clearbody u. qclra.
Qed.
(** a layer of at least one unit keeps a positive thickness; one between two grid planes vanishes *)
Theorem C37_thick_stays (dbu z h : Qc) : 0 < dbu -> dbu <= h -> (z2norm dbu z < z2norm dbu (z + h))%Z.
Proof.
  intros H L. pose proof (proj1 (C37_interval dbu z _ H) eq_refl) as [A _].
  assert (X : (z2norm dbu z + 1 <= z2norm dbu (z + h))%Z); [|lia].
  assert (U : units (z2norm dbu z + 1) = units (z2norm dbu z) + 1).
  { apply Qc_is_canon. unfold Qcplus. rewrite units_this. cbn [this Q2Qc]. rewrite Qred_correct, units_this, inject_Z_plus. reflexivity. }
  etransitivity; [|apply (C37_monotone dbu ((units (z2norm dbu z) + 1 - one_millionth) * dbu) (z + h) H)].
  - apply Z.eq_le_incl. symmetry. apply (C37_interval dbu _ _ H). rewrite U. split; [apply Qcle_refl|].
    apply Qcmult_lt_compat_r; [exact H|]. unfold one_millionth. set (u := units _). clearbody u. qclra.
  - revert A L. set (u := units _). clearbody u. intros.
    replace ((u + 1 - one_millionth) * dbu) with ((u - one_millionth) * dbu + dbu) by ring.
    set (v := (u - one_millionth) * dbu) in *. clearbody v. qclra.
Qed.
Theorem C37_thin_vanishes (dbu z h : Qc) (n : Z) : 0 < dbu -> 0 <= h ->
  (units n - one_millionth) * dbu <= z -> z + h < (units n + 1 - one_millionth) * dbu -> z2norm dbu z = z2norm dbu (z + h).
Proof.
  intros H Hh A B. transitivity n; [|symmetry]; apply (C37_interval dbu _ n H); split; auto.
  - set (v := (units n + 1 - one_millionth) * dbu) in *. clearbody v. qclra.
  - set (v := (units n - one_millionth) * dbu) in *. clearbody v. qclra.
Qed.
Print Assumptions C37_interval.
Print Assumptions C37_monotone.
Print Assumptions C37_multiples.
Print Assumptions C37_thick_stays.
Print Assumptions C37_thin_vanishes.
Example C37_example : z2norm (Q2Qc (1 # 200)) (Q2Qc (3 # 10)) = 60%Z /\ z2norm (Q2Qc (1 # 200)) (Q2Qc (3 # 10) + Q2Qc (4 # 1000)) = 60%Z /\
  z2norm (Q2Qc (1 # 200)) (Q2Qc (2999999996 # 10000000000)) = 60%Z /\ z2norm (Q2Qc (1 # 200)) (Q2Qc (29 # 100)) = 58%Z.
Proof. vm_compute. auto. Qed.
