(** C85: the tables of extracted parasitics (CSV files). *)
From Coq Require Import String Ascii Permutation Lia.
From Verif Require Import PyBase PyLib QcLra PyStr PyNum ER_Model ER_Spec NX_Model NX_Spec NX_Proofs CM_Model CM_Props FX_Model FX_Spec FX_Proofs FX_Props CS_Model CS_Spec CS_Proofs.
Local Open Scope string_scope.
Local Open Scope list_scope.

(** ** the table of the 2.5D engine *)
(** Read back, the table has one row for every capacitance and one for every resistance of the summary, in order, with
    different device names; and row C<i> (R<i>) is the capacitor (resistor) ext_<i> of the SPICE netlist written beside it. *)
Theorem C85_table : forall r sm, summarize r = Some sm ->
  (forall s, In s (names_of (capacitances sm ++ resistances sm)) -> clean s) ->
  exists text capl resl caprows resrows,
    write_csv25 r = (text, true) /\
    Permutation capl (capacitances sm) /\ in_order capl /\ Permutation resl (resistances sm) /\ in_order resl /\
    csv_rows text = header_row :: caprows ++ resrows /\
    numbered cap_row capl caprows /\ numbered res_row resl resrows /\
    NoDup (map (hd "") (caprows ++ resrows)) /\
    forall nl top bb nl', expand nl top r bb = Some nl' ->
      exists pre c' post kept caps ress, circuits nl' = pre ++ c' :: post /\ c_name c' = top /\
        c_devices c' = kept ++ caps ++ ress /\
        numbered_devices c' CCapacitor "C" capl caps /\ numbered_devices c' CResistor "R" resl ress.
Proof.
  intros r sm S C. set (capl := py_sorted item_lt (capacitances sm)). set (resl := py_sorted item_lt (resistances sm)).
  assert (Pc : Permutation capl (capacitances sm)) by (symmetry; apply py_sorted_perm).
  assert (Pr : Permutation resl (resistances sm)) by (symmetry; apply py_sorted_perm).
  assert (Cc : clean_items capl).
  { intros s J. apply C. unfold names_of in *. rewrite flat_map_app. apply in_app_iff. left. apply (names_of_perm s Pc). exact J. }
  assert (Cr : clean_items resl).
  { intros s J. apply C. unfold names_of in *. rewrite flat_map_app. apply in_app_iff. right. apply (names_of_perm s Pr). exact J. }
  destruct (res_lines_rows "" resl 0 Cr) as (resrows & Er & Fr). rewrite str_app_nil in Er.
  destruct (cap_lines_rows (res_lines 0 resl) capl 0 Cc) as (caprows & Ec & Fc). rewrite Er in Ec. cbn [csv_rows] in Ec.
  exists (header25 ++ cap_lines 0 capl ++ res_lines 0 resl)%string, capl, resl, caprows, resrows.
  split; [unfold write_csv25; rewrite S; reflexivity|]. split; [exact Pc|]. split; [apply sorted_in_order|].
  split; [exact Pr|]. split; [apply sorted_in_order|]. split.
  { replace (header25 ++ cap_lines 0 capl ++ res_lines 0 resl)%string
      with (join semicolon header_row ++ String PyStr.nl (cap_lines 0 capl ++ res_lines 0 resl))%string by reflexivity.
    rewrite csv_rows_cons; [|discriminate|repeat constructor]. rewrite Ec. unfold csv_rows at 1. cbn. rewrite app_nil_r. reflexivity. }
  split; [exact Fc|]. split; [exact Fr|]. split.
  { rewrite map_app. rewrite (first_fields "C" cap_row) with (l := capl) (idx := O); [|intros i e row (t & -> & _); reflexivity|exact Fc].
    rewrite (first_fields "R" res_row) with (l := resl) (idx := O); [|intros i e row (t & -> & _); reflexivity|exact Fr].
    apply distinct_names. discriminate. }
  intros nl top bb nl' E. unfold expand in E. rewrite S in E.
  destruct (on_circuit (fun c => expand_circuit c sm bb) top (circuits nl)) as [cs|] eqn:O; [|discriminate]. injection E as <-.
  assert (F : forall c, exists c', expand_circuit c sm bb = Some c').
  { intros c. destruct (expand_circuit_items c sm bb) as (c' & E & _). eauto. }
  destruct (in_dec string_dec top (map c_name (circuits nl))) as [J|J]; [|rewrite on_circuit_none in O by exact J; discriminate].
  destruct (on_circuit_ok _ top _ F J) as (pre & c & post & c' & E1 & E2 & E3 & E4 & E5). rewrite E5 in O. injection O as <-.
  destruct (expand_circuit_items c sm bb) as (c'' & Ex & X & kept & caps & ress & D & F1 & N1 & F2 & N2).
  assert (c'' = c') by congruence. subst c''.
  exists pre, c', post, kept, caps, ress. split; [reflexivity|]. split; [rewrite (x_name X); exact E2|]. split; [exact D|].
  split; split; assumption.
Qed.
Print Assumptions C85_table.

Definition cs_ops : list add_op :=
  [AddSidewall (SidewallCap ("m1", "b", "A") (Q2Qc (12345 # 10000)) 0 0); AddOverlap (OverlapCap ("m2", "VSUBS", "m1", "A") (Q2Qc 2) 0 0)].
Definition cs_cell : cell_results := with_networks (add_caps cs_ops) [RNetwork [RNode 1 "A"; RNode 2 "A.1"] [RElement 1 2 (Q2Qc (1 # 4))]].
Example C85_table_nontrivial : exists sm, summarize [("top", cs_cell)] = Some sm /\
  List.length (capacitances sm) = 2%nat /\ List.length (resistances sm) = 1%nat /\
  (forall s, In s (names_of (capacitances sm ++ resistances sm)) -> clean s).
Proof.
  eexists. split; [reflexivity|]. split; [reflexivity|]. split; [reflexivity|].
  intros s J. repeat (destruct J as [<-|J]; [reflexivity|]). destruct J.
Qed.
Example C85_table_text : csv_rows (fst (write_csv25 [("top", cs_cell)])) =
  [["Device"; "Net1"; "Net2"; "Capacitance [fF]"; "Resistance [Ω]"];
   ["C1"; "A"; "b"; "1.234"; ""]; ["C2"; "A"; "VSUBS"; "2.0"; ""]; ["R1"; "A"; "A.1"; ""; "0.25"]].
Proof. vm_compute. reflexivity. Qed.

(** A net name with a semicolon: two extractions with different couplings give the same table. *)
Definition cs_one (a b : string) : results := [("top", add_caps [AddSidewall (SidewallCap ("m1", a, b) (Q2Qc 1) 0 0)])].
Theorem C85_semicolon_refuted : exists r1 r2 sm1 sm2, summarize r1 = Some sm1 /\ summarize r2 = Some sm2 /\
  pair_value (capacitances sm1) "A;B" "C" <> None /\ pair_value (capacitances sm2) "A;B" "C" = None /\
  write_csv25 r1 = write_csv25 r2.
Proof.
  exists (cs_one "A;B" "C"), (cs_one "A" "B;C"). eexists. eexists. split; [reflexivity|]. split; [reflexivity|].
  split; [|split]; [intros H; vm_compute in H; discriminate|vm_compute; reflexivity|vm_compute; reflexivity].
Qed.
Print Assumptions C85_semicolon_refuted.
(** A capacitance of 0.4 aF is in the netlist but 0.0 in the table. *)
Theorem C85_small_refuted : exists r sm v, summarize r = Some sm /\ pair_value (capacitances sm) "A" "B" = Some v /\ (0 < v)%Qc /\
  In ["C1"; "A"; "B"; "0.0"; ""] (csv_rows (fst (write_csv25 r))).
Proof.
  exists [("top", add_caps [AddSidewall (SidewallCap ("m1", "A", "B") (Q2Qc (4 # 10000)) 0 0)])]. eexists. eexists.
  split; [reflexivity|]. split; [reflexivity|]. split; [apply qltb_true; vm_compute; reflexivity|].
  right. left. vm_compute. reflexivity.
Qed.
Print Assumptions C85_small_refuted.

(** ** the table of the FasterCap engine *)
Definition cs_name (i j : nat) : string := ("Cext_" ++ nat_str i ++ "_" ++ nat_str j)%string.
(** Read back, the table has exactly one row for every positive capacitance between two axes of the matrix and every
    positive remainder of a diagonal entry, naming the nets of those axes. *)
Theorem C85_fastercap : forall net_name nl top pre c post m bb n nl' c' kept,
  circuits nl = pre ++ c :: post -> c_name c = top -> ~ In top (map c_name pre) -> square n m ->
  NoDup (map n_id (c_nets c)) ->
  Forall (fun nn => all_chars (fun ch => negb (Ascii.eqb ch PyStr.nl)) nn = true) (conductor_names m) ->
  fc_expand nl top m bb = Some nl' -> circuits nl' = pre ++ c' :: post ->
  (forall x, In x (c_nets c') -> clean (net_name x)) ->
  List.length kept = List.length (if bb then c_devices c else []) -> ~ In "PEX_CAP" kept ->
  exists text rows fc vs rest nets,
    write_csv net_name (c_nets c') (with_classes kept (c_devices c')) = (text, true) /\
    c_nets c' = c_nets c ++ fc :: vs :: rest /\ axes (c_nets c ++ [fc; vs]) m nets /\
    csv_rows text = ["Device"; "Net1"; "Net2"; "Capacitance [fF]"] :: rows /\
    Forall2 (fun a row => let '(i, j, v) := a in
       fc_row (cs_name i j) (net_name (nth i nets (KNet 0 ""))) (net_name (nth (if Nat.eqb i j then 0 else j) nets (KNet 0 ""))) v row)
      (filter positive (cap_cells n m)) rows.
Proof.
  intros net_name nl top pre c post m bb n nl' c' kept Hc Htop Hpre Hsq Hid Hnl Hex Hc' Hcl Hk Hkc.
  destruct (C25_expansion_exact nl top pre c post m bb n Hc Htop Hpre Hsq) as (fc & vs & Nf & Nv & Nd & If & Iv & No & Yes).
  destruct (axes_dec (c_nets c ++ [fc; vs]) m Hnl) as [[nets Hax]|Hno]; [|specialize (No Hnl Hno); congruence].
  specialize (Yes nets Hax). rewrite Hex in Yes. destruct Yes as (_ & _ & c2 & gnd & Ec2 & _ & Hn & Hd).
  assert (c2 = c') by (rewrite Hc' in Ec2; apply app_inv_head in Ec2; congruence). subst c2.
  assert (R : exists rest, c_nets c' = c_nets c ++ fc :: vs :: rest /\ NoDup (map n_id (c_nets c'))).
  { assert (N2 : NoDup (map n_id (c_nets c ++ [fc; vs]))).
    { rewrite map_app. cbn [map]. inversion Nd as [|? ? M1 M2]; subst. cbn [In] in M1.
      assert (G : forall l : list nat, NoDup l -> ~ In (n_id fc) l -> ~ In (n_id vs) l -> NoDup (l ++ [n_id fc; n_id vs])).
      { induction 1 as [|x l X N IH]; intros A B; [exact Nd|]. cbn. constructor.
        - rewrite in_app_iff. cbn [In] in *. intuition.
        - apply IH; cbn [In] in *; tauto. }
      apply G; assumption. }
    destruct Hn as [[_ E]|(_ & _ & G & E)]; rewrite E.
    - exists []. split; [reflexivity|exact N2].
    - exists [gnd]. split; [reflexivity|]. replace (c_nets c ++ [fc; vs; gnd]) with ((c_nets c ++ [fc; vs]) ++ [gnd]) by now rewrite <- app_assoc.
      rewrite map_app. cbn [map]. revert G N2. generalize (map n_id (c_nets c ++ [fc; vs])). intros l G N2. induction N2 as [|x l X N IH]; cbn; [repeat constructor; intros []|].
      constructor; [rewrite in_app_iff; cbn [In] in *; intuition|apply IH; cbn [In] in *; tauto]. }
  destruct R as (rest & Hr & Hnd).
  set (cells := filter positive (cap_cells n m)) in *.
  set (pex := map (fun d => FDev d "PEX_CAP") (map (cell_device nets) cells)).
  assert (W : exists ka rb, with_classes kept (c_devices c') = ka ++ pex ++ rb /\
     Forall (fun f => f_class f <> "PEX_CAP") ka /\ Forall (fun f => is_capacitor (d_class (f_dev f)) = false) rb).
  { rewrite Hd. set (k := if bb then c_devices c else []) in *. set (caps := map (cell_device nets) cells) in *.
    unfold with_classes. rewrite Hk. rewrite skipn_app, skipn_all, Nat.sub_diag. cbn [skipn List.app].
    rewrite map_app.
    assert (CA : forall (a : list device) (b : list string) a' b', List.length a = List.length b -> combine (a ++ a') (b ++ b') = combine a b ++ combine a' b').
    { induction a; intros [|y b] a' b' L; try discriminate; [reflexivity|]. cbn. f_equal. apply IHa. cbn in L. lia. }
    rewrite CA by (symmetry; exact Hk). rewrite CA by (rewrite map_length; reflexivity). rewrite !map_app.
    eexists. eexists. split; [f_equal; f_equal|].
    - unfold pex, caps. clear. induction cells as [|a l IH]; [reflexivity|]. cbn [map combine]. f_equal. exact IH.
    - split.
      + apply Forall_forall. intros f J. apply in_map_iff in J. destruct J as ([d s] & <- & J). apply in_combine_r in J. cbn. congruence.
      + repeat constructor. }
  destruct W as (ka & rb & W & Ka & Rb).
  assert (Axis : forall i, (i < n)%nat -> In (nth i nets (KNet 0 "")) (c_nets c')).
  { intros i Hi. assert (L : List.length nets = n). { pose proof (Forall2_len _ _ _ Hax). destruct Hsq as (Q & _). lia. }
    assert (J : In (nth i nets (KNet 0 "")) nets) by (apply nth_In; lia).
    assert (A : forall x, In x nets -> In x (c_nets c ++ [fc; vs])).
    { clear -Hax. unfold axes in Hax. induction Hax as [|nn x l l' (s & _ & a & b & E & _) F IH]; [intros y []|].
      intros y [<-|J]; [rewrite E; apply in_or_app; right; left; reflexivity|auto]. }
    apply A in J. rewrite Hr. rewrite in_app_iff in *. cbn [In] in *. tauto. }
  assert (Bound : forall i j v, In (i, j, v) cells -> (i < n /\ j < n)%nat).
  { intros i j v J. apply filter_In in J. destruct J as [J _]. unfold cap_cells in J. apply in_flat_map in J. destruct J as (i' & J1 & J2).
    apply in_seq in J1. apply in_app_iff in J2. destruct J2 as [J2|J2].
    - apply in_map_iff in J2. destruct J2 as (j' & [= <- <- <-] & J3). apply in_seq in J3. lia.
    - destruct (Nat.ltb 0 i'); [|destruct J2]. destruct J2 as [[= <- <- <-]|[]]. lia. }
  set (nt := fun i => nth i nets (KNet 0 "")).
  destruct (csv_lines_write net_name (c_nets c') (fun a : nat * nat * Qc => cs_name (fst (fst a)) (snd (fst a)))
     (fun a => net_name (nt (fst (fst a))))
     (fun a => net_name (nt (if Nat.eqb (fst (fst a)) (snd (fst a)) then 0 else snd (fst a))))%nat
     (fun a => snd a) rb cells pex) as (rows & E & S & F).
  { unfold pex. rewrite map_map. assert (Bd : forall a, In a cells -> (fst (fst a) < n /\ snd (fst a) < n)%nat) by (intros [[i j] v]; apply Bound).
    clear -Bd Axis Hcl Hnd. fold nt in Axis. induction cells as [|[[i j] v] l IH]; cbn [map]; constructor.
    - destruct (Bd (i, j, v) (or_introl eq_refl)) as [Bi Bj]. cbn [fst snd] in *.
      assert (Ai : In (nt i) (c_nets c')) by (apply Axis, Bi).
      assert (Aj : In (nt (if Nat.eqb i j then 0 else j)%nat) (c_nets c')) by (apply Axis; destruct (Nat.eqb i j); lia).
      split; [|split; [|split; [apply Hcl, Ai|apply Hcl, Aj]]].
      + unfold csv_line, cell_device, terminal_net, end1, end2. cbn [f_dev f_class d_class d_terms d_name d_params is_capacitor fst snd dget].
        change (eqb "PEX_CAP" "PEX_CAP") with true. cbn [andb].
        destruct (eq_dec "A" "A") as [_|Q]; [|destruct (Q eq_refl)]. destruct (eq_dec "B" "A") as [Q|_]; [discriminate|].
        destruct (eq_dec "B" "B") as [_|Q]; [|destruct (Q eq_refl)].
        fold (nt i). fold (nt (if Nat.eqb i j then 0 else j)%nat). rewrite !find_id by assumption.
        unfold dgetd. cbn [dget]. destruct (eq_dec "C" "C") as [_|Q]; [|destruct (Q eq_refl)]. reflexivity.
      + unfold cs_name. repeat apply clean_app; try reflexivity; apply nat_str_clean.
    - apply IH. intros a J. apply Bd. right. exact J. }
  assert (SK : forall l, Forall (fun f => csv_line net_name (c_nets c') f = Some "") l -> csv_lines net_name (c_nets c') l = ("", true)).
  { intros l Q. rewrite <- (app_nil_r l), csv_lines_skip by exact Q. reflexivity. }
  assert (Z : csv_lines net_name (c_nets c') rb = ("", true)).
  { apply SK. eapply Forall_impl; [|exact Rb]. intros f Q. unfold csv_line. rewrite Q. reflexivity. }
  rewrite Z in E, S. cbn [fst snd] in E, S. unfold csv_rows at 2 in E. cbn in E. rewrite app_nil_r in E.
  assert (V : csv_lines net_name (c_nets c') (with_classes kept (c_devices c')) = csv_lines net_name (c_nets c') (pex ++ rb)).
  { rewrite W. apply csv_lines_skip. eapply Forall_impl; [|exact Ka]. intros f Q. unfold csv_line.
    rewrite (proj2 (eqb_false (f_class f) "PEX_CAP")) by exact Q. rewrite Bool.andb_false_r. reflexivity. }
  unfold write_csv. rewrite V. destruct (csv_lines net_name (c_nets c') (pex ++ rb)) as [t ok]. cbn [fst snd] in E, S. subst ok.
  eexists. exists rows, fc, vs, rest, nets. split; [reflexivity|]. split; [exact Hr|]. split; [exact Hax|]. split.
  - replace ("Device;Net1;Net2;Capacitance [fF]" ++ endl ++ t)%string with (join semicolon ["Device"; "Net1"; "Net2"; "Capacitance [fF]"] ++ String PyStr.nl t)%string by reflexivity.
    rewrite csv_rows_cons; [|discriminate|repeat constructor]. now rewrite E.
  - eapply Forall2_impl; [|exact F]. intros [[i j] v] row Q. exact Q.
Qed.
Print Assumptions C85_fastercap.

Definition fc_circuit : circuit := Circuit "TOP" [KNet 1 "A"; KNet 2 "B"] [Device "C1" CCapacitor [("A", 1%nat); ("B", 2%nat)] [("C", 1%Qc)]].
Definition f1 : Qc := Q2Qc (1 # 10 ^ 15).
Definition fc_m (a b c : string) : cap_matrix := CapMatrix [a; b; c]
  [[Q2Qc 4 * f1; - (Q2Qc (3 # 2) * f1); - f1]; [- (Q2Qc (3 # 2) * f1); Q2Qc 5 * f1; 0]; [- f1; 0; f1]]%Qc.
Lemma expands nl top m bb : (match fc_expand nl top m bb with Some nl' => Nat.eqb (List.length (circuits nl')) 1 | None => false end) = true ->
  exists nl' c', fc_expand nl top m bb = Some nl' /\ circuits nl' = [c'] /\
    (forall A (f : circuit -> A) z, f c' = match fc_expand nl top m bb with Some nl' => match circuits nl' with [c'] => f c' | _ => z end | None => z end).
Proof.
  destruct (fc_expand nl top m bb) as [nl'|]; [|discriminate]. intros H. exists nl'.
  destruct (circuits nl') as [|c' [|]]; try discriminate. exists c'. repeat split.
Qed.
Example C85_fastercap_nontrivial : exists nl' c', let m := fc_m "g1_VSUBS" "g2_A" "g3_B" in
  square 3 m /\ NoDup (map n_id (c_nets fc_circuit)) /\
  Forall (fun nn => all_chars (fun ch => negb (Ascii.eqb ch PyStr.nl)) nn = true) (conductor_names m) /\
  fc_expand (Netlist [fc_circuit] []) "TOP" m true = Some nl' /\ circuits nl' = [] ++ c' :: [] /\
  (forall x, In x (c_nets c') -> clean (n_name x)) /\ ~ In "PEX_CAP" ["sky130_fd_pr__cap"] /\
  csv_rows (fst (write_csv n_name (c_nets c') (with_classes ["sky130_fd_pr__cap"] (c_devices c')))) =
    [["Device"; "Net1"; "Net2"; "Capacitance [fF]"]; ["Cext_0_1"; "VSUBS"; "A"; "1.5"]; ["Cext_0_2"; "VSUBS"; "B"; "1.0"];
     ["Cext_1_1"; "A"; "VSUBS"; "3.5"]].
Proof.
  destruct (expands (Netlist [fc_circuit] []) "TOP" (fc_m "g1_VSUBS" "g2_A" "g3_B") true) as (nl' & c' & E1 & E2 & E3); [vm_compute; reflexivity|].
  exists nl', c'. cbv zeta. split; [repeat constructor|]. split; [repeat constructor; cbn; intuition discriminate|].
  split; [repeat constructor|]. split; [exact E1|]. split; [exact E2|]. split; [|split; [intros [|[]]; discriminate|]].
  - assert (N : map n_name (c_nets c') = ["A"; "B"; "FC_GND"; "VSUBS"; "GND"]).
    { rewrite (E3 _ (fun c' => map n_name (c_nets c')) []). vm_compute. reflexivity. }
    intros x J. apply (in_map n_name) in J. rewrite N in J. repeat (destruct J as [<-|J]; [reflexivity|]). destruct J.
  - rewrite (E3 _ (fun c' => csv_rows (fst (write_csv n_name (c_nets c') (with_classes ["sky130_fd_pr__cap"] (c_devices c'))))) []).
    vm_compute. reflexivity.
Qed.

(** net.name is empty for a net without a name (the netlist and the matrix use $1, $2, ... for it): two extractions in
    which different nets are coupled to A give the same table. *)
Definition kl_name (n : knet) : string := match n_name n with String "$" _ => "" | s => s end.
Definition fc_unnamed : netlist := Netlist [Circuit "TOP" [KNet 1 "A"; KNet 2 "$2"; KNet 3 "$3"] []] [].
Definition fc_m2 (a b : string) : cap_matrix := CapMatrix [a; b] [[f1; - f1]; [- f1; f1]]%Qc.
Theorem C85_unnamed_refuted : exists nl2 c2 nl3 c3 d2 d3,
  fc_expand fc_unnamed "TOP" (fc_m2 "g1_A" "g2_$2") false = Some nl2 /\ circuits nl2 = [c2] /\
  fc_expand fc_unnamed "TOP" (fc_m2 "g1_A" "g2_$3") false = Some nl3 /\ circuits nl3 = [c3] /\
  filter (fun d => is_capacitor (d_class d)) (c_devices c2) = [d2] /\ terminal d2 "A" = 1%nat /\ terminal d2 "B" = 2%nat /\
  filter (fun d => is_capacitor (d_class d)) (c_devices c3) = [d3] /\ terminal d3 "A" = 1%nat /\ terminal d3 "B" = 3%nat /\
  write_csv kl_name (c_nets c2) (with_classes [] (c_devices c2)) = write_csv kl_name (c_nets c3) (with_classes [] (c_devices c3)).
Proof.
  destruct (expands fc_unnamed "TOP" (fc_m2 "g1_A" "g2_$2") false) as (nl2 & c2 & E1 & E2 & E3); [vm_compute; reflexivity|].
  destruct (expands fc_unnamed "TOP" (fc_m2 "g1_A" "g2_$3") false) as (nl3 & c3 & G1 & G2 & G3); [vm_compute; reflexivity|].
  assert (T : forall c k, map (fun d => (terminal d "A", terminal d "B")) (filter (fun d => is_capacitor (d_class d)) (c_devices c)) = [(1, k)]%nat ->
    exists d, filter (fun d => is_capacitor (d_class d)) (c_devices c) = [d] /\ terminal d "A" = 1%nat /\ terminal d "B" = k).
  { intros c k H. destruct (filter (fun d => is_capacitor (d_class d)) (c_devices c)) as [|d [|]]; try discriminate. injection H as H1 H2. eauto. }
  destruct (T c2 2%nat) as (d2 & A1 & A2 & A3).
  { rewrite (E3 _ (fun c => map (fun d => (terminal d "A", terminal d "B")) (filter (fun d => is_capacitor (d_class d)) (c_devices c))) []). vm_compute. reflexivity. }
  destruct (T c3 3%nat) as (d3 & B1 & B2 & B3).
  { rewrite (G3 _ (fun c => map (fun d => (terminal d "A", terminal d "B")) (filter (fun d => is_capacitor (d_class d)) (c_devices c))) []). vm_compute. reflexivity. }
  exists nl2, c2, nl3, c3, d2, d3. repeat (split; [assumption|]).
  rewrite (E3 _ (fun c => write_csv kl_name (c_nets c) (with_classes [] (c_devices c))) ("", true)).
  rewrite (G3 _ (fun c => write_csv kl_name (c_nets c) (with_classes [] (c_devices c))) ("", true)). vm_compute. reflexivity.
Qed.
Print Assumptions C85_unnamed_refuted.

(** ** tables that are not finished *)
(** The table of the 2.5D engine stops only if the results have no summary, and is empty then.  The table of the FasterCap engine stops only at a
    capacitor with an open terminal; it has the rows of the devices before it, as if there were no others. *)
Theorem C85_stopped :
  (forall r, snd (write_csv25 r) = false <-> summarize r = None) /\ (forall r, summarize r = None -> fst (write_csv25 r) = "") /\
  (forall net_name nets l, snd (write_csv net_name nets l) = false <->
     exists f, In f l /\ is_capacitor (d_class (f_dev f)) = true /\ f_class f = "PEX_CAP" /\ (terminal_net nets (f_dev f) "A" = None \/ terminal_net nets (f_dev f) "B" = None)) /\
  (forall net_name nets l, snd (write_csv net_name nets l) = false ->
     exists pre f post, l = pre ++ f :: post /\ write_csv net_name nets pre = (fst (write_csv net_name nets l), true)).
Proof.
  assert (N : forall net_name nets f, csv_line net_name nets f = None <->
    is_capacitor (d_class (f_dev f)) = true /\ f_class f = "PEX_CAP" /\ (terminal_net nets (f_dev f) "A" = None \/ terminal_net nets (f_dev f) "B" = None)).
  { intros net_name nets f. unfold csv_line. destruct (is_capacitor (d_class (f_dev f))); cbn [andb]; [|split; [discriminate|intros [Q _]; discriminate]].
    destruct (eqb (f_class f) "PEX_CAP") eqn:E; [apply eqb_eq in E|apply eqb_neq in E; split; [discriminate|tauto]].
    destruct (terminal_net nets (f_dev f) "A"), (terminal_net nets (f_dev f) "B"); split; try discriminate; try tauto. intros (_ & _ & [Q|Q]); discriminate. }
  split; [intros r; unfold write_csv25; destruct (summarize r); cbn; split; congruence|]. split; [intros r E; unfold write_csv25; now rewrite E|]. split.
  - intros net_name nets l. unfold write_csv. replace (snd (let (t, ok) := csv_lines net_name nets l in ("Device;Net1;Net2;Capacitance [fF]" ++ endl ++ t, ok)%string)) with (snd (csv_lines net_name nets l)) by (now destruct (csv_lines net_name nets l)).
    setoid_rewrite <- (N net_name nets). induction l as [|f l IH]; cbn [csv_lines]; [split; [discriminate|intros (f & [] & _)]|].
    destruct (csv_line net_name nets f) as [t|] eqn:E.
    + destruct (csv_lines net_name nets l) as [u ok]. cbn [snd] in *. rewrite IH. split; [intros (f' & J & Q); exists f'; split; [now right|exact Q]|].
      intros (f' & [<-|J] & Q); [congruence|]. eauto.
    + split; [intros _; exists f; split; [now left|exact E]|reflexivity].
  - intros net_name nets l. unfold write_csv.
    assert (X : snd (csv_lines net_name nets l) = false -> exists pre f post, l = pre ++ f :: post /\ csv_lines net_name nets pre = (fst (csv_lines net_name nets l), true)).
    { induction l as [|f l IH]; cbn [csv_lines]; [discriminate|]. destruct (csv_line net_name nets f) as [t|] eqn:E.
      - destruct (csv_lines net_name nets l) as [u ok]. cbn [fst snd] in *. intros Q. destruct (IH Q) as (pre & f' & post & -> & P). exists (f :: pre), f', post. split; [reflexivity|]. cbn [csv_lines]. now rewrite E, P.
      - intros _. exists [], f, l. auto. }
    destruct (csv_lines net_name nets l) as [u ok]. cbn [fst snd] in *. intros Q. destruct (X Q) as (pre & f & post & E & P). exists pre, f, post. split; [exact E|]. now rewrite P.
Qed.
Print Assumptions C85_stopped.
Example C85_stopped_case : exists l, snd (write_csv n_name [KNet 1 "A"; KNet 2 "B"] l) = false /\
  csv_rows (fst (write_csv n_name [KNet 1 "A"; KNet 2 "B"] l)) = [["Device"; "Net1"; "Net2"; "Capacitance [fF]"]; ["c1"; "A"; "B"; "1.0"]].
Proof.
  exists [FDev (Device "c1" CCapacitor [("A", 1%nat); ("B", 2%nat)] [("C", f1)]) "PEX_CAP"; FDev (Device "c2" CCapacitor [("A", 1%nat)] [("C", f1)]) "PEX_CAP"; FDev (Device "c3" CCapacitor [("A", 1%nat); ("B", 2%nat)] [("C", f1)]) "PEX_CAP"].
  split; vm_compute; reflexivity.
Qed.
