(** C24, C25, C26, C59: FasterCap netlist expansion (klayout_pex/klayout/netlist_expander.py)
    and netlist reduction (klayout_pex/klayout/netlist_reducer.py). *)
From Coq Require Import String Ascii Lia Lqa.
From Verif Require Import PyBase QcLra PyLib PyStr ER_Model NX_Model NX_Proofs CM_Model CM_Props FX_Model FX_Spec FX_Proofs.
Local Open Scope Qc_scope.

Lemma on_circuit_split f name pre c post : ~ In name (map c_name pre) -> c_name c = name ->
  on_circuit f name (pre ++ c :: post) = match f c with Some c' => Some (pre ++ c' :: post) | None => None end.
Proof.
  intros Hp Hc. induction pre as [|x pre IH].
  - cbn [app on_circuit]. rewrite Hc, eqb_refl. reflexivity.
  - cbn [app on_circuit]. rewrite (proj2 (eqb_false (c_name x) name)) by (intros E; apply Hp; left; exact E).
    rewrite IH by (intros E; apply Hp; right; exact E). destruct (f c); reflexivity.
Qed.

Lemma Forall2_len {A B} (R : A -> B -> Prop) l m : Forall2 R l m -> List.length l = List.length m.
Proof. induction 1; cbn; congruence. Qed.

(** ** C25 *)
(** the complete result of the expansion: when it raises, and everything the returned netlist contains *)
Theorem C25_expansion_exact : forall nl top pre c post m bb n,
  circuits nl = pre ++ c :: post -> c_name c = top -> ~ In top (map c_name pre) ->
  square n m ->
  exists fc vs, n_name fc = "FC_GND"%string /\ n_name vs = "VSUBS"%string /\
    NoDup (n_id fc :: n_id vs :: []) /\ ~ In (n_id fc) (map n_id (c_nets c)) /\ ~ In (n_id vs) (map n_id (c_nets c)) /\
  (* an axis which names no net: the expansion raises *)
  (Forall (fun nn => all_chars (fun ch => negb (Ascii.eqb ch PyStr.nl)) nn = true) (conductor_names m) ->
   (forall nets, ~ axes (c_nets c ++ [fc; vs]) m nets) -> fc_expand nl top m bb = None) /\
  forall nets, axes (c_nets c ++ [fc; vs]) m nets ->
  match fc_expand nl top m bb with
  | None => exists a, In a (cap_cells n m) /\ positive a = true /\ end1 nets a = end2 nets a
  | Some nl' =>
      (forall a, In a (cap_cells n m) -> positive a = true -> end1 nets a <> end2 nets a) /\
      classes nl' = classes nl ++ [("PEX_CAP"%string, CCapacitor); ("PEX_RES"%string, CResistor)] /\
      exists c' gnd, circuits nl' = pre ++ c' :: post /\ c_name c' = top /\
        (last_named (c_nets c) "GND" gnd /\ c_nets c' = c_nets c ++ [fc; vs] \/
         ~ In "GND"%string (map n_name (c_nets c)) /\ n_name gnd = "GND"%string /\
         ~ In (n_id gnd) (map n_id (c_nets c ++ [fc; vs])) /\ c_nets c' = c_nets c ++ [fc; vs; gnd]) /\
        c_devices c' = (if bb then c_devices c else []) ++
          map (cell_device nets) (filter positive (cap_cells n m)) ++
          [Device "Rext_FC_GND_GND" CResistor [("A", n_id fc); ("B", n_id gnd)]%string [("R"%string, 0)];
           Device "Rext_VSUBS_GND" CResistor [("A", n_id vs); ("B", n_id gnd)]%string [("R"%string, 0)]]
  end.
Proof.
  intros nl top pre c post m bb n Hc Htop Hpre Hsq.
  set (c0 := if bb then c else remove_devices c).
  assert (Hn0 : c_nets c0 = c_nets c) by (unfold c0; destruct bb; reflexivity).
  assert (Hnm0 : c_name c0 = top) by (unfold c0; destruct bb; exact Htop).
  assert (Hd0 : c_devices c0 = if bb then c_devices c else []) by (unfold c0; destruct bb; reflexivity).
  set (fc := KNet (fresh_id (c_nets c)) "FC_GND").
  set (vs := KNet (fresh_id (c_nets c ++ [fc])) "VSUBS").
  exists fc, vs. split; [reflexivity|]. split; [reflexivity|].
  pose proof (fresh_not_in (c_nets c ++ [fc])) as Hv. fold vs in Hv. change (fresh_id (c_nets c ++ [fc])) with (n_id vs) in Hv.
  rewrite map_app, in_app_iff in Hv. cbn [map In] in Hv.
  split. { constructor; [cbn [In]; intuition congruence|constructor; [easy|constructor]]. }
  split. { apply fresh_not_in. }
  split. { intros E. apply Hv. now left. }
  unfold fc_expand. rewrite Hc, on_circuit_split by auto.
  unfold fc_expand_circuit. fold c0. unfold create_net at 1. rewrite Hn0. fold fc.
  split.
  { intros Hnl Hno. unfold create_net at 1. cbn [c_nets c_name c_devices]. fold vs.
    replace ((c_nets c ++ [fc]) ++ [vs])%list with (c_nets c ++ [fc; vs])%list by now rewrite <- app_assoc.
    destruct (map_opt (axis_net (name_table (c_nets c ++ [fc; vs]))) (conductor_names m)) as [nets|] eqn:Em; [|reflexivity].
    exfalso. apply (Hno nets). eapply map_opt_axes; eauto. }
  intros nets Hax. unfold create_net at 1. rewrite Hn0. fold fc. unfold create_net at 1. cbn [c_nets c_name c_devices]. fold vs.
  replace ((c_nets c ++ [fc]) ++ [vs])%list with (c_nets c ++ [fc; vs])%list by now rewrite <- app_assoc.
  rewrite (axes_map_opt _ _ _ Hax).
  assert (Hlen : List.length nets = n). { pose proof (Forall2_len _ _ _ Hax). destruct Hsq as (Hnames & _). lia. }
  unfold dimension. replace (List.length (conductor_names m)) with n by (symmetry; apply Hsq).
  rewrite (row_loop nets m n Hsq Hlen).
  2:{ apply Forall_forall. intros x Hx. apply in_seq in Hx. lia. }
  fold (cap_cells n m). rewrite Hnm0, Hd0.
  set (cc := Circuit top (c_nets c ++ [fc; vs]) (if bb then c_devices c else [])).
  destruct (existsb (fun a => positive a && Nat.eqb (end1 nets a) (end2 nets a)) (cap_cells n m)) eqn:Ex.
  - apply existsb_exists in Ex. destruct Ex as (a & Ha & Hp). apply andb_prop in Hp. destruct Hp as [Hp He].
    apply Nat.eqb_eq in He.
    destruct (fold_left (attempt nets) (cap_cells n m) (Some cc)) as [x|] eqn:Ef; [|now exists a].
    exfalso. eapply attempts_some; eauto.
  - assert (Hok : forall a, In a (cap_cells n m) -> positive a = true -> end1 nets a <> end2 nets a).
    { intros a Ha Hp He. assert (X : existsb (fun a => positive a && Nat.eqb (end1 nets a) (end2 nets a)) (cap_cells n m) = true).
      { apply existsb_exists. exists a. rewrite Hp. cbn. rewrite He, Nat.eqb_refl. auto. }
      congruence. }
    rewrite (attempts_ok nets (cap_cells n m) cc Hok).
    rewrite name_table_get. rewrite rev_app_distr. cbn [rev app find n_name fc vs].
    change (find (fun n0 : knet => eqb (n_name n0) "GND"%string) (rev (c_nets c))) with (find (fun n => eqb (n_name n) "GND"%string) (rev (c_nets c))).
    change (eqb "VSUBS"%string "GND"%string) with false. change (eqb "FC_GND"%string "GND"%string) with false. cbn match.
    destruct (find (fun n => eqb (n_name n) "GND"%string) (rev (c_nets c))) as [g|] eqn:Eg.
    + cbn. split; [exact Hok|]. split; [reflexivity|]. eexists. exists g. split; [reflexivity|]. split; [reflexivity|]. split.
      * left. split; [|reflexivity].
        now apply find_last_named.
      * cbn. rewrite <- !app_assoc. reflexivity.
    + cbn. split; [exact Hok|]. split; [reflexivity|].
      set (g := KNet (fresh_id (c_nets c ++ [fc; vs])) "GND").
      eexists. exists g. split; [reflexivity|]. split; [reflexivity|]. split.
      * right. split.
        { intros Hin. apply in_map_iff in Hin. destruct Hin as (x & Hx & Hin). apply in_rev in Hin.
          apply (find_none _ _ Eg) in Hin. cbn beta in Hin. rewrite Hx, eqb_refl in Hin. discriminate. }
        split; [reflexivity|]. split; [apply fresh_not_in|]. cbn. now rewrite <- app_assoc.
      * cbn. rewrite <- !app_assoc. reflexivity.
Qed.

(** the same, as the claim reads: every added capacitor has a positive value and joins two different
    nets named by axes; devices are kept or all removed; two zero ohm resistors; one GND net *)
Corollary C25_no_invented_capacitor : forall nl top pre c post m bb n nl',
  circuits nl = pre ++ c :: post -> c_name c = top -> ~ In top (map c_name pre) ->
  square n m -> Forall (fun nn => all_chars (fun ch => negb (Ascii.eqb ch PyStr.nl)) nn = true) (conductor_names m) ->
  fc_expand nl top m bb = Some nl' ->
  exists c' added fc vs gnd, circuits nl' = pre ++ c' :: post /\
    c_devices c' = (if bb then c_devices c else []) ++ added ++
       [Device "Rext_FC_GND_GND" CResistor [("A", fc); ("B", gnd)]%string [("R"%string, 0)];
        Device "Rext_VSUBS_GND" CResistor [("A", vs); ("B", gnd)]%string [("R"%string, 0)]] /\
    (exists x y z, In x (c_nets c') /\ n_id x = fc /\ n_name x = "FC_GND"%string /\
       In y (c_nets c') /\ n_id y = vs /\ n_name y = "VSUBS"%string /\
       In z (c_nets c') /\ n_id z = gnd /\ n_name z = "GND"%string) /\
    (forall d, In d added -> d_class d = CCapacitor /\ 0 < capacitance d /\ terminal d "A" <> terminal d "B" /\
       forall t, t = "A"%string \/ t = "B"%string -> exists nn s x, In nn (conductor_names m) /\ axis_label nn s /\
          In x (c_nets c') /\ n_name x = s /\ n_id x = terminal d t) /\
    List.length (filter (fun x => eqb (n_name x) "GND"%string) (c_nets c')) =
      Nat.max 1 (List.length (filter (fun x => eqb (n_name x) "GND"%string) (c_nets c))).
Proof.
  intros nl top pre c post m bb n nl' Hc Htop Hpre Hsq Hnl He.
  destruct (C25_expansion_exact nl top pre c post m bb n Hc Htop Hpre Hsq) as (fc & vs & Hfn & Hvn & Hnd & Hf & Hv & Hno & H).
  destruct (axes_dec (c_nets c ++ [fc; vs]) m Hnl) as [[nets Hax]|Hna].
  2:{ rewrite (Hno Hnl Hna) in He. discriminate. }
  specialize (H nets Hax). rewrite He in H. destruct H as (Hok & _ & c' & gnd & Hc' & Htop' & Hg & Hd).
  exists c', (map (cell_device nets) (filter positive (cap_cells n m))), (n_id fc), (n_id vs), (n_id gnd).
  split; [exact Hc'|]. split; [exact Hd|].
  assert (Hsub : forall x, In x (c_nets c ++ [fc; vs]) -> In x (c_nets c')).
  { intros x Hx. destruct Hg as [[_ ->]|(_ & _ & _ & ->)]; [exact Hx|]. rewrite in_app_iff in *. cbn in *. tauto. }
  split.
  { exists fc, vs, gnd. repeat split; auto.
    - apply Hsub. rewrite in_app_iff. cbn. tauto.
    - apply Hsub. rewrite in_app_iff. cbn. tauto.
    - destruct Hg as [[(a & b & E & Hgn & _) _]|(_ & _ & _ & ->)].
      + apply Hsub. rewrite E, !in_app_iff. cbn. tauto.
      + rewrite in_app_iff. cbn. tauto.
    - destruct Hg as [[(a & b & E & Hgn & _) _]|(_ & Hgn & _ & _)]; exact Hgn. }
  split.
  - intros d Hdin. apply in_map_iff in Hdin. destruct Hdin as (a & <- & Ha). apply filter_In in Ha. destruct Ha as [Ha Hp].
    split; [reflexivity|]. split; [now apply qltb_true in Hp|]. split; [now apply Hok|].
    assert (Hidx : (fst (fst a) < n)%nat /\ (snd (fst a) < n)%nat).
    { apply in_flat_map in Ha. destruct Ha as (i & Hi & Ha). apply in_seq in Hi. apply in_app_iff in Ha. destruct Ha as [Ha|Ha].
      - apply in_map_iff in Ha. destruct Ha as (j & <- & Hj). apply in_seq in Hj. cbn. lia.
      - destruct (Nat.ltb 0 i); [|easy]. destruct Ha as [<-|[]]. cbn. lia. }
    assert (Hat : forall k, (k < n)%nat -> exists nn s x, In nn (conductor_names m) /\ axis_label nn s /\ In x (c_nets c') /\ n_name x = s /\ n_id x = n_id (nth k nets (KNet 0 ""))).
    { intros k Hk. assert (Hln : List.length (conductor_names m) = n) by apply Hsq.
      pose proof (Forall2_len _ _ _ Hax) as Hl2.
      assert (G : forall l l' k, Forall2 (fun nn x => exists s, axis_label nn s /\ last_named (c_nets c ++ [fc; vs]) s x) l l' -> (k < List.length l')%nat ->
         exists nn, In nn l /\ exists s, axis_label nn s /\ last_named (c_nets c ++ [fc; vs]) s (nth k l' (KNet 0 ""))).
      { clear. intros l l' k HF. revert k. induction HF as [|x y l l' Hxy HF IH]; intros k Hk; [cbn in Hk; lia|]. destruct k as [|k].
        - exists x. split; [now left|exact Hxy].
        - destruct (IH k) as (nn & Hin & Hs); [cbn in Hk; lia|]. exists nn. split; [now right|exact Hs]. }
      destruct (G _ _ k Hax ltac:(lia)) as (nn & Hin & s & Hlab & Hlast). exists nn, s, (nth k nets (KNet 0 "")).
      split; [exact Hin|]. split; [exact Hlab|]. destruct Hlast as (a' & b' & El & Hname & _). split; [|auto].
      apply Hsub. rewrite El, in_app_iff. cbn. tauto. }
    intros t [->| ->].
    + apply Hat. lia.
    + change (terminal (cell_device nets a) "B") with (end2 nets a). unfold end2. apply Hat. destruct (Nat.eqb _ _); lia.
  - assert (F : filter (fun x => eqb (n_name x) "GND"%string) [fc; vs] = []).
    { cbn [filter]. rewrite Hfn, Hvn. reflexivity. }
    assert (F2 : forall l, In "GND"%string (map n_name l) -> (1 <= List.length (filter (fun x => eqb (n_name x) "GND"%string) l))%nat).
    { induction l as [|x l IH]; intros Hin; [easy|]. cbn [filter]. destruct (eqb (n_name x) "GND"%string) eqn:E; [cbn; lia|].
      apply IH. destruct Hin as [Hin|Hin]; [|exact Hin]. now apply eqb_neq in E. }
    assert (F3 : forall l, ~ In "GND"%string (map n_name l) -> filter (fun x => eqb (n_name x) "GND"%string) l = []).
    { induction l as [|x l IH]; intros Hin; [reflexivity|]. cbn [filter].
      rewrite (proj2 (eqb_false (n_name x) "GND"%string)) by (intros E; apply Hin; now left). apply IH. intros E. apply Hin. now right. }
    destruct Hg as [[(a & b & E & Hgn & _) ->]|(Hng & Hgn & _ & ->)].
    + rewrite filter_app, F, app_nil_r. assert (In "GND"%string (map n_name (c_nets c))).
      { rewrite E, map_app, in_app_iff. right. left. exact Hgn. }
      apply F2 in H. lia.
    + rewrite filter_app, F3 by exact Hng. cbn [app filter List.length]. rewrite Hfn, Hvn, Hgn. reflexivity.
Qed.

(** ** C24 *)
Section Sums24.
Variables (n : nat) (m : cap_matrix) (nets : list knet).
Hypothesis Hsq : square n m.
Hypothesis Hlen : List.length nets = n.
Hypothesis Hnd : NoDup (map n_id nets).
Hypothesis Hoff : forall i j, (i < n)%nat -> (j < n)%nat -> i <> j -> entry m i j <= 0.
Hypothesis Hrow : forall i, (0 < i < n)%nat -> 0 <= row_sum n m i.

Definition axis_id (i : nat) : nat := n_id (nth i nets (KNet 0 "")).
Lemma axis_id_inj i j : (i < n)%nat -> (j < n)%nat -> axis_id i = axis_id j -> i = j.
Proof.
  intros Hi Hj H. unfold axis_id in H. rewrite <- !(map_nth n_id) in H.
  eapply (proj1 (NoDup_nth (map n_id nets) (n_id (KNet 0 "")))); eauto; rewrite map_length; lia.
Qed.
Lemma axis_id_eqb i j : (i < n)%nat -> (j < n)%nat -> Nat.eqb (axis_id i) (axis_id j) = Nat.eqb i j.
Proof.
  intros Hi Hj. destruct (Nat.eqb_spec i j) as [->|Hne]; [apply Nat.eqb_refl|].
  apply Nat.eqb_neq. intros E. apply Hne. now apply axis_id_inj.
Qed.
(** a sum over the created cells, weighted by a function of their end axes *)
Lemma cells_sum (K : nat -> nat -> Qc) (F : nat * nat * Qc -> Qc) :
  (forall i j v, (i < n)%nat -> (j < n)%nat -> F (i, j, v) = v * K i (if Nat.eqb i j then 0%nat else j)) ->
  qsumf F (filter positive (cap_cells n m)) =
  qsumf (fun i => qsumf (fun j => if Nat.ltb i j then - entry m i j * K i j else 0) (seq 0 n)) (seq 0 n) +
  qsumf (fun i => if Nat.ltb 0 i then row_sum n m i * K i 0%nat else 0) (seq 0 n).
Proof.
  intros HF. rewrite qsumf_filter. unfold cap_cells.
  assert (Hfm : forall {A B} (g : A -> list B) (f : B -> Qc) l, qsumf f (flat_map g l) = qsumf (fun a => qsumf f (g a)) l).
  { intros A B g f l. induction l as [|x l IH]; [reflexivity|]. cbn [flat_map]. now rewrite qsumf_app, qsumf_cons, IH. }
  rewrite Hfm, <- qsumf_plus. apply qsumf_ext. intros i Hi. apply in_seq in Hi. rewrite qsumf_app. f_equal.
  - rewrite qsumf_map, <- filter_seq_above by lia. rewrite qsumf_filter. apply qsumf_ext. intros j Hj. apply in_seq in Hj.
    destruct (Nat.ltb_spec i j) as [Hlt|]; [|reflexivity]. rewrite HF by lia. destruct (Nat.eqb_spec i j); [lia|].
    unfold positive. cbn [snd]. destruct (qltb 0 (- entry m i j)) eqn:E; [reflexivity|].
    apply qltb_false in E. pose proof (Hoff i j ltac:(lia) ltac:(lia) ltac:(lia)) as H.
    assert (X : entry m i j = 0). { apply Qcle_antisym; [exact H|]. clear -E. qclra. }
    rewrite X. ring.
  - destruct (Nat.ltb_spec 0 i) as [Hlt|]; [|reflexivity]. rewrite qsumf_cons, qsumf_nil.
    unfold positive. cbn [snd]. rewrite HF by lia. rewrite Nat.eqb_refl.
    destruct (qltb 0 (row_sum n m i)) eqn:E; [ring|]. apply qltb_false in E.
    assert (X : row_sum n m i = 0) by (apply Qcle_antisym; [exact E|apply Hrow; lia]). rewrite X. ring.
Qed.
Lemma cells_charge V p : symmetric n m -> (0 < p < n)%nat -> V (axis_id 0) = 0 ->
  charge (map (cell_device nets) (filter positive (cap_cells n m))) V (axis_id p) =
  qsumf (fun j => entry m p j * V (axis_id j)) (seq 0 n).
Proof.
  intros Hsym Hp HV. unfold charge. rewrite qsumf_map.
  set (W := fun i => V (axis_id i)).
  set (K := fun x y => (if Nat.eqb x p then W p - W y else 0) + (if Nat.eqb y p then W p - W x else 0)).
  rewrite (cells_sum K).
  2:{ intros i j v Hi Hj. unfold cell_device, capacitance, dgetd, terminal. cbn. unfold end1, end2. cbn [fst snd].
      fold (axis_id i). fold (axis_id (if Nat.eqb i j then 0%nat else j)).
      rewrite !axis_id_eqb by (try destruct (Nat.eqb i j); lia). reflexivity. }
  assert (Hsing : forall f, qsumf (fun i => if Nat.eqb i p then f i else 0) (seq 0 n) = f p).
  { intros f. rewrite (@qsumf_single nat _ (fun i => if Nat.eqb i p then f i else 0) (seq 0 n) p).
    - now rewrite Nat.eqb_refl.
    - apply seq_NoDup.
    - apply in_seq. lia.
    - intros x _ Hx. apply Nat.eqb_neq in Hx. now rewrite Hx. }
  (* the diagonal cells *)
  rewrite (qsumf_ext (fun i => if Nat.ltb 0 i then row_sum n m i * K i 0%nat else 0)
                     (fun i => if Nat.eqb i p then row_sum n m i * W p else 0)).
  2:{ intros i Hi. unfold K. destruct (Nat.eqb_spec 0 p); [lia|]. change (W 0%nat) with (V (axis_id 0)). rewrite HV.
      destruct (Nat.eqb_spec i p) as [->|]; [destruct (Nat.ltb_spec 0 p); [ring|lia]|]. destruct (Nat.ltb 0 i); ring. }
  rewrite (Hsing (fun i => row_sum n m i * W p)).
  (* the couplings *)
  rewrite (qsumf_ext (fun i => qsumf (fun j => if Nat.ltb i j then - entry m i j * K i j else 0) (seq 0 n))
    (fun i => (if Nat.eqb i p then qsumf (fun j => if Nat.ltb p j then - entry m p j * (W p - W j) else 0) (seq 0 n) else 0) +
              (if Nat.ltb i p then - entry m i p * (W p - W i) else 0))).
  2:{ intros i Hi.
      rewrite (qsumf_ext (fun j => if Nat.ltb i j then - entry m i j * K i j else 0)
        (fun j => (if Nat.ltb i j then - entry m i j * (if Nat.eqb i p then W p - W j else 0) else 0) +
                  (if Nat.eqb j p then if Nat.ltb i j then - entry m i j * (W p - W i) else 0 else 0))).
      2:{ intros j Hj. unfold K. destruct (Nat.ltb i j), (Nat.eqb j p); ring. }
      rewrite qsumf_plus, (Hsing (fun j => if Nat.ltb i j then - entry m i j * (W p - W i) else 0)). f_equal.
      destruct (Nat.eqb_spec i p) as [->|]; [reflexivity|]. apply qsumf_zero. intros j _. destruct (Nat.ltb i j); ring. }
  rewrite qsumf_plus.
  rewrite (Hsing (fun _ => qsumf (fun j => if Nat.ltb p j then - entry m p j * (W p - W j) else 0) (seq 0 n))).
  unfold row_sum. rewrite <- qsumf_plus. rewrite (Qcmult_comm (qsumf (entry m p) (seq 0 n)) (W p)), <- qsumf_scal, <- qsumf_plus. apply qsumf_ext.
  intros j Hj. apply in_seq in Hj. fold (W j).
  destruct (Nat.ltb_spec p j), (Nat.ltb_spec j p); try lia.
  - ring.
  - rewrite (Hsym j p) by lia. ring.
  - replace j with p by lia. ring.
Qed.
Lemma cells_between p q : (p < q < n)%nat ->
  between (map (cell_device nets) (filter positive (cap_cells n m))) (axis_id p) (axis_id q) =
  - entry m p q + (if Nat.eqb p 0 then row_sum n m q else 0).
Proof.
  intros Hp. unfold between. rewrite qsumf_map.
  set (K := fun x y => if (Nat.eqb x p && Nat.eqb y q) || (Nat.eqb x q && Nat.eqb y p) then 1 else 0).
  rewrite (cells_sum K).
  2:{ intros i j v Hi Hj. unfold cell_device, capacitance, dgetd, terminal. cbn. unfold end1, end2. cbn [fst snd].
      fold (axis_id i). fold (axis_id (if Nat.eqb i j then 0%nat else j)).
      rewrite !axis_id_eqb by (try destruct (Nat.eqb i j); lia). unfold K. destruct (_ || _); ring. }
  f_equal.
  - rewrite (@qsumf_single nat _ _ (seq 0 n) p); [|apply seq_NoDup|apply in_seq; lia|].
    2:{ intros i Hi Hne. apply in_seq in Hi. apply qsumf_zero. intros j Hj. unfold K.
        destruct (Nat.ltb_spec i j); [|reflexivity]. destruct (Nat.eqb_spec i p); [lia|]. cbn [andb orb].
        destruct (Nat.eqb_spec i q), (Nat.eqb_spec j p); cbn [andb]; try ring. lia. }
    rewrite (@qsumf_single nat _ _ (seq 0 n) q); [|apply seq_NoDup|apply in_seq; lia|].
    2:{ intros j Hj Hne. unfold K. destruct (Nat.ltb_spec p j); [|reflexivity].
        destruct (Nat.eqb_spec j q); [lia|]. rewrite Bool.andb_false_r.
        destruct (Nat.eqb_spec p q); [lia|]. cbn [orb andb]. ring. }
    unfold K. destruct (Nat.ltb_spec p q); [|lia]. rewrite !Nat.eqb_refl. cbn [orb andb]. ring.
  - destruct (Nat.eqb_spec p 0) as [->|Hp0].
    + rewrite (@qsumf_single nat _ _ (seq 0 n) q); [|apply seq_NoDup|apply in_seq; lia|].
      2:{ intros i Hi Hne. unfold K. destruct (Nat.ltb_spec 0 i); [|reflexivity].
          destruct (Nat.eqb_spec i q); [lia|]. destruct (Nat.eqb_spec i 0); [lia|]. cbn [orb andb]. ring. }
      unfold K. destruct (Nat.ltb_spec 0 q); [|lia]. rewrite !Nat.eqb_refl. cbn [andb]. rewrite Bool.orb_true_r. ring.
    + apply qsumf_zero. intros i Hi. unfold K. destruct (Nat.eqb_spec 0 q); [lia|]. destruct (Nat.eqb_spec 0 p); [lia|].
      rewrite !Bool.andb_false_r. cbn [orb andb]. destruct (Nat.ltb 0 i); ring.
Qed.
End Sums24.

Lemma charge_app a b V x : charge (a ++ b) V x = charge a V x + charge b V x.
Proof. apply qsumf_app. Qed.
Lemma between_app a b x y : between (a ++ b) x y = between a x y + between b x y.
Proof. apply qsumf_app. Qed.
Lemma charge_no_caps l V x : Forall (fun d => is_capacitor (d_class d) = false) l -> charge l V x = 0.
Proof. intros H. apply qsumf_zero. intros d Hd. rewrite Forall_forall in H. now rewrite (H d Hd). Qed.
Lemma between_no_caps l x y : Forall (fun d => is_capacitor (d_class d) = false) l -> between l x y = 0.
Proof. intros H. apply qsumf_zero. intros d Hd. rewrite Forall_forall in H. now rewrite (H d Hd). Qed.

(** the expanded netlist has, at every potential with axis 0 at zero, the charges Q = M V on the
    axes above 0, on top of the charges on the kept devices; likewise per pair of nets *)
Theorem C24_realises_matrix : forall nl top pre c post m bb n,
  circuits nl = pre ++ c :: post -> c_name c = top -> ~ In top (map c_name pre) ->
  square n m -> symmetric n m ->
  (forall i j, (i < n)%nat -> (j < n)%nat -> i <> j -> entry m i j <= 0) ->
  (forall i, (0 < i < n)%nat -> 0 <= row_sum n m i) ->
  exists fc vs, n_name fc = "FC_GND"%string /\ n_name vs = "VSUBS"%string /\
    NoDup (n_id fc :: n_id vs :: []) /\ ~ In (n_id fc) (map n_id (c_nets c)) /\ ~ In (n_id vs) (map n_id (c_nets c)) /\
  forall nets, axes (c_nets c ++ [fc; vs]) m nets -> NoDup (map n_id nets) ->
  exists nl' c', fc_expand nl top m bb = Some nl' /\ circuits nl' = pre ++ c' :: post /\
    c_name c' = top /\ incl (c_nets c ++ [fc; vs]) (c_nets c') /\
    let kept := if bb then c_devices c else [] in
    let id i := n_id (nth i nets (KNet 0 "")) in
    (forall V, V (id 0%nat) = 0 -> forall i, (0 < i < n)%nat ->
       charge (c_devices c') V (id i) = charge kept V (id i) + qsumf (fun j => entry m i j * V (id j)) (seq 0 n)) /\
    (forall i j, (0 < i < j)%nat -> (j < n)%nat ->
       between (c_devices c') (id i) (id j) = between kept (id i) (id j) - entry m i j) /\
    (forall j, (0 < j < n)%nat ->
       between (c_devices c') (id 0%nat) (id j) = between kept (id 0%nat) (id j) + (row_sum n m j - entry m 0 j)).
Proof.
  intros nl top pre c post m bb n Hc Htop Hpre Hsq Hsym Hoff Hrow.
  destruct (C25_expansion_exact nl top pre c post m bb n Hc Htop Hpre Hsq) as (fc & vs & Hfn & Hvn & Hid & Hfi & Hvi & _ & H).
  exists fc, vs. split; [exact Hfn|]. split; [exact Hvn|]. split; [exact Hid|]. split; [exact Hfi|]. split; [exact Hvi|]. intros nets Hax Hnd. specialize (H nets Hax).
  assert (Hlen : List.length nets = n). { pose proof (Forall2_len _ _ _ Hax). destruct Hsq as (Hnames & _). lia. }
  destruct (fc_expand nl top m bb) as [nl'|] eqn:E.
  2:{ exfalso. destruct H as (a & Ha & _ & He). apply in_flat_map in Ha. destruct Ha as (i & Hi & Ha). apply in_seq in Hi.
      apply in_app_iff in Ha. destruct Ha as [Ha|Ha].
      - apply in_map_iff in Ha. destruct Ha as (j & <- & Hj). apply in_seq in Hj. unfold end1, end2 in He. cbn [fst snd] in He.
        destruct (Nat.eqb_spec i j); [lia|]. apply (axis_id_inj n nets Hlen Hnd) in He; lia.
      - destruct (Nat.ltb_spec 0 i); [|easy]. destruct Ha as [<-|[]]. unfold end1, end2 in He. cbn [fst snd] in He.
        rewrite Nat.eqb_refl in He. apply (axis_id_inj n nets Hlen Hnd) in He; lia. }
  destruct H as (_ & _ & c' & gnd & Hc' & Hn' & Hg & Hd). exists nl', c'. split; [reflexivity|]. split; [exact Hc'|]. split; [exact Hn'|].
  split. { destruct Hg as [[_ ->]|(_ & _ & _ & ->)]; [apply incl_refl|]. intros x Hx. rewrite in_app_iff in *. cbn [In] in *. tauto. }
  cbn zeta.
  split; [|split].
  - intros V HV i Hi. rewrite Hd, !charge_app. rewrite (charge_no_caps [_; _]) by repeat constructor.
    pose proof (cells_charge n m nets Hlen Hnd Hoff Hrow V i Hsym Hi HV) as X. unfold axis_id in X. rewrite X. ring.
  - intros i j Hi Hj. rewrite Hd, !between_app. rewrite (between_no_caps [_; _]) by repeat constructor.
    pose proof (cells_between n m nets Hlen Hnd Hoff Hrow i j ltac:(lia)) as X. unfold axis_id in X. rewrite X.
    destruct (Nat.eqb_spec i 0); [lia|]. ring.
  - intros j Hj. rewrite Hd, !between_app. rewrite (between_no_caps [_; _]) by repeat constructor.
    pose proof (cells_between n m nets Hlen Hnd Hoff Hrow 0%nat j ltac:(lia)) as X. unfold axis_id in X. rewrite X.
    cbn [Nat.eqb]. ring.
Qed.

(** a layout with nets A, B and a matrix with axes VSUBS, A, B *)
Definition fx_circuit : circuit := Circuit "TOP" [KNet 1 "A"; KNet 2 "B"] [Device "C1" CCapacitor [("A"%string, 1%nat); ("B"%string, 2%nat)] [("C"%string, 1)]].
Definition fx_nl : netlist := Netlist [fx_circuit] [].
Definition fx_matrix : cap_matrix := CapMatrix ["g1_VSUBS"; "g2_A"; "g3_B"]%string
  [[Q2Qc 9; Q2Qc (-4); Q2Qc (-2)]; [Q2Qc (-4); Q2Qc 8; Q2Qc (-3)]; [Q2Qc (-2); Q2Qc (-3); Q2Qc 5]].
Example C24_example : square 3 fx_matrix /\ symmetric 3 fx_matrix /\
  (forall i j, (i < 3)%nat -> (j < 3)%nat -> i <> j -> entry fx_matrix i j <= 0) /\
  (forall i, (0 < i < 3)%nat -> 0 <= row_sum 3 fx_matrix i) /\
  axes (c_nets fx_circuit ++ [KNet 3 "FC_GND"; KNet 4 "VSUBS"]) fx_matrix [KNet 4 "VSUBS"; KNet 1 "A"; KNet 2 "B"] /\
  exists nl', fc_expand fx_nl "TOP" fx_matrix true = Some nl' /\
    map (fun c => map d_name (c_devices c)) (circuits nl') =
    [["C1"; "Cext_0_1"; "Cext_0_2"; "Cext_1_2"; "Cext_1_1"; "Rext_FC_GND_GND"; "Rext_VSUBS_GND"]]%string.
Proof.
  split; [repeat constructor|]. split.
  { intros [|[|[|i]]] [|[|[|j]]] Hi Hj; try lia; reflexivity. }
  split.
  { intros [|[|[|i]]] [|[|[|j]]] Hi Hj Hn; try lia; try congruence; apply qleb_true; vm_compute; reflexivity. }
  split.
  { intros [|[|[|i]]] Hi; try lia; apply qleb_true; vm_compute; reflexivity. }
  split.
  { repeat constructor.
    - exists "VSUBS"%string. split; [exists "1"%string; repeat split; discriminate|].
      exists [KNet 1 "A"; KNet 2 "B"; KNet 3 "FC_GND"], []. repeat split; easy.
    - exists "A"%string. split; [exists "2"%string; repeat split; discriminate|].
      exists [], [KNet 2 "B"; KNet 3 "FC_GND"; KNet 4 "VSUBS"]. repeat split. cbn. intuition discriminate.
    - exists "B"%string. split; [exists "3"%string; repeat split; discriminate|].
      exists [KNet 1 "A"], [KNet 3 "FC_GND"; KNet 4 "VSUBS"]. repeat split. cbn. intuition discriminate. }
  eexists. split; [reflexivity|]. vm_compute. reflexivity.
Qed.
(** the exception case of C25 is reachable: two axes that name the same net *)
Example C25_example_same_net :
  fc_expand fx_nl "TOP" (CapMatrix ["g1_VSUBS"; "g2_A"; "g3_A"]%string (rows fx_matrix)) false = None.
Proof. vm_compute. reflexivity. Qed.

(** ** C59: a net of the layout that is already called VSUBS *)
(** axis names other than the two created ones mean the layout's nets *)
Theorem C59_axes_name_layout_nets_partial : forall l fc vs s x,
  n_name fc = "FC_GND"%string -> n_name vs = "VSUBS"%string -> s <> "FC_GND"%string -> s <> "VSUBS"%string ->
  last_named (l ++ [fc; vs]) s x -> In x l /\ last_named l s x.
Proof.
  intros l fc vs s x Hf Hv H1 H2 H.
  assert (E : find (fun n => eqb (n_name n) s) (rev (l ++ [fc; vs])) = Some x) by now apply find_rev_last.
  rewrite rev_app_distr in E. cbn [rev app find] in E. rewrite Hf, Hv in E.
  rewrite (proj2 (eqb_false "VSUBS"%string s)), (proj2 (eqb_false "FC_GND"%string s)) in E by congruence.
  split; [|now apply find_last_named]. apply find_some in E. now apply in_rev.
Qed.
Definition fx_nl_vsubs : netlist := Netlist [Circuit "TOP" [KNet 1 "A"; KNet 2 "VSUBS"] []] [].
Definition fx_matrix2 : cap_matrix := CapMatrix ["g1_VSUBS"; "g2_A"]%string [[Q2Qc 4; Q2Qc (-4)]; [Q2Qc (-4); Q2Qc 8]].
(** a layout whose own substrate net is called VSUBS: the expansion succeeds, a second VSUBS net
    exists, and no capacitor is connected to the layout's VSUBS net *)
Theorem C59_existing_vsubs_refuted : exists nl' c',
  fc_expand fx_nl_vsubs "TOP" fx_matrix2 true = Some nl' /\ circuits nl' = [c'] /\
  In (KNet 2 "VSUBS") (c_nets c') /\ List.length (filter (fun n => eqb (n_name n) "VSUBS"%string) (c_nets c')) = 2%nat /\
  List.length (filter (fun d => is_capacitor (d_class d)) (c_devices c')) = 2%nat /\
  Forall (fun d => terminal d "A" <> 2%nat /\ terminal d "B" <> 2%nat) (c_devices c').
Proof.
  eexists. eexists. split; [reflexivity|]. split; [reflexivity|]. split; [right; left; reflexivity|].
  split; [vm_compute; reflexivity|]. split; [vm_compute; reflexivity|].
  apply Forall_forall. intros d Hd.
  assert (X : forallb (fun d => negb (Nat.eqb (terminal d "A") 2) && negb (Nat.eqb (terminal d "B") 2))
    (match fc_expand fx_nl_vsubs "TOP" fx_matrix2 true with Some nl' => flat_map c_devices (circuits nl') | None => [] end) = true)
    by (vm_compute; reflexivity).
  rewrite forallb_forall in X. specialize (X d).
  assert (Hin : In d (match fc_expand fx_nl_vsubs "TOP" fx_matrix2 true with Some nl' => flat_map c_devices (circuits nl') | None => [] end)).
  { cbn [fc_expand]. cbn. cbn in Hd. exact Hd. }
  apply X in Hin. apply andb_prop in Hin. destruct Hin as [A B]. apply Bool.negb_true_iff in A, B.
  apply Nat.eqb_neq in A, B. auto.
Qed.

(** ** C26 *)
(** reduction keeps everything except the capacitors of the top circuit below the threshold *)
Theorem C26_reduce_exact : forall combine nl top thr pre c post,
  circuits (combine nl) = pre ++ c :: post -> c_name c = top -> ~ In top (map c_name pre) ->
  exists c', reduce combine nl top thr = Some (Netlist (pre ++ c' :: post) (classes (combine nl))) /\
    c_name c' = c_name c /\ c_nets c' = c_nets c /\
    (exists keep, c_devices c' = filter keep (c_devices c) /\
      forall d, keep d = false <-> (d_class d = CCapacitor \/ d_class d = CCapacitorWithBulk) /\ capacitance d < thr).
Proof.
  intros combine nl top thr pre c post Hc Ht Hp. unfold reduce. rewrite Hc, on_circuit_split by auto.
  eexists. split; [reflexivity|]. split; [reflexivity|]. split; [reflexivity|].
  exists (fun d => negb (to_remove thr d)). split; [reflexivity|]. intros d. rewrite Bool.negb_false_iff. unfold to_remove, c_value, capacitance. split.
  - intros H. apply andb_prop in H. destruct H as [H1 H2]. apply qltb_true in H2. split; [|exact H2].
    destruct (d_class d); try discriminate; auto.
  - intros [Hcl Hlt]. apply qltb_true in Hlt. rewrite Hlt. destruct Hcl as [-> | ->]; reflexivity.
Qed.
(** reducing again changes nothing, when combining devices of the reduced netlist changes nothing *)
Theorem C26_reduce_idempotent : forall combine nl top thr nl',
  reduce combine nl top thr = Some nl' -> combine nl' = nl' -> reduce combine nl' top thr = Some nl'.
Proof.
  intros combine nl top thr nl' H Hc. unfold reduce in *. rewrite Hc.
  set (f := fun c => Some (Circuit (c_name c) (c_nets c) (filter (fun d => negb (to_remove thr d)) (c_devices c)))) in *.
  assert (G : forall l l', on_circuit f top l = Some l' -> on_circuit f top l' = Some l').
  { induction l as [|x l IH]; intros l' Hl; [discriminate|]. cbn [on_circuit] in Hl.
    destruct (eqb (c_name x) top) eqn:E.
    - cbn [f] in Hl. injection Hl as <-. cbn [on_circuit c_name]. rewrite E. unfold f. cbn [c_name c_nets c_devices].
      do 3 f_equal. induction (c_devices x) as [|d ds IHd]; [reflexivity|]. cbn [filter].
      destruct (negb (to_remove thr d)) eqn:Ed; [cbn [filter]; rewrite Ed; now f_equal|exact IHd].
    - destruct (on_circuit f top l) as [l1|] eqn:El; [|discriminate]. injection Hl as <-. cbn [on_circuit]. rewrite E.
      now rewrite (IH l1 eq_refl). }
  destruct (on_circuit f top (circuits (combine nl))) as [cs|] eqn:E; [|discriminate]. injection H as <-.
  cbn [circuits classes]. now rewrite (G _ _ E).
Qed.
Example C26_example : exists nl', reduce (fun n => n)
    (Netlist [Circuit "TOP" [] [Device "C1" CCapacitor [] [("C"%string, 1)]; Device "C2" CCapacitor [] [("C"%string, Q2Qc (1#2))];
                                Device "R1" CResistor [] [("R"%string, 0)]]] []) "TOP" 1 = Some nl' /\
  map (fun c => map d_name (c_devices c)) (circuits nl') = [["C1"; "R1"]]%string.
Proof. eexists. split; [reflexivity|]. vm_compute. reflexivity. Qed.
Print Assumptions C24_realises_matrix.
Print Assumptions C25_expansion_exact.
Print Assumptions C25_no_invented_capacitor.
Print Assumptions C59_axes_name_layout_nets_partial.
Print Assumptions C59_existing_vsubs_refuted.
Print Assumptions C26_reduce_exact.
Print Assumptions C26_reduce_idempotent.
