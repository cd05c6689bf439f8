(** C113: the netlists of the field solver engines are those of the last matrix of the log. *)
From Coq Require Import String Ascii ZArith Lia Lqa.
From Verif Require Import PyBase QcLra PyLib PyStr ER_Model NX_Model CM_Model CM_Props LG_Model LG_Spec LG_Props FX_Model FX_Spec FX_Proofs FX_Props FE_Model FE_Spec.
Local Open Scope Qc_scope.

(** combining devices leaves all circuits *)
Definition keeps_circuits (combine : netlist -> netlist) : Prop := forall nl, map c_name (circuits (combine nl)) = map c_name (circuits nl).

Lemma nth_map_d {A B} (f : A -> B) l i d d' : f d = d' -> nth i (map f l) d' = f (nth i l d).
Proof. intros <-. apply map_nth. Qed.
Lemma printed_entry (rs : printed) i j : entry (CapMatrix (map fst rs) (map (fun r => map micro (snd r)) rs)) i j = micro (value rs i j).
Proof.
  unfold entry, value. cbn [rows]. rewrite (nth_map_d (fun r => map micro (snd r)) rs i (EmptyString, []) []) by reflexivity.
  apply nth_map_d. unfold micro, Qcdiv. ring.
Qed.
Lemma split_circuit top : forall l, In top (map c_name l) -> exists pre c post, l = pre ++ c :: post /\ c_name c = top /\ ~ In top (map c_name pre).
Proof.
  induction l as [|x l IH]; intros I; [destruct I|]. destruct (string_dec (c_name x) top) as [E|N].
  - exists [], x, l. split; [reflexivity|]. split; [exact E|intros []].
  - destruct I as [I|I]; [congruence|]. destruct (IH I) as (pre & c & post & -> & E & M). exists (x :: pre), c, post. split; [reflexivity|].
    split; [exact E|]. intros [C|C]; auto.
Qed.

Lemma some_last s : forall l, In s (map n_name l) -> exists x, last_named l s x.
Proof.
  induction l as [|y l IH]; intros I; [destruct I|]. destruct (in_dec string_dec s (map n_name l)) as [J|N].
  - destruct (IH J) as (x & a & b & -> & E & M). exists x, (y :: a), b. auto.
  - destruct I as [E|I]; [|contradiction]. exists y, [], l. auto.
Qed.
Lemma nodup_app {A} (l l' : list A) : NoDup l -> NoDup l' -> (forall x, In x l -> In x l' -> False) -> NoDup (l ++ l').
Proof.
  induction 1 as [|x l N H IH]; intros H' D; [exact H'|]. cbn [app]. constructor.
  - rewrite in_app_iff. intros [C|C]; [contradiction|]. apply (D x); [left; reflexivity|exact C].
  - apply IH; [exact H'|]. intros y I. apply D. now right.
Qed.
Lemma id_inj l (x y : knet) : NoDup (map n_id l) -> In x l -> In y l -> n_id x = n_id y -> x = y.
Proof.
  induction l as [|z l IH]; intros N I J E; [destruct I|]. cbn [map] in N. inversion N as [|? ? M N']. subst.
  destruct I as [<-|I], J as [<-|J]; auto.
  - destruct M. rewrite E. now apply in_map.
  - destruct M. rewrite <- E. now apply in_map.
Qed.

Section C113.
Variables (parse_float : string -> option Qc) (combine : netlist -> netlist).

Lemma matrix_netlists_of nl top bb (rs : printed) names pre c post : circuits nl = pre ++ c :: post -> c_name c = top -> ~ In top (map c_name pre) ->
  keeps_circuits combine -> complete rs -> physical rs ->
  conductor_nets rs names -> NoDup names -> NoDup (map n_id (c_nets c)) ->
  Forall (fun s => s = "VSUBS"%string \/ In s (map n_name (c_nets c))) names ->
  exists ex red, matrix_netlists combine (Some (CapMatrix (map fst rs) (map (fun r => map micro (snd r)) rs))) nl top bb = Some (ex, red) /\
    has_matrix nl ex top bb rs names /\ without_small (combine ex) red top reducer_threshold.
Proof.
  intros Hc Ht Hp K Co [Ph1 Ph2] Cn Nn Ni Known. set (m := CapMatrix (map fst rs) (map (fun r => map micro (snd r)) rs)). set (n := List.length rs).
  assert (Sq : square n m).
  { split; [apply map_length|]. split; [apply map_length|]. cbn [rows m]. apply Forall_forall. intros x I. apply in_map_iff in I.
    destruct I as (r & <- & I). rewrite map_length. unfold complete in Co. rewrite Forall_forall in Co. now apply Co. }
  destruct (C22_average n m Sq) as (m' & E & Sq' & Nm & En).
  assert (Em : forall i j, (i < n)%nat -> (j < n)%nat -> entry m' i j = mean rs i j).
  { intros i j Hi Hj. rewrite En by assumption. unfold m. rewrite !printed_entry. unfold mean, micro, Qcdiv. ring. }
  assert (Er : forall i, (i < n)%nat -> row_sum n m' i = mean_sum rs i).
  { intros i Hi. unfold row_sum, mean_sum. fold n. apply qsumf_ext. intros j Hj. apply in_seq in Hj. apply Em; lia. }
  destruct (C24_realises_matrix nl top pre c post m' bb n Hc Ht Hp Sq') as (fc & vs & F & W & Ids & If & Iv & H).
  { now apply (C22_average_laws n m m' Sq). }
  { intros i j Hi Hj Hne. rewrite Em by assumption. now apply Ph1. }
  { intros i Hi. rewrite Er by lia. now apply Ph2. }
  set (l := c_nets c ++ [fc; vs]) in *.
  assert (Nl : NoDup (map n_id l)).
  { unfold l. rewrite map_app. apply nodup_app; [exact Ni|exact Ids|]. intros x I [<-|[<-|[]]]; contradiction. }
  assert (Nets : exists nets, Forall2 (last_named l) names nets).
  { clear - Known W. induction Known as [|s names [Hs|Hs] Known [nets IH]]; [now exists []| |].
    - destruct (some_last s l) as (x & X); [|exists (x :: nets); now constructor]. unfold l. rewrite map_app, in_app_iff. right. right. left. congruence.
    - destruct (some_last s l) as (x & X); [|exists (x :: nets); now constructor]. unfold l. rewrite map_app, in_app_iff. now left. }
  destruct Nets as [nets La].
  assert (Nd : NoDup (map n_id nets)).
  { clear - Nn La Nl. induction La as [|s x names nets X La IH]; [constructor|]. inversion Nn as [|? ? M N']. subst. cbn [map]. constructor; [|now apply IH].
    intros C. apply in_map_iff in C. destruct C as (y & Ey & Iy). apply M.
    destruct X as (a & b & El & Nx & _).
    assert (Y : exists s', In s' names /\ last_named l s' y).
    { clear - La Iy. induction La as [|s' z names nets Z La IH]; [destruct Iy|]. destruct Iy as [<-|Iy]; [exists s'; split; [now left|exact Z]|].
      destruct (IH Iy) as (t & T & T'). exists t. split; [now right|exact T']. }
    destruct Y as (s' & Is & (a' & b' & El' & Ny & _)).
    assert (y = x); [|congruence]. apply (id_inj l); [exact Nl| | |exact Ey]; [rewrite El'|rewrite El]; apply in_app_iff; right; now left. }
  destruct (H nets) as (ex & c' & Ex & Cx & Nx & Inc & Q1 & Q2 & Q3); [|exact Nd|].
  { unfold axes. rewrite Nm. unfold m. cbn [conductor_names]. clear - Cn La. revert nets La. induction Cn as [|r s rs names A Cn IH]; intros nets La; inversion La; subst; cbn [map]; constructor; eauto. }
  assert (I : In top (map c_name (circuits (combine ex)))).
  { rewrite K, Cx, map_app, in_app_iff. right. left. exact Nx. }
  destruct (split_circuit top _ I) as (pre1 & c1 & post1 & C1 & T1 & P1).
  destruct (C26_reduce_exact combine ex top reducer_threshold pre1 c1 post1 C1 T1 P1) as (c2 & R & _ & N2 & D2).
  exists ex. eexists. unfold matrix_netlists. rewrite E, Ex, R. split; [reflexivity|]. split.
  - exists pre, c, post, c', nets. split; [exact Hc|]. split; [exact Ht|]. split; [exact Hp|]. split; [exact Cx|]. split; [exact Nd|]. split.
    + clear - La Inc F W. induction La as [|s x names nets X La IH]; constructor; [|exact IH]. pose proof X as (a & b & El & Ns & _). split; [exact Ns|]. split.
      * apply Inc. rewrite El. apply in_app_iff. right. now left.
      * intros S1 S2. now apply (C59_axes_name_layout_nets_partial (c_nets c) fc vs s x F W S2 S1).
    + cbn zeta. fold n. split; [|split].
      * intros V HV i Hi. rewrite (Q1 V HV i Hi). f_equal. apply qsumf_ext. intros j Hj. apply in_seq in Hj. now rewrite Em by lia.
      * intros i j Hi Hj. rewrite (Q2 i j Hi Hj). now rewrite Em by lia.
      * intros j Hj. rewrite (Q3 j Hj), Em, Er by lia. reflexivity.
  - exists pre1, c1, post1, c2. split; [exact C1|]. split; [exact T1|]. split; [exact P1|]. split; [reflexivity|]. split; [exact N2|exact D2].
Qed.

(** A FasterCap run whose log ends in a complete and physical matrix of conductors of different
    nets of the layout (or the substrate): the expanded netlist realises the mean of the matrix and
    its transpose, and the reduced one is that without the capacitors below 0.05 fF. *)
Theorem C113_fastercap : forall text lpre hdr dl rowlines lpost rs names nl top bb pre c post,
  readlines text = (lpre ++ hdr :: dl :: rowlines ++ lpost)%list ->
  matrix_header hdr -> says_dimension dl (List.length rowlines) ->
  Forall2 (fastercap_row parse_float) rowlines rs ->
  Forall (fun l => ~ matrix_header l) (rowlines ++ lpost) ->
  complete rs -> physical rs -> conductor_nets rs names -> NoDup names ->
  circuits nl = pre ++ c :: post -> c_name c = top -> ~ In top (map c_name pre) -> NoDup (map n_id (c_nets c)) ->
  Forall (fun s => s = "VSUBS"%string \/ In s (map n_name (c_nets c))) names ->
  keeps_circuits combine ->
  exists ex red, fastercap_netlists parse_float combine text nl top bb = Some (ex, red) /\
    has_matrix nl ex top bb rs names /\ without_small (combine ex) red top (Q2Qc (1 # 20000000000000000)).
Proof.
  intros text lpre hdr dl rowlines lpost rs names nl top bb pre c post L1 L2 L3 L4 L5 Co Ph Cn Nn Hc Ht Hp Ni Known K.
  unfold fastercap_netlists. rewrite (C27_last_matrix_parsed parse_float text lpre hdr dl rowlines lpost rs L1 L2 L3 L4 L5).
  replace (Q2Qc (1 # 20000000000000000)) with reducer_threshold by (apply Qc_is_canon; reflexivity).
  now apply (matrix_netlists_of nl top bb rs names pre c post).
Qed.
(** The same of FastCap, when it calls its conductors g<number>_<net>. *)
Theorem C113_fastcap_partial : forall text lpre hdr dl cols rowlines lpost rs names nl top bb pre c post,
  readlines text = (lpre ++ hdr :: dl :: rowlines ++ lpost)%list ->
  fastcap_header hdr -> tokens_line dl cols -> List.length cols = List.length rowlines ->
  Forall2 (fastcap_row_text parse_float) rowlines rs ->
  Forall (fun l => ~ starts_fc l) (dl :: rowlines ++ lpost) ->
  complete rs -> physical rs -> conductor_nets rs names -> NoDup names ->
  circuits nl = pre ++ c :: post -> c_name c = top -> ~ In top (map c_name pre) -> NoDup (map n_id (c_nets c)) ->
  Forall (fun s => s = "VSUBS"%string \/ In s (map n_name (c_nets c))) names ->
  keeps_circuits combine ->
  exists ex red, fastcap_netlists parse_float combine text nl top bb = Some (ex, red) /\
    has_matrix nl ex top bb rs names /\ without_small (combine ex) red top (Q2Qc (1 # 20000000000000000)).
Proof.
  intros text lpre hdr dl cols rowlines lpost rs names nl top bb pre c post L1 L2 L3 L4 L5 L6 Co Ph Cn Nn Hc Ht Hp Ni Known K.
  unfold fastcap_netlists. rewrite (C60_last_fastcap_matrix_parsed parse_float text lpre hdr dl cols rowlines lpost rs L1 L2 L3 L4 L5 L6).
  replace (Q2Qc (1 # 20000000000000000)) with reducer_threshold by (apply Qc_is_canon; reflexivity).
  now apply (matrix_netlists_of nl top bb rs names pre c post).
Qed.

Lemma no_names m nl top bb : Exists (fun s => ~ exists r, s = String "g" r) (conductor_names m) -> matrix_netlists combine (Some m) nl top bb = None.
Proof.
  intros X. unfold matrix_netlists. destruct (averaged_off_diagonals m) as [m'|] eqn:E; [|reflexivity].
  assert (Nm : conductor_names m' = conductor_names m).
  { unfold averaged_off_diagonals in E. destruct (rows m); [injection E as <-; reflexivity|]. destruct (fold_left _ _ _); [|discriminate]. injection E as <-. reflexivity. }
  assert (F : forall c, fc_expand_circuit c m' bb = None).
  { intros c. unfold fc_expand_circuit. destruct (create_net _ _) as [c1 f]. destruct (create_net c1 _) as [c2 v]. rewrite Nm.
    replace (map_opt _ (conductor_names m)) with (@None (list knet)); [reflexivity|]. symmetry. clear - X. induction X as [s l N|s l X IH]; cbn [map_opt].
    - unfold axis_net, axis_net_name. destruct (drop_prefix "g" s) as [r|] eqn:D; [|reflexivity]. destruct N. exists r. apply drop_prefix_spec in D. exact D.
    - rewrite IH. now destruct (axis_net _ s). }
  unfold fc_expand. replace (on_circuit _ top (circuits nl)) with (@None (list circuit)); [reflexivity|]. symmetry.
  induction (circuits nl) as [|c l IH]; [reflexivity|]. cbn [on_circuit]. rewrite F, IH. now destruct (eqb _ _).
Qed.
(** Logs without a matrix, and matrices of other conductors, give no netlist. *)
Theorem C113_no_netlist : forall text nl top bb,
  (Forall (fun l => ~ matrix_header l) (readlines text) -> fastercap_netlists parse_float combine text nl top bb = None) /\
  (Forall (fun l => ~ starts_fc l) (readlines text) -> fastcap_netlists parse_float combine text nl top bb = None) /\
  (forall lpre hdr dl cols rowlines lpost rs,
    readlines text = (lpre ++ hdr :: dl :: rowlines ++ lpost)%list ->
    fastcap_header hdr -> tokens_line dl cols -> List.length cols = List.length rowlines ->
    Forall2 (fastcap_row_text parse_float) rowlines rs ->
    Forall (fun l => ~ starts_fc l) (dl :: rowlines ++ lpost) ->
    Exists (fun r => ~ exists s, fst r = String "g" s) rs ->
    fastcap_netlists parse_float combine text nl top bb = None).
Proof.
  intros text nl top bb. split; [|split].
  - intros H. unfold fastercap_netlists, fastercap_parse.
    assert (N : find_index is_header (rev (readlines text)) = None); [|now rewrite N].
    assert (F : Forall (fun l => is_header l = false) (rev (readlines text))).
    { rewrite Forall_forall in *. intros x I. apply in_rev in I. apply String.eqb_neq. exact (H x I). }
    induction F as [|x l Hx F IH]; [reflexivity|]. cbn. now rewrite Hx, IH.
  - intros H. unfold fastcap_netlists. rewrite C60_rejected; [reflexivity|now left].
  - intros lpre hdr dl cols rowlines lpost rs L1 L2 L3 L4 L5 L6 X. unfold fastcap_netlists.
    rewrite (C60_last_fastcap_matrix_parsed parse_float text lpre hdr dl cols rowlines lpost rs L1 L2 L3 L4 L5 L6). apply no_names. cbn [conductor_names].
    clear - X. induction X as [r l N|r l X IH]; cbn [map]; [now left|now right].
Qed.
End C113.
Print Assumptions C113_fastercap.
Print Assumptions C113_fastcap_partial.
Print Assumptions C113_no_netlist.

(** ** A concrete FasterCap run: substrate and nets A, B *)
Local Open Scope string_scope.
Definition sign_float (s : string) : option Qc :=
  match drop_prefix "-" s with Some r => option_map Qcopp (digit_float r) | None => digit_float s end.
Definition e_log : string :=
  "Running" ++ String nl ("Capacitance matrix is:" ++ String nl ("Dimension 3 x 3" ++ String nl
  ("g1_VSUBS  9 -3 -2 " ++ String nl ("g2_A  -1 8 -4 " ++ String nl ("g3_B  -2 -2 7 " ++ String nl ("done" ++ String nl "")))))).
Definition e_rows : printed := [("g1_VSUBS", [Q2Qc 9; Q2Qc (-3); Q2Qc (-2)]); ("g2_A", [Q2Qc (-1); Q2Qc 8; Q2Qc (-4)]); ("g3_B", [Q2Qc (-2); Q2Qc (-2); Q2Qc 7])]%list.
Definition e_nl : netlist := Netlist [Circuit "TOP" [KNet 1 "A"; KNet 2 "B"] []] [].
Lemma sign_row line name (w : string * string * string) v : line = "" ++ name ++ "  " ++ fst (fst w) ++ " " ++ snd (fst w) ++ " " ++ snd w ++ " " ++ String nl "" ->
  Forall token [name; fst (fst w); snd (fst w); snd w] ->
  numbers sign_float [fst (fst w); snd (fst w); snd w] v -> fastercap_row sign_float line (name, v).
Proof.
  intros -> T N. exists [fst (fst w); snd (fst w); snd w]. split; [|exact N].
  exists 0%nat, name, [(2%nat, fst (fst w)); (1%nat, snd (fst w)); (1%nat, snd w)], (" " ++ String nl ""). split; [reflexivity|]. split; [reflexivity|].
  split; [exact T|]. split; [repeat constructor|reflexivity].
Qed.
Example C113_case : exists lpre hdr dl rowlines lpost,
  readlines e_log = (lpre ++ hdr :: dl :: rowlines ++ lpost)%list /\ matrix_header hdr /\ says_dimension dl (List.length rowlines) /\
  Forall2 (fastercap_row sign_float) rowlines e_rows /\ Forall (fun l => ~ matrix_header l) (rowlines ++ lpost) /\
  complete e_rows /\ physical e_rows /\ conductor_nets e_rows ["VSUBS"; "A"; "B"] /\ NoDup ["VSUBS"; "A"; "B"] /\
  NoDup (map n_id [KNet 1 "A"; KNet 2 "B"]) /\ Forall (fun s => s = "VSUBS" \/ In s (map n_name [KNet 1 "A"; KNet 2 "B"])) ["VSUBS"; "A"; "B"] /\
  keeps_circuits (fun x => x) /\
  match fastercap_netlists sign_float (fun x => x) e_log e_nl "TOP" true with
  | Some (ex, red) => map (fun d => (d_name d, d_terms d)) (flat_map c_devices (circuits ex)) =
      [("Cext_0_1", [("A", 4); ("B", 1)]); ("Cext_0_2", [("A", 4); ("B", 2)]); ("Cext_1_2", [("A", 1); ("B", 2)]); ("Cext_1_1", [("A", 1); ("B", 4)]);
       ("Cext_2_2", [("A", 2); ("B", 4)]); ("Rext_FC_GND_GND", [("A", 3); ("B", 5)]); ("Rext_VSUBS_GND", [("A", 4); ("B", 5)])]%nat%list /\
      flat_map c_devices (circuits red) = flat_map c_devices (circuits ex)
  | None => False
  end.
Proof.
  eexists [_]%list, _, _, [_; _; _]%list, [_]%list. split; [vm_compute; reflexivity|]. split; [reflexivity|].
  split. { exists "3", "3", (String nl ""). repeat split; try discriminate. auto. }
  split.
  { constructor; [|constructor; [|constructor; [|constructor]]].
    - apply (sign_row _ _ ("9", "-3", "-2")); [reflexivity|repeat (constructor; [split; [discriminate|reflexivity]|]); constructor|repeat constructor].
    - apply (sign_row _ _ ("-1", "8", "-4")); [reflexivity|repeat (constructor; [split; [discriminate|reflexivity]|]); constructor|repeat constructor].
    - apply (sign_row _ _ ("-2", "-2", "7")); [reflexivity|repeat (constructor; [split; [discriminate|reflexivity]|]); constructor|repeat constructor]. }
  split. { repeat constructor; discriminate. }
  split. { repeat constructor. }
  split. { split.
    - intros [|[|[|i]]] [|[|[|j]]] Hi Hj Hn; cbn in Hi, Hj; try lia; try congruence; apply qleb_true; vm_compute; reflexivity.
    - intros [|[|[|i]]] Hi; cbn in Hi; try lia; apply qleb_true; vm_compute; reflexivity. }
  split. { repeat constructor; [exists "1"|exists "2"|exists "3"]; repeat split; discriminate. }
  split. { repeat constructor; cbn; intuition discriminate. }
  split. { repeat constructor; cbn; intuition discriminate. }
  split. { apply Forall_forall. intros x [<-|[<-|[<-|[]]]]; cbn; auto. }
  split. { intros x. reflexivity. }
  vm_compute. split; reflexivity.
Qed.

(** ** FastCap *)
(** The log shown in fastcap_runner.py L106-111: its conductors are called $1%GROUP2 and so on.
    Whatever the layout and the numbers, the run ends with an exception and no netlist. *)
Definition shown_log : string :=
  "CAPACITANCE MATRIX, picofarads" ++ String nl ("                    1          2          3          4" ++ String nl
  ("$1%GROUP2 1       7850      -7277      -2115      54.97" ++ String nl ("$1%GROUP2 2      -7277  3.778e+05      130.9 -3.682e+05" ++ String nl
  ("$2%GROUP3 3      -2115      130.9       6792      -5388" ++ String nl ("$2%GROUP3 4      54.97 -3.682e+05      -5388  3.753e+05" ++ String nl ""))))).
Theorem C113_fastcap_shown_log_refuted : forall parse_float combine nl top bb, fastcap_netlists parse_float combine shown_log nl top bb = None.
Proof.
  intros parse_float combine nl top bb. unfold fastcap_netlists. destruct (fastcap_parse parse_float shown_log) as [m|] eqn:E; [|reflexivity].
  apply no_names. cbv -[scaled] in E.
  repeat match type of E with context [scaled parse_float ?t] => destruct (scaled parse_float t); [|discriminate E] end.
  injection E as <-. left. intros [r C]. discriminate.
Qed.
Print Assumptions C113_fastcap_shown_log_refuted.
(** a FastCap log with conductors g1_VSUBS and g2_A meets C113_fastcap_partial *)
Definition f_log : string :=
  "CAPACITANCE MATRIX, picofarads" ++ String nl ("    1    2" ++ String nl ("g1_VSUBS 1  9 -3" ++ String nl ("g2_A 2  -1 8" ++ String nl ""))).
Definition f_rows : printed := [("g1_VSUBS", [Q2Qc 9; Q2Qc (-3)]); ("g2_A", [Q2Qc (-1); Q2Qc 8])]%list.
Example C113_fastcap_case : exists hdr dl rowlines,
  readlines f_log = ([] ++ hdr :: dl :: rowlines ++ [])%list /\ fastcap_header hdr /\ tokens_line dl ["1"; "2"] /\ List.length rowlines = 2%nat /\
  Forall2 (fastcap_row_text sign_float) rowlines f_rows /\ Forall (fun l => ~ starts_fc l) (dl :: rowlines ++ []) /\
  complete f_rows /\ physical f_rows /\ conductor_nets f_rows ["VSUBS"; "A"] /\
  match fastcap_netlists sign_float (fun x => x) f_log e_nl "TOP" true with
  | Some (ex, _) => map (fun d => (d_name d, d_terms d)) (flat_map c_devices (circuits ex)) =
      [("Cext_0_1", [("A", 4); ("B", 1)]); ("Cext_1_1", [("A", 1); ("B", 4)]); ("Rext_FC_GND_GND", [("A", 3); ("B", 5)]); ("Rext_VSUBS_GND", [("A", 4); ("B", 5)])]%nat%list
  | None => False
  end.
Proof.
  eexists _, _, [_; _]%list. split; [vm_compute; reflexivity|].
  split. { exists "p"%char, ("icofarads" ++ String nl ""), 15%nat. split; reflexivity. }
  split. { exists 4%nat, "1", [(4%nat, "2")]%list, (String nl ""). split; [reflexivity|]. split; [reflexivity|]. split; [|split; [|reflexivity]].
    - repeat (constructor; [split; [discriminate|reflexivity]|]). constructor.
    - repeat constructor. }
  split; [reflexivity|]. split.
  { constructor; [|constructor; [|constructor]].
    - exists 0%nat, "1", [(2%nat, "9"); (1%nat, "-3")]%list, (String nl ""). split; [reflexivity|]. split; [repeat (constructor; [split; [discriminate|reflexivity]|]); constructor|].
      split; [repeat constructor|]. split; [reflexivity|repeat constructor].
    - exists 0%nat, "2", [(2%nat, "-1"); (1%nat, "8")]%list, (String nl ""). split; [reflexivity|]. split; [repeat (constructor; [split; [discriminate|reflexivity]|]); constructor|].
      split; [repeat constructor|]. split; [reflexivity|repeat constructor]. }
  split. { repeat constructor; intros [r C]; discriminate C. }
  split. { repeat constructor. }
  split. { split.
    - intros [|[|i]] [|[|j]] Hi Hj Hn; cbn in Hi, Hj; try lia; try congruence; apply qleb_true; vm_compute; reflexivity.
    - intros [|[|i]] Hi; cbn in Hi; try lia; apply qleb_true; vm_compute; reflexivity. }
  split. { repeat constructor; [exists "1"|exists "2"]; repeat split; discriminate. }
  vm_compute. reflexivity.
Qed.
