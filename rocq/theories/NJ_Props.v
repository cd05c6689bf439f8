(** C50, C51, C79: the JSON netlist that netlistsvg draws. *)
From Coq Require Import String Lia.
From Verif Require Import PyBase PyLib NX_Model NJ_Model NJ_Spec NJ_Proofs.
Local Open Scope list_scope.

Fixpoint pos (a : string) (l : list string) : nat := match l with [] => 0%nat | b :: t => if eqb a b then 0%nat else S (pos a t) end.
Lemma pos_inj l a b : In a l -> In b l -> pos a l = pos b l -> a = b.
Proof.
  induction l as [|c l IH]; [intros []|]. intros A B. cbn [pos]. destruct (eqb a c) eqn:Ea, (eqb b c) eqn:Eb; try discriminate.
  - intros _. apply eqb_eq in Ea, Eb. congruence.
  - intros [= E]. destruct A as [A|A]; [subst; rewrite eqb_refl in Ea; discriminate|]. destruct B as [B|B]; [subst; rewrite eqb_refl in Eb; discriminate|]. auto.
Qed.

Lemma numbering w L : good w -> exists f, agrees f w /\ tells_apart f L.
Proof.
  intros [Lt Inj]. exists (fun a => match dget (id_for_net w) a with Some i => i | None => (next_id w + pos a L)%nat end). split.
  - intros a i H. now rewrite H.
  - intros a b Ia Ib. destruct (dget (id_for_net w) a) as [i|] eqn:A, (dget (id_for_net w) b) as [j|] eqn:B; intros E; subst.
    + eapply Inj; eassumption.
    + apply Lt in A. lia.
    + apply Lt in B. lia.
    + apply (pos_inj L); auto. lia.
Qed.

Lemma grounds_same f ls ls' : (forall a, In a ls <-> In a ls') -> grounds f ls = grounds f ls'.
Proof.
  intros E. unfold grounds. destruct (in_dec eq_dec "VSUBS"%string ls) as [a|a], (in_dec eq_dec "VSUBS"%string ls') as [b|b];
    try (exfalso; first [apply b, E, a|apply a, E, b]).
  all: destruct (in_dec eq_dec "GND"%string ls) as [c|c], (in_dec eq_dec "GND"%string ls') as [d|d];
    try (exfalso; first [apply d, E, c|apply c, E, d]); reflexivity.
Qed.

Lemma known_keys w a : known w a <-> In a (dkeys (id_for_net w)).
Proof.
  unfold known. split.
  - intros K. destruct (dget (id_for_net w) a) as [i|] eqn:D; [|congruence]. apply (dget_Some_key _ _ D).
  - intros I E. apply dget_None in E. contradiction.
Qed.

(** ** C50: one number per net name *)
(** One numbering serves all netlists that a writer produces, whatever it was called with before: it gives different names different
    numbers, and every port, every pin of an instance, every terminal of a device and every ground symbol carries the number of the name of its net. *)
Theorem C50_numbers : forall show3 cs, (forall c, In c cs -> pins_numbered c) ->
  exists f, tells_apart f (flat_map labels cs) /\
    forall pre c post m, cs = pre ++ c :: post -> nth_error (calls show3 cs new_writer) (List.length pre) = Some (Some m) ->
      exists ls, incl (labels c) ls /\ incl ls (flat_map labels pre ++ labels c) /\ shows show3 f ls c m.
Proof.
  intros show3 cs N. destruct (after_state show3 cs new_writer N good_new) as (G & _ & _).
  destruct (numbering _ (flat_map labels cs) G) as (f & Af & T). exists f. split; [exact T|]. intros pre c post m -> H.
  rewrite calls_nth in H. injection H as H.
  assert (Np : forall x, In x pre -> pins_numbered x) by (intros x I; apply N, in_or_app; now left).
  assert (Nc : pins_numbered c) by (apply N, in_or_app; right; now left).
  assert (Nq : forall x, In x post -> pins_numbered x) by (intros x I; apply N, in_or_app; right; now right).
  destruct (after_state show3 pre new_writer Np good_new) as (G1 & _ & K1).
  destruct (json_state show3 c _ Nc G1) as (G2 & _ & K2 & V). destruct (V m H) as [V1 V2].
  destruct (after_state show3 post _ Nq G2) as (_ & E3 & _).
  set (w2 := fst (netlist_json_dict show3 c (after show3 pre new_writer))) in *.
  assert (Af2 : agrees f w2). { apply (agrees_ext f w2 _ E3). rewrite after_app in Af. exact Af. }
  exists (dkeys (id_for_net w2)). split; [|split].
  - intros a I. apply known_keys, V1, I.
  - intros a I. apply known_keys in I. apply in_or_app. destruct (K2 a I) as [K|?]; [|now right]. destruct (K1 a K) as [K'|?]; [|now left].
    exfalso. apply K'. reflexivity.
  - rewrite (V2 f (dkeys (id_for_net w2)) Af2 (known_keys w2)). split; [reflexivity|]. split; intros k; cbn [m_ports m_cells]; rewrite dget_puts.
    + destruct (last_with k (map (port_entry f) (c_pins c))); reflexivity.
    + destruct (last_with k (entries show3 f (dkeys (id_for_net w2)) c)); reflexivity.
Qed.
Print Assumptions C50_numbers.

(** A fresh writer shows exactly the circuit. *)
Theorem C50_fresh : forall show3 c m, pins_numbered c -> snd (netlist_json_dict show3 c new_writer) = Some m ->
  exists f, tells_apart f (labels c) /\ shows show3 f (labels c) c m.
Proof.
  intros show3 c m N H. destruct (C50_numbers show3 [c]) as (f & T & S). { intros x [<-|[]]. exact N. }
  cbn [flat_map] in T. rewrite app_nil_r in T. exists f. split; [exact T|].
  destruct (S [] c [] m eq_refl) as (ls & I1 & I2 & A & B & C). { cbn [calls List.length nth_error]. now rewrite H. }
  cbn [flat_map app] in I2. split; [exact A|]. split; [exact B|]. intros k. rewrite C. unfold entries.
  rewrite (grounds_same f ls (labels c)); [reflexivity|]. intros a. split; [apply I2|apply I1].
Qed.
Print Assumptions C50_fresh.

(** Two places have the same number exactly if their nets have the same name. *)
Theorem C50_same : forall f ls a b, tells_apart f ls -> In (label a) ls -> In (label b) ls -> (num f (Some a) = num f (Some b) <-> label a = label b).
Proof. intros f ls a b T A B. cbn [num]. split; [apply T; assumption|]. now intros ->. Qed.
Print Assumptions C50_same.

(** Asking the same writer a second time for the same circuit gives the same dictionary, key order included. *)
Theorem C50_again : forall show3 c, pins_numbered c -> exists r, calls show3 [c; c] new_writer = [r; r].
Proof.
  intros show3 c N. exists (snd (netlist_json_dict show3 c new_writer)). cbn [calls].
  enough (X : snd (netlist_json_dict show3 c (fst (netlist_json_dict show3 c new_writer))) = snd (netlist_json_dict show3 c new_writer)) by (rewrite X; reflexivity).
  destruct (json_state show3 c new_writer N good_new) as (G1 & _ & K1 & V1).
  set (w1 := fst (netlist_json_dict show3 c new_writer)) in *.
  destruct (json_state show3 c w1 N G1) as (G2 & E2 & K2 & V2).
  destruct (snd (netlist_json_dict show3 c new_writer)) as [m|] eqn:S1.
  - destruct (snd (netlist_json_dict show3 c w1)) as [m2|] eqn:S2.
    2: { exfalso. apply (tot_json show3 c w1); [|exact S2]. apply (tot_json show3 c new_writer). rewrite S1. discriminate. }
    destruct (V1 m eq_refl) as [L1 F1]. destruct (V2 m2 eq_refl) as [L2 F2]. set (w2 := fst (netlist_json_dict show3 c w1)) in *.
    rewrite (F2 (final w2) (dkeys (id_for_net w2)) (agrees_final w2) (known_keys w2)).
    rewrite (F1 (final w2) (dkeys (id_for_net w2))); [reflexivity|exact (agrees_ext _ _ _ E2 (agrees_final w2))|].
    intros a. rewrite <- known_keys. split; [intros K; eapply known_ext; [exact E2|exact K]|]. intros K. destruct (K2 a K) as [?|I]; [assumption|apply L1, I].
  - destruct (snd (netlist_json_dict show3 c w1)) as [m2|] eqn:S2; [|reflexivity].
    exfalso. apply (tot_json show3 c new_writer); [|exact S1]. apply (tot_json show3 c w1). rewrite S2. discriminate.
Qed.
Print Assumptions C50_again.

(** Two different nets with the same name are drawn as one: two ports on different nets of a circuit get the same number. *)
Theorem C50_net_refuted : exists show3 c m n1 n2, snd (netlist_json_dict show3 c new_writer) = Some m /\ pins_numbered c /\
  In ("a"%string, Some n1) (c_pins c) /\ In ("b"%string, Some n2) (c_pins c) /\ n_no n1 <> n_no n2 /\
  dget (m_ports m) "a"%string = dget (m_ports m) "b"%string /\ dget (m_ports m) "a"%string <> None.
Proof.
  set (n1 := Net 1 "VDD" "VDD"). set (n2 := Net 2 "VDD" "VDD").
  exists (fun _ => ""%string), (Circuit "t" [("a"%string, Some n1); ("b"%string, Some n2)] [] []), (Module "t" [("a"%string, 0%nat); ("b"%string, 0%nat)] []), n1, n2.
  split; [reflexivity|]. split; [intros s []|]. split; [now left|]. split; [right; now left|]. split; [discriminate|]. split; [reflexivity|discriminate].
Qed.
Print Assumptions C50_net_refuted.

(** ** C51: what is drawn *)
(** Whatever the writer did before, a circuit is refused exactly if a pin or terminal is open or a device is neither a capacitor nor a resistor. *)
Theorem C51_accepted : forall show3 cs w pre c post r, cs = pre ++ c :: post ->
  nth_error (calls show3 cs w) (List.length pre) = Some r -> (r <> None <-> drawable c).
Proof. intros show3 cs w pre c post r -> H. rewrite calls_nth in H. injection H as <-. apply tot_json. Qed.
Print Assumptions C51_accepted.

(** If no two components ask for the same key, every component is drawn and nothing else is. *)
Theorem C51_all_partial : forall show3 f ls c m, shows show3 f ls c m -> NoDup (map fst (entries show3 f ls c)) ->
  forall k e, dget (m_cells m) k = Some e <-> In (k, e) (entries show3 f ls c).
Proof. intros show3 f ls c m (_ & _ & S) N k e. rewrite S. split; [apply last_with_In|apply last_with_NoDup, N]. Qed.
Print Assumptions C51_all_partial.
Theorem C51_ports_partial : forall show3 f ls c m, shows show3 f ls c m -> NoDup (map fst (c_pins c)) ->
  forall k i, dget (m_ports m) k = Some i <-> exists n, In (k, n) (c_pins c) /\ i = num f n.
Proof.
  intros show3 f ls c m (_ & S & _) N k i. rewrite S. split.
  - intros H. apply last_with_In, in_map_iff in H as ([k' n] & E & I). injection E as -> <-. exists n. auto.
  - intros (n & I & ->). apply last_with_NoDup; [rewrite map_map; exact N|]. apply in_map_iff. exists (k, n). auto.
Qed.
Print Assumptions C51_ports_partial.

(** Without that: of two instances of the same circuit only the last is drawn. *)
Theorem C51_twice_refuted : exists show3 c m s1 s2, snd (netlist_json_dict show3 c new_writer) = Some m /\ pins_numbered c /\ drawable c /\
  c_subs c = [s1; s2] /\ i_pins s1 <> i_pins s2 /\ c_devs c = [] /\ List.length (m_cells m) = 1%nat.
Proof.
  set (n k s := Some (Net k s s)). set (s1 := Instance "inv" 3 [(0%nat, n 1%nat "a"%string)]). set (s2 := Instance "inv" 3 [(0%nat, n 2%nat "b"%string)]).
  set (c := Circuit "t" [] [s1; s2] []).
  exists (fun _ => ""%string), c, (Module "t" [] [("inv3"%string, Cell (Some 1%nat) "$inv" (Some [("0=b"%string, "input"%string)]) [("0=b"%string, 1%nat)] None)]), s1, s2.
  split; [reflexivity|]. split. { intros s [<-|[<-|[]]]; (constructor; [intros []|constructor]). }
  split. { split; [|intros d []]. intros o [<-|[<-|[]]]; discriminate. }
  split; [reflexivity|]. split; [discriminate|]. split; reflexivity.
Qed.
Print Assumptions C51_twice_refuted.

(** A capacitor can hide an instance of another circuit: both have the key "C1". *)
Theorem C51_clash_refuted : exists show3 c m s d, snd (netlist_json_dict show3 c new_writer) = Some m /\ pins_numbered c /\ drawable c /\
  c_subs c = [s] /\ c_devs c = [d] /\ map (fun e => j_type (snd e)) (m_cells m) = ["c_v"%string].
Proof.
  set (n k s := Some (Net k s s)). set (s := Instance "C" 1 [(0%nat, n 1%nat "a"%string)]). set (d := Device Capacitor "1" (n 1%nat "a"%string) (n 2%nat "b"%string) 1%Qc).
  set (c := Circuit "t" [] [s] [d]).
  exists (fun _ => "x"%string), c, (Module "t" [] [("C1"%string, Cell None "c_v" None [("A"%string, 0%nat); ("B"%string, 1%nat)] (Some "xf"%string))]), s, d.
  split; [reflexivity|]. split. { intros x [<-|[]]; (constructor; [intros []|constructor]). }
  split. { split; [|intros x [<-|[]]; discriminate]. intros o [<-|[<-|[<-|[]]]]; discriminate. }
  split; [reflexivity|]. split; reflexivity.
Qed.
Print Assumptions C51_clash_refuted.

(** A writer that is used for a second netlist draws the ground net of the first one. *)
Theorem C51_ground_refuted : exists show3 c1 c2 m1 m2, calls show3 [c1; c2] new_writer = [Some m1; Some m2] /\
  ~ In "GND"%string (labels c2) /\ exists e, dget (m_cells m2) "gnd"%string = Some e /\ j_value e = Some "GND"%string.
Proof.
  set (n k s := Some (Net k s s)).
  exists (fun _ => ""%string), (Circuit "t" [("p"%string, n 1%nat "GND"%string)] [] []), (Circuit "u" [("q"%string, n 2%nat "out"%string)] [] []).
  set (g := Cell None "gnd" (Some [("A"%string, "input"%string)]) [("A"%string, 0%nat)] (Some "GND"%string)).
  exists (Module "t" [("p"%string, 0%nat)] [("gnd"%string, g)]), (Module "u" [("q"%string, 1%nat)] [("gnd"%string, g)]).
  split; [reflexivity|]. split; [intros [E|[]]; discriminate|]. exists g. split; reflexivity.
Qed.
Print Assumptions C51_ground_refuted.

(** Writing a file changes no other file, the writer goes on as after building the dictionary, and a circuit that is refused leaves an empty file where an earlier netlist was. *)
Theorem C51_file : forall show3 dump c path fs w,
  (forall p, p <> path -> dget (fst (fst (write_json show3 dump c path fs w))) p = dget fs p) /\
  (forall cs, calls show3 cs (snd (fst (write_json show3 dump c path fs w))) = tl (calls show3 (c :: cs) w)) /\
  (drawable c -> exists m, snd (netlist_json_dict show3 c w) = Some m /\ dget (fst (fst (write_json show3 dump c path fs w))) path = Some (dump m) /\ snd (write_json show3 dump c path fs w) = true) /\
  (~ drawable c -> dget (fst (fst (write_json show3 dump c path fs w))) path = Some ""%string /\ snd (write_json show3 dump c path fs w) = false).
Proof.
  intros show3 dump c path fs w. cbn [calls tl]. unfold write_json. pose proof (tot_json show3 c w) as T. destruct (netlist_json_dict show3 c w) as [w1 [m|]]; cbn [fst snd] in *.
  - split; [intros p Np; now apply dget_dset_other|]. split; [reflexivity|]. split; [|intros H; exfalso; apply H, T; discriminate].
    intros _. exists m. rewrite dget_dset_same. auto.
  - split; [intros p Np; now apply dget_dset_other|]. split; [reflexivity|]. split; [intros H; exfalso; apply T in H; congruence|]. intros _. rewrite dget_dset_same. auto.
Qed.
Print Assumptions C51_file.

(** ** C79: the circuit that `netlist svg` draws *)
(** Without --cell: the top circuit if there is exactly one, and an exit code of its own for none and for several. *)
Theorem C79_top_partial : forall tops,
  (forall c, run_netlistsvg tops None = Draw c <-> tops = [c]) /\
  (run_netlistsvg tops None = Exit 1 <-> tops = []) /\ (run_netlistsvg tops None = Exit 2 <-> (2 <= List.length tops)%nat).
Proof.
  intros [|a [|b t]]; cbn [run_netlistsvg List.length]; repeat split; intros; try discriminate; try lia; try congruence.
Qed.
Print Assumptions C79_top_partial.
(** --cell is never consulted: it neither chooses among several top circuits, nor overrides a single one. *)
Theorem C79_cell_refuted :
  (exists tops c, In c tops /\ run_netlistsvg tops (Some (c_name c)) = Exit 2) /\
  (exists c d, c_name d <> c_name c /\ run_netlistsvg [c] (Some (c_name d)) = Draw c).
Proof.
  split.
  - exists [Circuit "a" [] [] []; Circuit "b" [] [] []], (Circuit "b" [] [] []). split; [right; now left|reflexivity].
  - exists (Circuit "a" [] [] []), (Circuit "b" [] [] []). split; [discriminate|reflexivity].
Qed.
Print Assumptions C79_cell_refuted.

(** ** the hypotheses are met *)
Definition ex_net (k : nat) (s : string) : option net := Some (Net k s ""%string).
Definition ex_c : circuit :=
  Circuit "top" [("in"%string, ex_net 0 "in"); ("vss"%string, ex_net 1 "VSUBS")]
    [Instance "inv" 2 [(0%nat, ex_net 0 "in"); (1%nat, ex_net 2 "$5")]; Instance "buf" 4 [(0%nat, ex_net 2 "$5")]]
    [Device Capacitor "ext_1" (ex_net 2 "$5") (ex_net 1 "VSUBS") (Q2Qc (1 # 1000000000000000)); Device Resistor "$2" (ex_net 0 "in") (ex_net 3 "GND") (Q2Qc 7)].
Example ex_numbered : pins_numbered ex_c.
Proof. intros s [<-|[<-|[]]]; cbn; repeat constructor; cbn; intuition discriminate. Qed.
Example ex_drawable : drawable ex_c.
Proof. split; [intros o I|intros d I]; cbn in I; repeat destruct I as [<-|I]; try discriminate; destruct I. Qed.
Example ex_keys : forall f, map fst (entries (fun _ => "1"%string) f (labels ex_c) ex_c) = ["inv2"; "buf4"; "Cext_1"; "R$2"; "gnd"; "gnd1"]%string.
Proof. intros f. unfold entries, grounds. destruct (in_dec eq_dec "VSUBS"%string (labels ex_c)) as [a|a]; [|exfalso; apply a; cbn; auto 10].
  destruct (in_dec eq_dec "GND"%string (labels ex_c)) as [b|b]; [reflexivity|exfalso; apply b; cbn; auto 12]. Qed.
(** The dictionary itself: in 0, VSUBS 1, $5 2, GND 3. *)
Example ex_ports : option_map m_ports (snd (netlist_json_dict (fun _ => "1"%string) ex_c new_writer)) = Some [("in"%string, 0%nat); ("vss"%string, 1%nat)].
Proof. reflexivity. Qed.
Example ex_cells : option_map (fun m => map (fun e => (fst e, j_conns (snd e))) (m_cells m)) (snd (netlist_json_dict (fun _ => "1"%string) ex_c new_writer)) =
  Some [("inv2", [("0=in", 0); ("1=$5", 2)]); ("buf4", [("0=$5", 2)]); ("Cext_1", [("A", 2); ("B", 1)]); ("R$2", [("A", 0); ("B", 3)]);
        ("gnd", [("A", 1)]); ("gnd1", [("A", 3)])]%string%nat.
Proof. reflexivity. Qed.
Example ex_open : ~ drawable (Circuit "t" [("p"%string, None)] [] []).
Proof. intros [H _]. exact (H None (or_introl eq_refl) eq_refl). Qed.
