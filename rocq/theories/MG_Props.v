(** C48, C49: reading Magic's extraction files. *)
From Coq Require Import String Ascii ZArith QArith Qcanon DecimalString Permutation.
From Verif Require Import PyBase PyLib PyStr PyRe MG_Model MG_Spec MG_Proofs MG_Run.
Local Open Scope string_scope.

(** ** C48: lines and records *)
(** A .ext file is read as exactly the records that its lines say, in order; nothing else counts. *)
Theorem C48_ext : forall text d, parse_ext text = Some d <->
  picks port_line (lines text) (x_ports d) /\ picks node_line (lines text) (x_nodes d) /\
  picks device_line (lines text) (x_devices d) /\ Forall (fun l => ~ unknown_device l) (lines text).
Proof. exact parse_ext_iff. Qed.
(** The only reason for failure is a device of a type that is not listed. *)
Theorem C48_ext_raises : forall text, parse_ext text = None <-> Exists unknown_device (lines text).
Proof. exact parse_ext_none. Qed.
Theorem C48_res : forall text d, parse_res text = Some d <->
  picks rnode_line (lines text) (y_rnodes d) /\ picks resistor_line (lines text) (y_resistors d) /\
  Forall (fun l => ~ bad_resistor l) (lines text).
Proof. exact parse_res_iff. Qed.
Theorem C48_res_raises : forall text, parse_res text = None <-> Exists bad_resistor (lines text).
Proof. exact parse_res_none. Qed.
(** No line is read in two ways. *)
Theorem C48_one_reading : forall l,
  (forall a b, port_line l a -> port_line l b -> a = b) /\ (forall a b, node_line l a -> node_line l b -> a = b) /\
  (forall a b, device_line l a -> device_line l b -> a = b) /\ (forall a b, rnode_line l a -> rnode_line l b -> a = b) /\
  (forall a b, resistor_line l a -> resistor_line l b -> a = b).
Proof.
  intros l. split; [apply port_unique|]. split; [apply node_unique|]. split; [intros a b [A _] [B _]; eapply device_unique; eassumption|].
  split; [apply rnode_unique|apply resistor_unique].
Qed.
(** A file written line by line in the documented format, with any names of word characters and any integers, mixed with
    any other lines, is read back as what was written. *)
Theorem C48_written : forall es, Forall entry_ok es ->
  parse_ext (file_of es) = Some (Build_ext (ports_of es) (nodes_of es) (devices_of es)).
Proof. exact written. Qed.

(** Refuted without the restriction to word characters and integers: the record is dropped without notice.
    Node names that Magic makes up end with a hash sign. *)
Theorem C48_name_refuted : exists net r c x y layer more,
  parse_ext ("node " ++ quoted net ++ " " ++ dec r ++ " " ++ dec c ++ " " ++ dec x ++ " " ++ dec y ++ " " ++ layer ++ " " ++ more ++ String nl "") =
  Some (Build_ext [] [] []) /\ word layer /\ one_line net /\ ~ has """" net.
Proof.
  exists "a_10_20#", 100%Z, 25%Z, 10%Z, 20%Z, "ndif", "0 0".
  split; [vm_compute; reflexivity|]. split; [split; [discriminate|reflexivity]|]. split; [reflexivity|].
  intros (a & b & E). do 8 (destruct a as [|? a]; [discriminate E|cbn [append] in E; injection E as _ E]).
  destruct a; discriminate E.
Qed.
(** ... and a resistance in exponent notation is dropped in the same way. *)
Theorem C48_exponent_refuted :
  parse_res ("resist " ++ quoted "A" ++ " " ++ quoted "B" ++ " 1.5e+06" ++ String nl "") = Some (Build_resext [] []).
Proof. vm_compute. reflexivity. Qed.
(** One device of a type that is not listed makes the whole file unreadable. *)
Theorem C48_device_refuted : exists p m,
  Forall entry_ok [p] /\ ports_of [p] <> [] /\
  parse_ext (file_of [p] ++ "device dsubckt " ++ m ++ " 0 0 10 10 more" ++ String nl "") = None.
Proof.
  exists (EPort 1 (Build_port "VDD" 0 0 10 10 "m1")), "sky130_fd_pr__diode".
  split; [repeat constructor; cbn; discriminate|]. split; [discriminate|]. vm_compute. reflexivity.
Qed.

Definition sample : list entry :=
  [EOther "timestamp 1700000000"; EOther "scale 1000 1 0.5"; EPort 2 (Build_port "VDD" (-600) 800 500 1000 "m1");
   ENode true (Build_node "VSUBS" 0 0 (-1073741817) (-1073741817) "space") "0 0 0 0";
   ENode false (Build_node "OUT" 120 3456 30 (-7) "m1") "0 0 10 20";
   EPort 3 (Build_port "VSS" (-600) 500 500 700 "m1");
   EDevice (Build_device "msubckt" "sky130_fd_pr__nfet_01v8" 0 0 1 1) "l=30 w=200"; EOther ""; EOther "cap ""OUT"" ""VSS"" 12"].
Example C48_case : Forall entry_ok sample /\
  parse_ext (file_of sample) = Some (Build_ext
    [Build_port "VDD" (-600) 800 500 1000 "m1"; Build_port "VSS" (-600) 500 500 700 "m1"]
    [Build_node "VSUBS" 0 0 (-1073741817) (-1073741817) "space"; Build_node "OUT" 120 3456 30 (-7) "m1"]
    [Build_device "msubckt" "sky130_fd_pr__nfet_01v8" 0 0 1 1]).
Proof.
  split; [|vm_compute; reflexivity].
  unfold sample. repeat apply Forall_cons; try apply Forall_nil; cbn [entry_ok];
    repeat match goal with
    | |- _ /\ _ => split
    | |- ~ starts _ _ => let t := fresh in let E := fresh in intros [t E]; discriminate E
    | |- In _ _ => cbn; tauto
    | |- word _ => split; [discriminate|reflexivity]
    | |- _ <> _ => discriminate
    | |- (_ <= _)%Z => discriminate
    | |- _ => reflexivity
    end.
Qed.
(** the lines of the repository's comment and a resistance file *)
Definition res_sample : string :=
  "rnode " ++ quoted "A.t0" ++ " 0 12 -5 7 0" ++ String nl ("resist " ++ quoted "A.t0" ++ " " ++ quoted "A\1" ++ " 12.50" ++ String nl "").
Example C48_res_case :
  match parse_res res_sample with
  | Some (Build_resext [Build_rnode n r c x y] [Build_resistor a b v]) =>
      (n, r, c, x, y, a, b) = ("A.t0", 0%Z, 12%Z, (-5)%Z, 7%Z, "A.t0", "A\1") /\ this v = (25 # 2)%Q
  | _ => False
  end.
Proof. vm_compute. split; reflexivity. Qed.
Example C48_res_raises_case : parse_res ("resist " ++ quoted "A" ++ " " ++ quoted "B" ++ " 1.2.3") = None.
Proof. vm_compute. reflexivity. Qed.

(** ** C49: the files of a run directory *)
(** Every file goes to its own cell, main files and resistance files apart; only cells with a main file count; the run
    fails exactly if there is no main file or one of these files cannot be read. *)
Theorem C49_cells : forall D, plain_dir D ->
  match parse_run D with
  | Some cells => (forall c, plain_cell c -> expected D c (dget cells c)) /\ (forall c, In c (dkeys cells) -> plain_cell c)
  | None => (forall c, plain_cell c -> ~ In (c ++ ".ext") (map fst D)) \/
            exists c t, plain_cell c /\ In (c ++ ".ext", t) D /\
              (parse_ext t = None \/ exists u, In (c ++ ".res.ext", u) D /\ parse_res u = None)
  end.
Proof.
  intros D P. destruct (run_spec D P) as [(cells & -> & _ & H)|[-> N]]; [exact H|exact N].
Qed.
(** The order of the listing does not matter. *)
Theorem C49_order : forall D D', plain_dir D -> Permutation D D' ->
  match parse_run D, parse_run D' with
  | Some a, Some b => forall c, dget a c = dget b c
  | None, None => True
  | _, _ => False
  end.
Proof.
  intros D D' P E. assert (P' := plain_perm D D' E P).
  destruct (run_spec D P) as [(a & -> & G & H & K)|[-> N]], (run_spec D' P') as [(b & -> & G' & H' & K')|[-> N']].
  - intros c. destruct (dget a c) as [x|] eqn:A.
    + assert (Pc : plain_cell c) by (apply K; eapply dget_Some_key; eassumption).
      rewrite <- A. apply (expected_fun D' c); [apply P'| |now apply H']. apply (expected_perm D D' c _ E). now apply H.
    + destruct (dget b c) as [y|] eqn:B; [|reflexivity].
      assert (Pc : plain_cell c) by (apply K'; eapply dget_Some_key; eassumption).
      rewrite <- A, <- B. apply (expected_fun D' c); [apply P'| |now apply H']. apply (expected_perm D D' c _ E). now apply H.
  - apply (bad_not_good _ N'). now apply (good_perm D D' E).
  - apply (bad_not_good _ N). now apply (good_perm D' D (Permutation_sym E)).
  - exact I.
Qed.

(** Refuted for other cell names: the pattern is not anchored at the end, and a name may end like a resistance file. *)
Theorem C49_name_refuted : exists t1 t2 cells,
  t1 <> t2 /\ parse_run [("inv.ext", t1); ("inv.ext2.ext", t2)] = Some cells /\ dkeys cells = ["inv"] /\
  option_map (fun x => Some (c_ext x)) (dget cells "inv") = Some (parse_ext t2).
Proof.
  exists (file_of [EPort 1 (Build_port "A" 0 0 1 1 "m1")]), (file_of [EPort 1 (Build_port "B" 0 0 1 1 "m1")]). eexists.
  split; [discriminate|]. split; [vm_compute; reflexivity|]. split; reflexivity.
Qed.
Theorem C49_res_refuted : exists t cells,
  parse_run [("inv.ext", file_of []); ("inv.res.ext", t)] = Some cells /\ parse_ext t <> Some (Build_ext [] [] []) /\
  ~ In "inv.res" (dkeys cells) /\ option_map c_res (dget cells "inv") <> Some None.
Proof.
  exists (file_of [EPort 1 (Build_port "A" 0 0 1 1 "m1")]). eexists. split; [vm_compute; reflexivity|].
  split; [vm_compute; discriminate|]. split; [intros [H|[]]; discriminate|discriminate].
Qed.

Definition sample_dir : list (string * string) :=
  [("buf.res.ext", res_sample); ("inv.ext", file_of sample); ("notes.txt", "port"); ("buf.ext", file_of []); ("old.res.ext", "")].
Lemma plain_by c : all_chars (fun x => negb (Ascii.eqb x "."%char)) c = true -> all_chars notnl c = true -> plain_cell c.
Proof.
  intros H N. assert (D : forall a b, c = a ++ String "."%char b -> False).
  { intros a b ->. rewrite all_chars_app in H. cbn in H. now rewrite Bool.andb_false_r in H. }
  split; [exact N|]. split.
  - intros (a & b & E). exact (D a ("ext" ++ b) E).
  - intros (a & E). exact (D a "res" E).
Qed.
Example C49_case : plain_dir sample_dir /\
  match parse_run sample_dir with
  | Some cells => dkeys cells = ["inv"; "buf"] /\ map (fun c => match c_res c with Some r => List.length (y_resistors r) | None => 9%nat end) (dvals cells) = [9; 1]%nat
  | None => False
  end.
Proof.
  split; [|vm_compute; split; reflexivity]. split.
  - repeat constructor; cbn; intuition discriminate.
  - intros f I E. repeat (destruct I as [<-|I]); cbn [fst] in *; try discriminate E; try contradiction.
    + exists "buf". split; [now apply plain_by|now right].
    + exists "inv". split; [now apply plain_by|now left].
    + exists "buf". split; [now apply plain_by|now left].
    + exists "old". split; [now apply plain_by|now right].
Qed.

Print Assumptions C48_ext.
Print Assumptions C48_ext_raises.
Print Assumptions C48_res.
Print Assumptions C48_res_raises.
Print Assumptions C48_one_reading.
Print Assumptions C48_written.
Print Assumptions C48_name_refuted.
Print Assumptions C48_exponent_refuted.
Print Assumptions C48_device_refuted.
Print Assumptions C49_cells.
Print Assumptions C49_order.
Print Assumptions C49_name_refuted.
Print Assumptions C49_res_refuted.
