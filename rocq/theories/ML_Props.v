(** C89: the report on a Magic run. *)
From Coq Require Import String Ascii ZArith QArith.Qround Lia Lqa.
From Verif Require Import PyBase PyLib PyStr QcLra MG_Model MG_Spec ML_Model ML_Spec ML_Proofs.
From Verif Require MG_Proofs MG_Run MG_Props.
Local Open Scope string_scope.
Local Open Scope list_scope.

(** The report has one item for each entry, in order, in the category and the cell of the entry, less than a database unit away from
    its place. *)
Theorem C89_items : forall to_int float_text dbu cells, casts to_int -> 0 < dbu ->
  Forall2 (renders (about dbu)) (listing float_text cells) (rd_items (analyze to_int float_text dbu cells)).
Proof.
  intros to_int ft dbu cells C P. rewrite items_listing. induction (listing ft cells) as [|e l IH]; constructor; [|exact IH].
  repeat split. intros W. now apply spot_shows.
Qed.
(** Exactly there if a unit of Magic is a whole number of database units, as with 0.001 and 0.005 micrometres. *)
Theorem C89_exact : forall to_int float_text dbu cells k, casts to_int -> 0 < dbu -> Q2Qc (inject_Z k) * (Q2Qc (200 # 1) * dbu) = 1 ->
  Forall2 (renders (exactly dbu)) (listing float_text cells) (rd_items (analyze to_int float_text dbu cells)).
Proof.
  intros to_int ft dbu cells k C P K. rewrite items_listing. induction (listing ft cells) as [|e l IH]; constructor; [|exact IH].
  repeat split. intros W. now apply (spot_exact to_int dbu C P k).
Qed.
(** There is a cell for each cell, and a category for each object. *)
Theorem C89_cells : forall to_int float_text dbu cells,
  rd_cells (analyze to_int float_text dbu cells) = map fst cells /\
  rd_cats (analyze to_int float_text dbu cells) = ["MAGIC Extraction"] :: flat_map (fun cd => cell_titles float_text (snd cd)) cells.
Proof. intros. split; apply cats_titles. Qed.
(** In terms of the files: whatever a line of a .ext or .res.ext file says is shown, and nothing else. *)
Theorem C89_shown : forall to_int float_text dbu D cells, casts to_int -> 0 < dbu -> plain_dir D -> parse_run D = Some cells ->
  (forall c p s, plain_cell c -> says float_text D c p s ->
     exists i, In i (rd_items (analyze to_int float_text dbu cells)) /\ renders (about dbu) (c, p, s) i) /\
  (forall i, In i (rd_items (analyze to_int float_text dbu cells)) ->
     exists c p s, plain_cell c /\ says float_text D c p s /\ renders (about dbu) (c, p, s) i).
Proof.
  intros to_int ft dbu D cells C P PD E. rewrite items_listing. split.
  - intros c p s Pc S. exists (item_of to_int dbu (c, p, s)). split.
    + apply in_map. now apply (said ft D cells PD E).
    + repeat split. intros W. now apply spot_shows.
  - intros i I. apply in_map_iff in I as ([[c p] s] & <- & I). apply (said ft D cells PD E) in I as [Pc S].
    exists c, p, s. split; [exact Pc|]. split; [exact S|]. repeat split. intros W. now apply spot_shows.
Qed.
(** A run of kpex: if every .ext file that was in the run directory is written anew, the report shows what Magic has written. *)
Theorem C89_run : forall to_int float_text dbu D W r, casts to_int -> 0 < dbu -> NoDup (map fst D) -> plain_dir W ->
  (forall f, In f (map fst D) -> ends_with ".ext" f = true -> In f (map fst W)) ->
  magic_report to_int float_text dbu D W true = Some r ->
  (forall c p s, plain_cell c -> says float_text W c p s -> exists i, In i (rd_items r) /\ renders (about dbu) (c, p, s) i) /\
  (forall i, In i (rd_items r) -> exists c p s, plain_cell c /\ says float_text W c p s /\ renders (about dbu) (c, p, s) i).
Proof.
  intros to_int ft dbu D W r C P ND PW F H. unfold magic_report in H.
  destruct (parse_run (overwritten D W)) as [cells|] eqn:E; [|discriminate H]. injection H as <-.
  assert (NW : NoDup (map fst W)) by apply PW.
  assert (NO : NoDup (map fst (overwritten D W))) by (apply overwritten_wf; exact ND).
  assert (Q : forall f t, ends_with ".ext" f = true -> (In (f, t) (overwritten D W) <-> In (f, t) W)).
  { intros f t X. split; intros I.
    - apply In_dget in I; [|exact NO]. rewrite overwritten_get in I by exact NW.
      destruct (dget W f) as [u|] eqn:G; [injection I as ->; now apply dget_In|].
      apply dget_None in G. destruct G. apply F; [|exact X]. eapply dget_Some_key. exact I.
    - apply dget_In. rewrite overwritten_get by exact NW. apply In_dget in I; [|exact NW]. now rewrite I. }
  assert (X1 : forall c, ends_with ".ext" (c ++ ".ext")%string = true) by (intros; apply MG_Run.ends_with_app).
  assert (X2 : forall c, ends_with ".ext" (c ++ ".res.ext")%string = true).
  { intros c. change ".res.ext" with (".res" ++ ".ext")%string. rewrite <- str_app_assoc. apply X1. }
  assert (K : forall c, In (c ++ ".ext")%string (map fst (overwritten D W)) <-> In (c ++ ".ext")%string (map fst W)).
  { intros c. rewrite !in_map_iff. split; intros ([f t] & A & I); cbn in A; subst; exists ((c ++ ".ext")%string, t); (split; [reflexivity|]);
    [now apply Q in I|now apply Q]. }
  assert (S : forall c p s, says ft (overwritten D W) c p s <-> says ft W c p s).
  { intros c p s. split; intros H; destruct H;
    repeat match goal with
    | H : In (_, _) (overwritten D W) |- _ => apply Q in H; [|apply X1 || apply X2]
    | H : In _ (map fst (overwritten D W)) |- _ => apply K in H
    end; repeat match goal with
    | |- says _ (overwritten D W) _ _ _ => match goal with
      | H : In (_, _) W |- _ => apply Q in H; [|apply X1 || apply X2]
      | H : In _ (map fst W) |- _ => apply K in H
      end
    end; econstructor; eassumption. }
  assert (PO : plain_dir (overwritten D W)).
  { split; [exact NO|]. intros [f t] I X. cbn [fst] in *. apply Q in I; [|exact X]. exact (proj2 PW (f, t) I X). }
  destruct (C89_shown to_int ft dbu _ cells C P PO E) as [A B]. split.
  - intros c p s Pc H. apply A; [exact Pc|now apply S].
  - intros i I. destruct (B i I) as (c & p & s & Pc & H & R). exists c, p, s. split; [exact Pc|]. split; [now apply S|exact R].
Qed.

(** ** Refuted *)
(** Rounding down, as KLayout does for numbers that are not negative *)
Definition floor_int (q : Qc) : Z := Qfloor q.
Lemma floor_casts : casts floor_int.
Proof.
  intros q _ _. unfold floor_int, Qclt. rewrite this_minus, this_plus, !this_Q2Qc.
  assert (A := Qfloor_le q). assert (B := Qlt_floor q). rewrite inject_Z_plus in B. change (inject_Z 1) with 1%Q in B. split; lra.
Qed.

Definition milli : Qc := Q2Qc (1 # 1000).
Lemma milli_pos : 0 < milli. Proof. reflexivity. Qed.
Lemma milli_5 : Q2Qc (inject_Z 5) * (Q2Qc (200 # 1) * milli) = 1.
Proof. apply Qc_is_canon. reflexivity. Qed.

Definition scaled_file : string := file_of [EOther "scale 1000 1 1"; EPort 1 (Build_port "VDD" 200 0 400 200 "m1")].
(** The unit that the file states is not looked at: a port at 2 micrometres is shown somewhere else. *)
Theorem C89_scale_refuted : exists D cells t l p sl,
  plain_dir D /\ parse_run D = Some cells /\ In ("inv.ext", t) D /\ In l (lines t) /\ port_line l p /\
  In sl (lines t) /\ scale_line sl 1 /\
  forall to_int float_text, casts to_int ->
    rd_items (analyze to_int float_text milli cells) <> [] /\
    forall i, In i (rd_items (analyze to_int float_text milli cells)) -> ~ near milli (b_left (i_box i)) (Q2Qc (p_xb p # 100) * 1).
Proof.
  exists [("inv.ext", scaled_file)], [("inv", Build_cellext (Build_ext [Build_port "VDD" 200 0 400 200 "m1"] [] []) None)], scaled_file,
    (entry_line (EPort 1 (Build_port "VDD" 200 0 400 200 "m1"))), (Build_port "VDD" 200 0 400 200 "m1"), "scale 1000 1 1".
  split.
  { split; [repeat constructor; intros []|]. intros f [<-|[]] _. exists "inv". split; [|now left]. now apply MG_Props.plain_by. }
  split; [vm_compute; reflexivity|]. split; [now left|].
  split; [vm_compute; auto|].
  split; [apply MG_Run.entry_port; repeat split; discriminate|].
  split; [vm_compute; auto|].
  split.
  { exists "1000", "1", "1", (Q2Qc (1000 # 1)), 1. split; [reflexivity|].
    assert (N1 : decimal "1" 1).
    { left. exists "1", "", 1%Z. split; [now right|]. split; [now exists (Decimal.D1 Decimal.Nil)|]. apply Qc_is_canon. reflexivity. }
    split; [|split; exact N1]. left. exists "1000", "", 1000%Z. split; [now right|].
    split; [now eexists|]. apply Qc_is_canon. reflexivity. }
  intros to_int ft C.
  assert (F := C89_exact to_int ft milli [("inv", Build_cellext (Build_ext [Build_port "VDD" 200 0 400 200 "m1"] [] []) None)] 5 C milli_pos milli_5).
  revert F. generalize (rd_items (analyze to_int ft milli [("inv", Build_cellext (Build_ext [Build_port "VDD" 200 0 400 200 "m1"] [] []) None)])).
  intros L F. cbn [listing flat_map cell_listing fst snd c_ext c_res x_ports x_nodes x_devices map app] in F.
  inversion F as [|e i l r H T E1 E2]; subst. inversion T; subst. split; [discriminate|].
  intros j [<-|[]]. destruct H as (_ & _ & H). cbn [snd] in H.
  assert (W : within milli (port_spot (Build_port "VDD" 200 0 400 200 "m1"))).
  { cbn. repeat split; unfold close_by, Qcle; vm_compute; discriminate. }
  specialize (H W). unfold shows_exactly in H. rewrite H. cbn. intros [A _]. vm_compute in A. discriminate A.
Qed.

Definition old_res : string := ("rnode " ++ quoted "OUT.t0" ++ " 0 12 -5 7 0" ++ String nl "")%string.
(** Files of an earlier run are taken for results of this one: here the cell has no resistance file any more ... *)
Theorem C89_leftover_refuted : exists D W, plain_dir D /\ plain_dir W /\
  forall to_int float_text, exists r i, magic_report to_int float_text milli D W true = Some r /\ In i (rd_items r) /\
    forall c p s, ~ says float_text W c p s.
Proof.
  exists [("inv.res.ext", old_res)], [("inv.ext", "")].
  split; [|split].
  1-2: split; [repeat constructor; intros []|]; intros f [<-|[]] _; exists "inv"; (split; [now apply MG_Props.plain_by|]); auto.
  intros to_int ft. unfold magic_report.
  assert (E : parse_run (overwritten [("inv.res.ext", old_res)] [("inv.ext", "")]) =
              Some [("inv", Build_cellext (Build_ext [] [] []) (Some (Build_resext [Build_rnode "OUT.t0" 0 12 (-5) 7] [])))]) by (vm_compute; reflexivity).
  rewrite E. cbn [option_map]. eexists; eexists. split; [reflexivity|]. split.
  - rewrite items_listing. left. reflexivity.
  - intros c p s H. destruct H as [t l a [[= _ <-]|[]] I|t l a [[= _ <-]|[]] I|t l a [[= _ <-]|[]] I|u l a K [[= Q]|[]]|u bf l af ea t l' n K [[= Q]|[]]];
    try destruct I.
    all: apply (f_equal (fun s => rev (list_ascii_of_string s))) in Q; revert Q; clear.
    all: assert (L : forall a b, list_ascii_of_string (a ++ b)%string = list_ascii_of_string a ++ list_ascii_of_string b) by (induction a; intros; cbn; congruence).
    all: rewrite L, rev_app_distr; discriminate.
Qed.
(** ... and here Magic has written nothing at all, for example as it did not find the layout. *)
Theorem C89_nothing_refuted : exists D, plain_dir D /\
  forall to_int float_text, parse_run [] = None /\
    exists r, magic_report to_int float_text milli D [] true = Some r /\ rd_items r <> [].
Proof.
  exists [("inv.ext", scaled_file)]. split.
  - split; [repeat constructor; intros []|]. intros f [<-|[]] _. exists "inv". split; [|now left]. now apply MG_Props.plain_by.
  - intros to_int ft. split; [reflexivity|]. unfold magic_report, overwritten. cbn [fold_left].
    assert (E : parse_run [("inv.ext", scaled_file)] = Some [("inv", Build_cellext (Build_ext [Build_port "VDD" 200 0 400 200 "m1"] [] []) None)])
      by (vm_compute; reflexivity).
    rewrite E. eexists. split; [reflexivity|]. rewrite items_listing. discriminate.
Qed.
(** The program that makes a report from a directory has no path to save it at, unless one is given; the help promises
    'report.rdb.gz' in the directory. *)
Theorem C89_default_refuted : forall to_int float_text dir D r p, main to_int float_text true dir D None = Some (r, p) -> p = None.
Proof.
  intros to_int ft dir D r p. unfold main, output_rdb_path. destruct (parse_run D); [|discriminate]. now intros [= _ <-].
Qed.
Example C89_default_case : exists r, main floor_int (fun _ => "") true "run" [("inv.ext", scaled_file)] None = Some (r, None).
Proof.
  unfold main, output_rdb_path. destruct (parse_run [("inv.ext", scaled_file)]) as [cells|] eqn:E; [eexists; reflexivity|].
  exfalso. revert E. vm_compute. discriminate.
Qed.

(** ** A case *)
(** the directory of C49: two cells, one of them with a resistance file *)
Example C89_case : plain_dir MG_Props.sample_dir /\ casts floor_int /\ 0 < milli /\
  match parse_run MG_Props.sample_dir with
  | Some cells => listing (fun _ => "12.5") cells =
    [("inv", ["MAGIC Extraction"; "Ports"; "VDD (m1)"], Area (-600) 800 500 1000);
     ("inv", ["MAGIC Extraction"; "Ports"; "VSS (m1)"], Area (-600) 500 500 700);
     ("inv", ["MAGIC Extraction"; "Nodes"; "VSUBS (space)"], Point (-1073741817) (-1073741817));
     ("inv", ["MAGIC Extraction"; "Nodes"; "OUT (m1)"], Point 30 (-7));
     ("inv", ["MAGIC Extraction"; "Devices"; "Type=msubckt Model=sky130_fd_pr__nfet_01v8"], Area 0 0 1 1);
     ("buf", ["MAGIC Extraction"; "Resistor Nodes"; "A.t0"], Point (-5) 7);
     ("buf", ["MAGIC Extraction"; "Resistors"; "#0 A.t0↔︎A\1 = 12.5 Ω"], Point (-5) 7)]
  | None => False
  end.
Proof.
  split; [exact (proj1 MG_Props.C49_case)|]. split; [apply floor_casts|]. split; [apply milli_pos|]. vm_compute. reflexivity.
Qed.
(** Within reach, and shown at 0.15 and -0.035 micrometres. *)
Example C89_place : within milli (Point 30 (-7)) /\
  let b := scaled milli (box_spot floor_int milli (Point 30 (-7))) in
  (qeqb (b_left b) (Q2Qc (15 # 100)) && qeqb (b_bottom b) (Q2Qc (-35 # 1000)) && qeqb (b_right b) (Q2Qc (17 # 100)) && qeqb (b_top b) (Q2Qc (-15 # 1000)))%bool = true.
Proof. split; [cbn; repeat split; unfold close_by, Qcle; vm_compute; discriminate|]. vm_compute. reflexivity. Qed.
(** A run in a directory with an older file of the same name. *)
Example C89_run_case : plain_dir [("inv.ext", scaled_file)] /\
  (forall f, In f (map fst [("inv.ext", file_of MG_Props.sample); ("inv.log", "")]) -> ends_with ".ext" f = true -> In f (map fst [("inv.ext", scaled_file)])) /\
  magic_report floor_int (fun _ => "") milli [("inv.ext", file_of MG_Props.sample); ("inv.log", "")] [("inv.ext", scaled_file)] true <> None.
Proof.
  split; [|split].
  - split; [repeat constructor; intros []|]. intros f [<-|[]] _. exists "inv". split; [|now left]. now apply MG_Props.plain_by.
  - intros f [<-|[<-|[]]] H; [now left|discriminate H].
  - unfold magic_report. destruct (parse_run _) as [cells|] eqn:E; [discriminate|]. exfalso. revert E. vm_compute. discriminate.
Qed.

Print Assumptions C89_items.
Print Assumptions C89_exact.
Print Assumptions C89_cells.
Print Assumptions C89_shown.
Print Assumptions C89_run.
Print Assumptions C89_scale_refuted.
Print Assumptions C89_leftover_refuted.
Print Assumptions C89_nothing_refuted.
Print Assumptions C89_default_refuted.
