(** C22, C23: the capacitance matrix (klayout_pex/common/capacitance_matrix.py). *)
From Coq Require Import String Ascii Lia Lqa.
From Verif Require Import PyBase QcLra PyLib PyStr CM_Model.
Local Open Scope Qc_scope.

(** * Specification *)
(** an n by n matrix *)
Definition square (n : nat) (m : cap_matrix) : Prop :=
  List.length (conductor_names m) = n /\ List.length (rows m) = n /\ Forall (fun r => List.length r = n) (rows m).
(** the entry in row i, column j *)
Definition entry (m : cap_matrix) (i j : nat) : Qc := nth j (nth i (rows m) []) 0.
Definition symmetric (n : nat) (m : cap_matrix) : Prop := forall i j, (i < n)%nat -> (j < n)%nat -> entry m i j = entry m j i.
Definition sum_all (m : cap_matrix) : Qc := qsumf (fun r => qsumf (fun x => x) r) (rows m).

(** * Proofs *)
Definition shape (n : nat) (r : list (list Qc)) : Prop := List.length r = n /\ Forall (fun x => List.length x = n) r.
Definition ent (r : list (list Qc)) (i j : nat) : Qc := nth j (nth i r []) 0.

Lemma lset_spec {A} (l : list A) i v : (i < List.length l)%nat ->
  exists l', lset l i v = Some l' /\ List.length l' = List.length l /\
    forall d k, nth k l' d = if Nat.eqb k i then v else nth k l d.
Proof.
  revert i. induction l as [|x l IH]; intros i Hi; [cbn in Hi; lia|]. destruct i as [|i]; cbn.
  - eexists. split; [reflexivity|]. split; [reflexivity|]. intros d [|k]; reflexivity.
  - destruct (IH i) as (l' & -> & Hl & Hn); [cbn in Hi; lia|]. eexists. split; [reflexivity|].
    split; [cbn; now rewrite Hl|]. intros d [|k]; [reflexivity|]. cbn. apply Hn.
Qed.
Lemma shape_row n r i : shape n r -> (i < n)%nat -> exists row, nth_error r i = Some row /\ List.length row = n /\ nth i r [] = row.
Proof.
  intros [Hl HF] Hi. destruct (nth_error r i) as [row|] eqn:E.
  - exists row. split; [reflexivity|]. split; [|now apply nth_error_nth].
    rewrite Forall_forall in HF. apply HF. eapply nth_error_In; eauto.
  - apply nth_error_None in E. lia.
Qed.
Lemma mget_ent n r i j : shape n r -> (i < n)%nat -> (j < n)%nat -> mget r i j = Some (ent r i j).
Proof.
  intros Hs Hi Hj. destruct (shape_row n r i Hs Hi) as (row & E & Hl & Hn). unfold mget, ent. rewrite E, Hn.
  apply nth_error_nth'. lia.
Qed.
Lemma mset_spec n r i j v : shape n r -> (i < n)%nat -> (j < n)%nat ->
  exists r', mset r i j v = Some r' /\ shape n r' /\
    forall a b, ent r' a b = if Nat.eqb a i && Nat.eqb b j then v else ent r a b.
Proof.
  intros Hs Hi Hj. destruct (shape_row n r i Hs Hi) as (row & E & Hl & Hn). unfold mset. rewrite E.
  destruct (lset_spec row j v) as (row' & -> & Hl' & Hr); [lia|].
  destruct (lset_spec r i row') as (r' & -> & Hlr & Hrr); [destruct Hs; lia|].
  eexists. split; [reflexivity|]. split.
  - split; [destruct Hs; lia|]. apply Forall_forall. intros x Hx. apply (In_nth _ _ []) in Hx.
    destruct Hx as (k & Hk & <-). rewrite Hrr. destruct (Nat.eqb_spec k i); [lia|].
    destruct Hs as [Hs1 Hs2]. rewrite Forall_forall in Hs2. apply Hs2. apply nth_In. lia.
  - intros a b. unfold ent. rewrite Hrr. destruct (Nat.eqb_spec a i) as [->|]; [|reflexivity].
    cbn [andb]. rewrite Hr, Hn. destruct (Nat.eqb b j); reflexivity.
Qed.

Lemma average_loop n orig : shape n orig -> forall l c,
  shape n c -> Forall (fun p => (fst p < n)%nat /\ (snd p < n)%nat) l ->
  exists c', fold_left (average_step orig) l (Some c) = Some c' /\ shape n c' /\
    forall a b, (a < n)%nat -> (b < n)%nat -> ent c' a b =
      if existsb (fun p => Nat.ltb (fst p) (snd p) && ((Nat.eqb a (fst p) && Nat.eqb b (snd p)) || (Nat.eqb a (snd p) && Nat.eqb b (fst p)))) l
      then (ent orig a b + ent orig b a) / Q2Qc 2 else ent c a b.
Proof.
  intros Ho. induction l as [|[i j] l IH]; intros c Hc HF.
  - exists c. split; [reflexivity|]. split; [exact Hc|]. reflexivity.
  - inversion HF as [|? ? [Hi Hj] HF']; subst. cbn [fst snd] in Hi, Hj. cbn [fold_left average_step].
    destruct (Nat.leb_spec j i) as [Hle|Hgt].
    + destruct (IH c Hc HF') as (c' & E & Hs & H). exists c'. split; [exact E|]. split; [exact Hs|].
      intros a b Ha Hb. rewrite (H a b Ha Hb). cbn [existsb fst snd]. destruct (Nat.ltb_spec i j); [lia|]. reflexivity.
    + rewrite (mget_ent n orig i j Ho Hi Hj), (mget_ent n orig j i Ho Hj Hi).
      set (avg := (ent orig i j + ent orig j i) / Q2Qc 2).
      destruct (mset_spec n c i j avg Hc Hi Hj) as (c1 & E1 & S1 & H1). rewrite E1.
      destruct (mset_spec n c1 j i avg S1 Hj Hi) as (c2 & E2 & S2 & H2). rewrite E2.
      destruct (IH c2 S2 HF') as (c' & E & Hs & H). exists c'. split; [exact E|]. split; [exact Hs|].
      intros a b Ha Hb. rewrite (H a b Ha Hb). cbn [existsb fst snd]. destruct (Nat.ltb_spec i j); [|lia]. cbn [andb].
      set (rest := existsb _ l). destruct rest; [now rewrite Bool.orb_true_r|]. rewrite Bool.orb_false_r.
      rewrite H2, H1. destruct (Nat.eqb_spec a j) as [->|Haj], (Nat.eqb_spec b i) as [->|Hbi]; cbn [andb orb].
      * rewrite Bool.orb_true_r. unfold avg. f_equal. apply Qcplus_comm.
      * destruct (Nat.eqb_spec j i); [lia|]. reflexivity.
      * destruct (Nat.eqb_spec i j); [lia|]. rewrite Bool.andb_false_r. reflexivity.
      * destruct (Nat.eqb_spec a i) as [->|], (Nat.eqb_spec b j) as [->|]; reflexivity.
Qed.
Lemma index_pairs_in nr nc i j : In (i, j) (index_pairs nr nc) <-> (i < nr)%nat /\ (j < nc)%nat.
Proof.
  unfold index_pairs. rewrite in_flat_map. split.
  - intros (a & Ha & Hb). apply in_map_iff in Hb. destruct Hb as (b & [= -> ->] & Hb). apply in_seq in Ha, Hb. lia.
  - intros [Hi Hj]. exists i. split; [apply in_seq; lia|]. apply in_map. apply in_seq. lia.
Qed.

Lemma half_same (x : Qc) : (x + x) / Q2Qc 2 = x.
Proof. replace (Q2Qc 2) with (1 + 1) by qceq. field. qcneq. Qed.

(** C22, main statement *)
Theorem C22_average : forall n m, square n m ->
  exists m', averaged_off_diagonals m = Some m' /\ square n m' /\ conductor_names m' = conductor_names m /\
    forall i j, (i < n)%nat -> (j < n)%nat -> entry m' i j = (entry m i j + entry m j i) / Q2Qc 2.
Proof.
  intros n m (Hn & Hl & HF). unfold averaged_off_diagonals. rewrite Hn, Hl.
  destruct (average_loop n (rows m) (conj Hl HF) (index_pairs n n) (rows m) (conj Hl HF)) as (c' & -> & [Hs1 Hs2] & H).
  - apply Forall_forall. intros [i j] Hij. now apply index_pairs_in in Hij.
  - eexists. split; [reflexivity|]. split; [repeat split; auto|]. split; [reflexivity|].
    intros i j Hi Hj. unfold entry. cbn [rows]. change (nth j (nth i c' []) 0) with (ent c' i j). rewrite (H i j Hi Hj).
    change (ent (rows m)) with (entry m).
    destruct (existsb _ _) eqn:E; [reflexivity|].
    assert (i = j) as ->.
    { destruct (Nat.eq_dec i j) as [|Hne]; [auto|]. exfalso.
      assert (X : existsb (fun p => Nat.ltb (fst p) (snd p) && (Nat.eqb i (fst p) && Nat.eqb j (snd p) || Nat.eqb i (snd p) && Nat.eqb j (fst p))) (index_pairs n n) = true).
      { apply existsb_exists. destruct (Nat.lt_ge_cases i j).
        - exists (i, j). split; [apply index_pairs_in; auto|]. cbn [fst snd]. rewrite !Nat.eqb_refl.
          destruct (Nat.ltb_spec i j); [reflexivity|lia].
        - exists (j, i). split; [apply index_pairs_in; auto|]. cbn [fst snd]. rewrite !Nat.eqb_refl.
          destruct (Nat.ltb_spec j i); [|lia]. apply Bool.orb_true_r. }
      congruence. }
    symmetry. apply half_same.
Qed.

Lemma nth_ext_rows n (a b : list (list Qc)) : shape n a -> shape n b ->
  (forall i j, (i < n)%nat -> (j < n)%nat -> ent a i j = ent b i j) -> a = b.
Proof.
  intros [La Fa] [Lb Fb] H. apply (nth_ext a b [] []); [lia|]. intros i Hi.
  rewrite Forall_forall in Fa, Fb.
  assert (A : List.length (nth i a []) = n) by (apply Fa, nth_In; lia).
  assert (B : List.length (nth i b []) = n) by (apply Fb, nth_In; lia).
  apply (nth_ext _ _ 0 0); [lia|]. intros j Hj. apply H; lia.
Qed.
Lemma qsumf_nth (l : list Qc) : qsumf (fun x => x) l = qsumf (fun j => nth j l 0) (seq 0 (List.length l)).
Proof.
  induction l as [|x l IH]; [reflexivity|]. cbn [List.length seq]. rewrite !qsumf_cons. cbn [nth]. f_equal.
  rewrite IH, <- seq_shift, qsumf_map. reflexivity.
Qed.
Lemma sum_all_entries n m : square n m -> sum_all m = qsumf (fun i => qsumf (fun j => entry m i j) (seq 0 n)) (seq 0 n).
Proof.
  intros (_ & Hl & HF). unfold sum_all, entry.
  assert (G : forall r, List.length r = n -> qsumf (fun x => x) r = qsumf (fun j => nth j r 0) (seq 0 n)).
  { intros r <-. apply qsumf_nth. }
  transitivity (qsumf (fun i => qsumf (fun j => nth j (nth i (rows m) []) 0) (seq 0 n)) (seq 0 (List.length (rows m)))); [|now rewrite Hl].
  clear Hl. induction HF as [|x l Hx HF IH]; [reflexivity|].
  cbn [List.length seq]. rewrite !qsumf_cons. cbn [nth]. rewrite (G x Hx). f_equal.
  rewrite IH, <- seq_shift, qsumf_map. reflexivity.
Qed.

(** C22, consequences: symmetric, same diagonal, unchanged if symmetric, idempotent, same total *)
Theorem C22_average_laws : forall n m m', square n m -> averaged_off_diagonals m = Some m' ->
  symmetric n m' /\
  (forall i, (i < n)%nat -> entry m' i i = entry m i i) /\
  (symmetric n m -> m' = m) /\
  averaged_off_diagonals m' = Some m' /\
  sum_all m' = sum_all m.
Proof.
  intros n m m' Hs E. destruct (C22_average n m Hs) as (x & E' & Hs' & Hn & H). rewrite E in E'. injection E' as <-.
  assert (U : forall p q, square n p -> square n q -> conductor_names p = conductor_names q ->
     (forall i j, (i < n)%nat -> (j < n)%nat -> entry p i j = entry q i j) -> p = q).
  { intros [pn pr] [qn qr] (_ & P1 & P2) (_ & Q1 & Q2) Hnn Hee. cbn in *. f_equal; [exact Hnn|].
    apply (nth_ext_rows n); [split; auto|split; auto|exact Hee]. }
  assert (Sy : symmetric n m').
  { intros i j Hi Hj. rewrite (H i j Hi Hj), (H j i Hj Hi). f_equal. apply Qcplus_comm. }
  assert (Un : forall p p', square n p -> averaged_off_diagonals p = Some p' -> symmetric n p -> p' = p).
  { intros p p' Hp Ep Hsy. destruct (C22_average n p Hp) as (y & Ey & Hy & Hyn & Hye). rewrite Ep in Ey. injection Ey as <-.
    apply U; auto. intros i j Hi Hj. rewrite (Hye i j Hi Hj), <- (Hsy i j Hi Hj). apply half_same. }
  split; [exact Sy|]. split; [intros i Hi; rewrite (H i i Hi Hi); apply half_same|]. split; [now apply Un|]. split.
  - destruct (C22_average n m' Hs') as (y & Ey & _). rewrite Ey. f_equal. apply (Un m' y Hs' Ey Sy).
  - rewrite (sum_all_entries n m' Hs'), (sum_all_entries n m Hs).
    rewrite (qsumf_ext _ (fun i => qsumf (fun j => entry m i j / Q2Qc 2) (seq 0 n) + qsumf (fun j => entry m j i / Q2Qc 2) (seq 0 n))).
    2:{ intros i Hi. rewrite <- qsumf_plus. apply qsumf_ext. intros j Hj. apply in_seq in Hi, Hj.
        rewrite H by lia. unfold Qcdiv. ring. }
    rewrite qsumf_plus. rewrite (qsumf_comm (fun i j => entry m j i / Q2Qc 2)).
    rewrite <- qsumf_plus. apply qsumf_ext. intros i Hi. rewrite <- qsumf_plus. apply qsumf_ext. intros j Hj.
    rewrite <- (half_same (entry m i j)) at 3. unfold Qcdiv. ring.
Qed.

Definition m3 : cap_matrix := CapMatrix ["a"; "b"; "c"]%string
  [[Q2Qc 9; Q2Qc (-2); Q2Qc (-3)]; [Q2Qc (-4); Q2Qc 8; 0]; [Q2Qc (-5); Q2Qc (-1); Q2Qc 7]].
Example C22_example : square 3 m3 /\ ~ symmetric 3 m3 /\
  exists m', averaged_off_diagonals m3 = Some m' /\ qeqb (entry m' 1 0) (Q2Qc (-3)) = true.
Proof.
  split; [repeat constructor|]. split.
  - intros H. specialize (H 0%nat 1%nat ltac:(lia) ltac:(lia)). revert H. cbn. qcneq.
  - eexists. split; [reflexivity|]. vm_compute. reflexivity.
Qed.

(** * C23 *)
Definition avoids (sep : ascii) (s : string) : bool := all_chars (fun c => negb (Ascii.eqb c sep) && negb (Ascii.eqb c nl)) s.
(** a text can be a cell: no separator, no newline, no blanks around it *)
Definition cell_text (sep : ascii) (s : string) : Prop := avoids sep s = true /\ trimmed s = true.

Lemma avoids_sep sep s : avoids sep s = true -> all_chars (fun c => negb (Ascii.eqb c sep)) s = true.
Proof. apply all_chars_impl. intros c H. apply andb_prop in H. tauto. Qed.
Lemma avoids_nl sep s : avoids sep s = true -> all_chars (fun c => negb (Ascii.eqb c nl)) s = true.
Proof. apply all_chars_impl. intros c H. apply andb_prop in H. tauto. Qed.
Lemma strip_fields sep l : Forall (cell_text sep) l -> map strip (append_last l (String nl "")) = l.
Proof.
  induction 1 as [|x l [H1 H2] HF IH]; [reflexivity|]. destruct l as [|y l].
  - cbn. now rewrite strip_trimmed_app.
  - change (append_last (x :: y :: l) (String nl "")) with (x :: append_last (y :: l) (String nl "")).
    cbn [map]. rewrite IH. now rewrite strip_trimmed.
Qed.
Lemma line_fields sep l : sep <> nl -> l <> [] -> Forall (cell_text sep) l ->
  split_on sep (join sep l ++ String nl "") = append_last l (String nl "").
Proof.
  intros Hs Hne HF. apply split_join; auto.
  - eapply Forall_impl; [|exact HF]. intros x [H _]. now apply avoids_sep.
  - cbn [all_chars]. destruct (Ascii.eqb_spec nl sep); [congruence|reflexivity].
Qed.
Lemma line_nl sep l : sep <> nl -> Forall (cell_text sep) l -> all_chars (fun c => negb (Ascii.eqb c nl)) (join sep l) = true.
Proof.
  intros Hs HF. apply all_chars_join.
  - destruct (Ascii.eqb_spec sep nl); [congruence|reflexivity].
  - eapply Forall_impl; [|exact HF]. intros x [H _]. now apply (avoids_nl sep).
Qed.
Lemma map_opt_map {A B} (f : A -> option B) l r : Forall2 (fun x y => f x = Some y) l r -> map_opt f l = Some r.
Proof. induction 1 as [|x y l r H HF IH]; [reflexivity|]. cbn. now rewrite H, IH. Qed.
Lemma map_opt_strip {B} (g : string -> option B) l : map_opt (fun c => g (strip c)) l = map_opt g (map strip l).
Proof. induction l as [|x l IH]; [reflexivity|]. cbn. now rewrite IH. Qed.

Theorem C23_csv_round_trip : forall fmt parse_float (rounded : Qc -> Qc) sep m,
  (* the formatter writes cell texts which float() reads back as the rounded value *)
  (forall v, cell_text sep (fmt v) /\ parse_float (fmt v) = Some (rounded v)) ->
  sep <> nl ->
  conductor_names m <> [] -> Forall (cell_text sep) (conductor_names m) ->
  rows m <> [] -> Forall (fun r => r <> []) (rows m) ->
  parse_csv parse_float sep (write_csv fmt sep m)
  = Some (CapMatrix (conductor_names m) (map (map rounded) (rows m))).
Proof.
  intros fmt parse_float rounded sep m Hf Hs Hn Hnc Hr Hrr. unfold parse_csv, write_csv.
  assert (HF : forall row, Forall (cell_text sep) (map fmt row)).
  { intros row. apply Forall_forall. intros x Hx. apply in_map_iff in Hx. destruct Hx as (v & <- & _). apply Hf. }
  assert (L : readlines (join sep (conductor_names m) ++ String nl "" ++
      fold_right (fun row acc => (join sep (map fmt row) ++ String nl "" ++ acc)%string) ""%string (rows m))
    = (join sep (conductor_names m) ++ String nl "")%string :: map (fun row => (join sep (map fmt row) ++ String nl "")%string) (rows m)).
  { cbn [append]. rewrite readlines_line by now apply (line_nl sep). f_equal.
    clear Hr Hrr. induction (rows m) as [|row rs IH]; [reflexivity|]. cbn [fold_right map append].
    rewrite readlines_line by now apply (line_nl sep). f_equal. exact IH. }
  rewrite L. clear L.
  assert (R : map_opt (fun l => map_opt (fun cell => parse_float (strip cell)) (split_on sep l))
                (map (fun row => (join sep (map fmt row) ++ String nl "")%string) (rows m)) = Some (map (map rounded) (rows m))).
  { clear Hr. apply map_opt_map. induction Hrr as [|row rs Hne Hrr IH]; [constructor|]. cbn [map]. constructor; [|exact IH].
    rewrite line_fields; auto; [|destruct row; [easy|discriminate]].
    rewrite map_opt_strip, (strip_fields sep) by auto. apply map_opt_map.
    clear - Hf. induction row as [|v row IH]; [constructor|]. cbn. constructor; [apply Hf|exact IH]. }
  destruct (rows m) as [|row rs] eqn:Em; [easy|]. cbn [map] in *. rewrite R.
  now rewrite line_fields, (strip_fields sep) by auto.
Qed.

(** a formatter for small integers, to show that the hypotheses can be met *)
Definition toy_fmt (v : Qc) : string := if qeqb v 1 then "1" else "0".
Definition toy_parse (s : string) : option Qc := if String.eqb s "1" then Some 1 else if String.eqb s "0" then Some 0 else None.
Definition toy_round (v : Qc) : Qc := if qeqb v 1 then 1 else 0.
Example C23_example :
  (forall v, cell_text ";" (toy_fmt v) /\ toy_parse (toy_fmt v) = Some (toy_round v)) /\
  Forall (cell_text ";") (conductor_names m3) /\
  exists m', parse_csv toy_parse ";" (write_csv toy_fmt ";" m3) = Some m' /\ conductor_names m' = conductor_names m3.
Proof.
  split; [|split].
  - intros v. unfold toy_fmt, toy_round. destruct (qeqb v 1); split; try split; reflexivity.
  - repeat constructor.
  - eexists. split; reflexivity.
Qed.
Print Assumptions C22_average.
Print Assumptions C22_average_laws.
Print Assumptions C23_csv_round_trip.
