(** Laws of Conductance.parallel and Conductance.serial. *)
From Verif Require Import PyBase RN_Model RN_Inv Cond_Model.
Set Implicit Arguments.
Local Open Scope Qc_scope.

Lemma Qcdiv_nz a b : a <> 0 -> b <> 0 -> a / b <> 0.
Proof.
  intros A B E. apply A. replace a with (a / b * b) by (field; exact B). rewrite E. ring.
Qed.

Lemma c_copy_spec h a h1 r : c_copy h a = (h1, r) ->
  h1 = h ++ [hget h a] /\ r = List.length h.
Proof. unfold c_copy, c_new. intros [= <- <-]. auto. Qed.

Lemma set_last h q x : hset (h ++ [q]) (List.length h) x = h ++ [x].
Proof. unfold hset. induction h as [|y h IH]; cbn; [reflexivity|]. f_equal. exact IH. Qed.

Lemma c_parallel_spec h a b h1 r : (a < List.length h)%nat -> (b < List.length h)%nat ->
  c_parallel h a b = (h1, r) ->
  h1 = h ++ [hget h a + hget h b] /\ r = List.length h.
Proof.
  intros A B. unfold c_parallel, c_copy, c_new, c_add_parallel. intros [= <- <-].
  rewrite hget_app_last, hget_app by exact B. rewrite set_last. auto.
Qed.

(** the value [serial] computes *)
Definition ser (x y : Qc) : option Qc :=
  if c_small x || c_small y then Some 0
  else if Qc_eq_dec (1 / x + 1 / y) 0 then None else Some (1 / (1 / x + 1 / y)).

Lemma c_serial_spec h a b : (a < List.length h)%nat -> (b < List.length h)%nat ->
  c_serial h a b = match ser (hget h a) (hget h b) with
                   | Some g => Some (h ++ [g], List.length h) | None => None end.
Proof.
  intros A B. unfold c_serial, c_copy, c_new, c_add_serial, ser.
  rewrite hget_app_last, hget_app by exact B.
  destruct (_ || _); [rewrite set_last; reflexivity|].
  destruct (Qc_eq_dec _ _); [reflexivity|]. rewrite set_last. reflexivity.
Qed.

Lemma small_false_nz x : c_small x = false -> x <> 0.
Proof. intros S ->. vm_compute in S. discriminate. Qed.
Lemma ser_comm x y : ser x y = ser y x.
Proof. unfold ser. rewrite orb_comm, (Qcplus_comm (1 / x)). reflexivity. Qed.
Lemma inv_inv x : 1 / (1 / x) = x.
Proof.
  destruct (Qc_eq_dec x 0) as [->|N]; [vm_compute; reflexivity|]. field. split; [exact N|discriminate].
Qed.
Lemma inv_sum x y : x <> 0 -> y <> 0 -> (1 / x + 1 / y = 0 <-> x + y = 0).
Proof.
  intros X Y. split; intros E.
  - replace (x + y) with (x * y * (1 / x + 1 / y)) by (field; auto). rewrite E. ring.
  - replace (1 / x + 1 / y) with ((x + y) / (x * y)) by (field; auto). rewrite E. unfold Qcdiv. ring.
Qed.
Lemma ser_assoc x y z xy yz : c_small x = false -> c_small y = false -> c_small z = false ->
  ser x y = Some xy -> ser y z = Some yz ->
  c_small xy = false -> c_small yz = false -> ser xy z = ser x yz.
Proof.
  intros X Y Z. unfold ser at 1 2. rewrite X, Y, Z. cbn.
  destruct (Qc_eq_dec _ _) as [|N1]; [discriminate|]. intros [= <-].
  destruct (Qc_eq_dec _ _) as [|N2]; [discriminate|]. intros [= <-].
  intros XY YZ. unfold ser. rewrite XY, YZ, X, Z. cbn. rewrite !inv_inv, Qcplus_assoc. reflexivity.
Qed.
Lemma ser_phys x y : c_small x = false -> c_small y = false -> x + y <> 0 -> ser x y = Some (x * y / (x + y)).
Proof.
  intros X Y N. pose proof (small_false_nz X) as NX. pose proof (small_false_nz Y) as NY.
  unfold ser; rewrite X, Y; cbn. destruct (Qc_eq_dec _ _) as [E|E].
  - apply (inv_sum NX NY) in E. contradiction.
  - f_equal. field. repeat split; auto.
Qed.
Lemma ser_opposite x y : c_small x = false -> c_small y = false -> x + y = 0 -> ser x y = None.
Proof.
  intros X Y N. pose proof (small_false_nz X) as NX. pose proof (small_false_nz Y) as NY.
  unfold ser; rewrite X, Y; cbn. destruct (Qc_eq_dec _ _) as [E|E]; [reflexivity|].
  exfalso; apply E, inv_sum; auto.
Qed.
Lemma ser_open x y : c_small x = true \/ c_small y = true -> ser x y = Some 0.
Proof. unfold ser. intros [->| ->]; [reflexivity|]. rewrite orb_true_r. reflexivity. Qed.
Lemma c_small_spec x : c_small x = true <-> Qcabs' x < Q2Qc (1 # 10000000000).
Proof.
  unfold c_small. change threshold with (Q2Qc (1 # 10000000000)).
  destruct (Qclt_le_dec _ _) as [L|L]; split; auto; [discriminate|].
  intros Q; exfalso; apply (Qclt_not_le _ _ Q L).
Qed.
Lemma c_small_not x : c_small x = false <-> Q2Qc (1 # 10000000000) <= Qcabs' x.
Proof.
  unfold c_small. change threshold with (Q2Qc (1 # 10000000000)).
  destruct (Qclt_le_dec _ _) as [L|L]; split; auto; [discriminate|].
  intros Q; exfalso; apply (Qclt_not_le _ _ L Q).
Qed.
