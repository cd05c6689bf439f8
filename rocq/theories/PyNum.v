(** Numbers as Python writes them: round(x, k) and its text in an f-string.
    Simplified: the number is an exact rational, and the text is that of the exact decimal fraction (Python rounds to the
    nearest binary fraction and writes the shortest text that reads back to it: the same text below 10^12 or so; from 10^16
    on Python switches to an exponent). *)
From Coq Require Import String Ascii ZArith QArith.Qround Qabs Lia Lqa.
From Verif Require Import PyBase PyStr.
Local Open Scope list_scope.
Local Open Scope string_scope.
Local Open Scope Z_scope.

(** nearest integer, ties to the even one *)
Definition round_half_even (x : Q) : Z :=
  let f := Qfloor x in
  match ((x - inject_Z f) ?= (1 # 2))%Q with
  | Lt => f
  | Gt => f + 1
  | Eq => if Z.even f then f else f + 1
  end.
Definition digit (d : Z) : ascii := ascii_of_nat (48 + Z.to_nat d)%nat.
(** decimal digits of a number below 10^fuel *)
Fixpoint digits (fuel : nat) (a : Z) : string :=
  match fuel with
  | O => ""
  | S f => if a <? 10 then String (digit a) "" else digits f (a / 10) ++ String (digit (a mod 10)) ""
  end.
Definition nat_text (a : Z) : string := digits (S (Z.to_nat (Z.log2 a))) a.
(** the k digits after the point, without the zeros at the end *)
Fixpoint frac_text (k : nat) (f : Z) : string :=
  match k with
  | O => ""
  | S k' => let p := 10 ^ Z.of_nat k' in
            String (digit (f / p)) (if f mod p =? 0 then "" else frac_text k' (f mod p))
  end.
(** str(round(x, k)) for k >= 1; a negative number that is rounded to zero is written -0.0 *)
Definition show_round (k : nat) (x : Qc) : string :=
  let p := 10 ^ Z.of_nat k in
  let a := Z.abs (round_half_even (x * inject_Z p)%Q) in
  (if qltb x 0 then "-" else "") ++ nat_text (a / p) ++ "." ++ frac_text k (a mod p).

(** * Reading a number back *)
Definition digit_of (c : ascii) : option Z := if isdigit c then Some (Z.of_nat (nat_of_ascii c) - 48) else None.
(** digits after the point, the first one worth [w] *)
Fixpoint read_frac (w : Q) (s : string) : option Q :=
  match s with
  | "" => Some 0%Q
  | String c t => match digit_of c, read_frac (w / 10)%Q t with Some d, Some r => Some (inject_Z d * w + r)%Q | _, _ => None end
  end.
(** digits before the point *)
Fixpoint read_digits (acc : Z) (s : string) : option Q :=
  match s with
  | "" => Some (inject_Z acc)
  | String c t =>
      if Ascii.eqb c "."%char then option_map (Qplus (inject_Z acc)) (read_frac (1 # 10) t)
      else match digit_of c with Some d => read_digits (10 * acc + d) t | None => None end
  end.
Definition read_number (s : string) : option Q :=
  match s with
  | String "-" t => option_map Qopp (read_digits 0 t)
  | _ => read_digits 0 s
  end.
(** the text [s] is the number [x] rounded to [k] places *)
Definition rounds (k : nat) (s : string) (x : Q) : Prop :=
  exists q, read_number s = Some q /\ (Qabs (q - x) <= 1 / (2 * inject_Z (10 ^ Z.of_nat k)))%Q.

(** * Facts *)
Lemma round_half_even_near x : (Qabs (inject_Z (round_half_even x) - x) <= 1 # 2)%Q.
Proof.
  unfold round_half_even. pose proof (Qfloor_le x) as A. pose proof (Qlt_floor x) as B. rewrite inject_Z_plus in B. change (inject_Z 1) with 1%Q in B.
  set (f := Qfloor x) in *. clearbody f. apply Qabs_Qle_condition.
  destruct ((x - inject_Z f) ?= 1 # 2)%Q eqn:E.
  - apply Qeq_alt in E. destruct (Z.even f); [|rewrite inject_Z_plus; change (inject_Z 1) with 1%Q]; split; lra.
  - apply Qlt_alt in E. split; lra.
  - apply Qgt_alt in E. rewrite inject_Z_plus. change (inject_Z 1) with 1%Q. split; lra.
Qed.
Lemma round_half_even_sign x : ((0 <= x)%Q -> 0 <= round_half_even x) /\ ((x <= 0)%Q -> round_half_even x <= 0).
Proof.
  pose proof (round_half_even_near x) as N. apply Qabs_Qle_condition in N. split; intros H.
  - assert (X : (inject_Z (-1) < inject_Z (round_half_even x))%Q) by (change (inject_Z (-1)) with (-1)%Q; lra).
    rewrite <- Zlt_Qlt in X. lia.
  - assert (X : (inject_Z (round_half_even x) < inject_Z 1)%Q) by (change (inject_Z 1) with 1%Q; lra).
    rewrite <- Zlt_Qlt in X. lia.
Qed.

Lemma digit_ok d : 0 <= d < 10 -> digit_of (digit d) = Some d /\ isdigit (digit d) = true /\ digit d <> "."%char /\ digit d <> "-"%char.
Proof.
  intros H. assert (E : d = 0 \/ d = 1 \/ d = 2 \/ d = 3 \/ d = 4 \/ d = 5 \/ d = 6 \/ d = 7 \/ d = 8 \/ d = 9) by lia.
  repeat (destruct E as [->|E]); [..|subst d]; (split; [reflexivity|split; [reflexivity|split; discriminate]]).
Qed.

Lemma digits_chars : forall f a, 0 <= a -> all_chars isdigit (digits f a) = true.
Proof.
  induction f as [|f IH]; intros a H; [reflexivity|]. cbn [digits]. destruct (Z.ltb_spec a 10) as [L|L].
  - cbn [all_chars]. now rewrite (proj1 (proj2 (digit_ok a (conj H L)))).
  - rewrite all_chars_app, IH by (apply Z.div_pos; lia). cbn [all_chars].
    rewrite (proj1 (proj2 (digit_ok (a mod 10) (Z.mod_pos_bound a 10 ltac:(lia))))). reflexivity.
Qed.
Lemma digits_read : forall f a r, 0 <= a < 10 ^ Z.of_nat f -> f <> O -> read_digits 0 (digits f a ++ r) = read_digits a r.
Proof.
  assert (App : forall s c r, (s ++ String c "") ++ r = s ++ String c r) by (intros; rewrite str_app_assoc; reflexivity).
  induction f as [|f IH]; intros a r H Z; [congruence|]. cbn [digits]. destruct (Z.ltb_spec a 10) as [L|L].
  - destruct (digit_ok a ltac:(lia)) as (D & _ & P & _). cbn [String.append read_digits].
    destruct (Ascii.eqb_spec (digit a) "."%char); [contradiction|]. rewrite D. f_equal.
  - rewrite App. rewrite Nat2Z.inj_succ, Z.pow_succ_r in H by lia.
    assert (B : 0 <= a / 10 < 10 ^ Z.of_nat f) by (split; [apply Z.div_pos; lia|apply Z.div_lt_upper_bound; lia]).
    destruct f as [|f]; [cbn in B; assert (a / 10 = 0) by lia; apply Z.div_small_iff in H0; lia|].
    rewrite IH by (auto; exact B). pose proof (Z.mod_pos_bound a 10 ltac:(lia)) as M.
    destruct (digit_ok (a mod 10) M) as (D & _ & P & _). cbn [read_digits].
    destruct (Ascii.eqb_spec (digit (a mod 10)) "."%char); [contradiction|]. rewrite D. f_equal.
    pose proof (Z.div_mod a 10 ltac:(lia)). lia.
Qed.
Lemma nat_text_read a r : 0 <= a -> read_digits 0 (nat_text a ++ r) = read_digits a r.
Proof.
  intros H. apply digits_read; [|discriminate]. split; [exact H|].
  assert (a = 0 \/ 0 < a) as [->|P] by lia; [reflexivity|].
  apply Z.lt_le_trans with (2 ^ Z.succ (Z.log2 a)); [apply Z.log2_spec; exact P|].
  rewrite Nat2Z.inj_succ, Z2Nat.id by apply Z.log2_nonneg. apply Z.pow_le_mono_l. lia.
Qed.
Lemma nat_text_chars a : 0 <= a -> all_chars isdigit (nat_text a) = true.
Proof. apply digits_chars. Qed.
Lemma nat_text_first a : 0 <= a -> exists c t, nat_text a = String c t /\ isdigit c = true.
Proof.
  intros H. pose proof (nat_text_chars a H) as C. destruct (nat_text a) as [|c t] eqn:E.
  - exfalso. pose proof (nat_text_read a "x" H) as R. rewrite E in R. unfold nat_text in E. cbn [digits] in E.
    destruct (a <? 10); [discriminate|]. destruct (digits (Z.to_nat (Z.log2 a)) (a / 10)); discriminate.
  - cbn [all_chars] in C. apply andb_prop in C. exists c, t. tauto.
Qed.

Lemma pow10_pos k : 0 < 10 ^ Z.of_nat k. Proof. apply Z.pow_pos_nonneg; lia. Qed.
Lemma frac_chars : forall k f, 0 <= f < 10 ^ Z.of_nat k -> all_chars isdigit (frac_text k f) = true.
Proof.
  induction k as [|k IH]; intros f H; [reflexivity|]. cbn [frac_text]. rewrite Nat2Z.inj_succ, Z.pow_succ_r in H by lia.
  pose proof (pow10_pos k) as P. set (p := 10 ^ Z.of_nat k) in *.
  assert (D : 0 <= f / p < 10) by (split; [apply Z.div_pos; lia|apply Z.div_lt_upper_bound; lia]).
  cbn [all_chars]. rewrite (proj1 (proj2 (digit_ok _ D))). cbn [andb]. destruct (f mod p =? 0); [reflexivity|].
  apply IH. apply Z.mod_pos_bound. exact P.
Qed.
Lemma frac_read : forall k f w, 0 <= f < 10 ^ Z.of_nat k -> k <> O ->
  exists q, read_frac w (frac_text k f) = Some q /\ (q * inject_Z (10 ^ Z.of_nat k) == 10 * w * inject_Z f)%Q.
Proof.
  induction k as [|k IH]; intros f w H N; [congruence|]. cbn [frac_text]. pose proof H as H0. rewrite Nat2Z.inj_succ, Z.pow_succ_r in H0 by lia.
  pose proof (pow10_pos k) as P. rewrite Nat2Z.inj_succ, Z.pow_succ_r by lia. set (p := 10 ^ Z.of_nat k) in *.
  assert (D : 0 <= f / p < 10) by (split; [apply Z.div_pos; lia|apply Z.div_lt_upper_bound; lia]).
  pose proof (Z.div_mod f p ltac:(lia)) as DM. pose proof (Z.mod_pos_bound f p P) as MB.
  assert (EQ : inject_Z f = (inject_Z p * inject_Z (f / p) + inject_Z (f mod p))%Q) by (rewrite <- inject_Z_mult, <- inject_Z_plus; f_equal; exact DM).
  cbn [read_frac]. rewrite (proj1 (digit_ok _ D)). destruct (Z.eqb_spec (f mod p) 0) as [E0|E0].
  - eexists. split; [reflexivity|]. rewrite EQ, E0. rewrite inject_Z_mult. change (inject_Z 10) with 10%Q. change (inject_Z 0) with 0%Q. ring.
  - destruct k as [|k]; [subst p; cbn in *; rewrite Z.mod_1_r in E0; congruence|].
    destruct (IH (f mod p) (w / 10)%Q) as (q & -> & Q); [exact MB|discriminate|]. eexists. split; [reflexivity|].
    rewrite EQ, inject_Z_mult. change (inject_Z 10) with 10%Q. fold p in Q.
    setoid_replace (10 * (w / 10) * inject_Z (f mod p))%Q with (w * inject_Z (f mod p))%Q in Q by field.
    rewrite Qmult_plus_distr_l. setoid_replace (q * (10 * inject_Z p))%Q with (10 * (q * inject_Z p))%Q by ring. rewrite Q. ring.
Qed.

Definition number_char (c : ascii) : bool := isdigit c || Ascii.eqb c "."%char || Ascii.eqb c "-"%char.
Lemma show_round_chars k x : all_chars number_char (show_round k x) = true.
Proof.
  unfold show_round. pose proof (pow10_pos k) as P. set (p := 10 ^ Z.of_nat k) in *. set (a := Z.abs _).
  assert (A : 0 <= a) by apply Z.abs_nonneg.
  assert (I : forall s, all_chars isdigit s = true -> all_chars number_char s = true).
  { intros s. apply all_chars_impl. intros c C. unfold number_char. now rewrite C. }
  rewrite !all_chars_app, (I (nat_text _)) by (apply nat_text_chars, Z.div_pos; lia).
  rewrite (I (frac_text _ _)) by (apply frac_chars, Z.mod_pos_bound; exact P).
  destruct (qltb x 0); reflexivity.
Qed.
Lemma show_round_rounds k (x : Qc) : k <> O -> rounds k (show_round k x) x.
Proof.
  intros K. unfold show_round. pose proof (pow10_pos k) as P. set (p := 10 ^ Z.of_nat k) in *.
  set (z := round_half_even (x * inject_Z p)%Q). set (a := Z.abs z).
  assert (A : 0 <= a) by apply Z.abs_nonneg. assert (A1 : 0 <= a / p) by (apply Z.div_pos; lia).
  pose proof (Z.mod_pos_bound a p P) as A2.
  destruct (frac_read k (a mod p) (1 # 10) A2 K) as (q & R & Q). fold p in Q.
  assert (PQ : (0 < inject_Z p)%Q) by (change 0%Q with (inject_Z 0); rewrite <- Zlt_Qlt; exact P).
  assert (U : exists v, read_digits 0 (nat_text (a / p) ++ "." ++ frac_text k (a mod p)) = Some v /\ (v * inject_Z p == inject_Z a)%Q).
  { rewrite nat_text_read by exact A1. cbn [String.append read_digits]. change (Ascii.eqb "."%char "."%char) with true. cbn iota.
    rewrite R. cbn [option_map]. eexists. split; [reflexivity|].
    rewrite Qmult_plus_distr_l, Q. rewrite <- inject_Z_mult.
    setoid_replace (10 * (1 # 10) * inject_Z (a mod p))%Q with (inject_Z (a mod p)) by ring. rewrite <- inject_Z_plus.
    rewrite (Z.div_mod a p) at 3 by lia. rewrite (Z.mul_comm p). reflexivity. }
  destruct U as (v & U & V).
  pose proof (round_half_even_near (x * inject_Z p)%Q) as N. fold z in N.
  destruct (round_half_even_sign (x * inject_Z p)%Q) as [S1 S2]. fold z in S1, S2.
  assert (Fin : forall q, (q * inject_Z p == inject_Z z)%Q -> (Qabs (q - x) <= 1 / (2 * inject_Z p))%Q).
  { intros r E. apply Qle_shift_div_l; [lra|].
    setoid_replace (Qabs (r - x) * (2 * inject_Z p))%Q with (2 * Qabs (inject_Z z - x * inject_Z p))%Q; [lra|].
    rewrite <- E. setoid_replace (r * inject_Z p - x * inject_Z p)%Q with ((r - x) * inject_Z p)%Q by ring.
    rewrite Qabs_Qmult, (Qabs_pos (inject_Z p)) by lra. ring. }
  destruct (qltb x 0) eqn:X.
  - apply qltb_true in X. unfold Qclt in X. cbn in X. exists (- v)%Q. split; [match goal with |- read_number ("-" ++ ?X) = _ => change (option_map Qopp (read_digits 0 X) = Some (- v)%Q) end; rewrite U; reflexivity|].
    apply Fin. assert (z <= 0). { apply S2. nra. }
    setoid_replace (- v * inject_Z p)%Q with (- (v * inject_Z p))%Q by ring. rewrite V. unfold a. rewrite Z.abs_neq by lia.
    rewrite <- inject_Z_opp. now rewrite Z.opp_involutive.
  - assert (X' : (0 <= x)%Q). { destruct (Qlt_le_dec x 0) as [C|C]; [|exact C]. exfalso.
      assert (T : qltb x 0 = true) by (apply qltb_true; exact C). congruence. }
    exists v. split.
    + change ("" ++ nat_text (a / p) ++ "." ++ frac_text k (a mod p)) with (nat_text (a / p) ++ "." ++ frac_text k (a mod p)).
      destruct (nat_text_first (a / p) A1) as (c & t & E & C). rewrite E in *. cbn [String.append read_number] in *.
      destruct c as [[] [] [] [] [] [] [] []]; try discriminate; exact U.
    + apply Fin. assert (0 <= z). { apply S1. nra. } rewrite V. unfold a. now rewrite Z.abs_eq.
Qed.
Example show_round_ex : show_round 3 (Q2Qc (1234567 # 100000)) = "12.346" /\ show_round 3 (Q2Qc (-1 # 16)) = "-0.062" /\
  show_round 2 (Q2Qc (4 # 1000)) = "0.0" /\ show_round 2 (Q2Qc (-4 # 1000)) = "-0.0" /\ show_round 3 (Q2Qc 1205) = "1205.0".
Proof. vm_compute. repeat split; reflexivity. Qed.
