(** Texts of numbers: what '%.12g' writes is decimal notation, and what float() makes of decimal notation. *)
From Coq Require Import ZArith Reals Lra Lia Psatz String Ascii List Qcanon Qreals.
From Flocq Require Import Core.Core Relative IEEE754.BinarySingleNaN.
From Verif Require Import PyBase PyStr PyNum FP_Model FP_Spec FP_Proofs NF_Model NF_Spec NF_Proofs.
Import ListNotations.
Local Close Scope Qc_scope.
Local Open Scope string_scope.
Local Open Scope Z_scope.

(** * Digits *)
Lemma dv_app : forall s acc t, digits_value acc (s ++ t) = digits_value (digits_value acc s) t.
Proof. induction s as [|c s IH]; intros acc t; [reflexivity|]. cbn. apply IH. Qed.
Lemma Some_inj_Z (a b : Z) : Some a = Some b -> a = b. Proof. congruence. Qed.
Lemma dv_digit d acc : 0 <= d < 10 -> digits_value acc (String (digit d) "") = 10 * acc + d.
Proof.
  intros H. destruct (digit_ok d H) as (A & _). unfold digit_of in A. destruct (isdigit (digit d)); [|discriminate].
  apply Some_inj_Z in A. cbn [digits_value]. rewrite A. reflexivity.
Qed.
Lemma dv_digits : forall f a, 0 <= a < 10 ^ Z.of_nat f -> f <> O -> digits_value 0 (digits f a) = a.
Proof.
  induction f as [|f IH]; intros a H N; [congruence|]. cbn [digits]. destruct (Z.ltb_spec a 10) as [L|L].
  - rewrite dv_digit by lia. lia.
  - rewrite Nat2Z.inj_succ, Z.pow_succ_r in H by lia. rewrite dv_app.
    assert (B : 0 <= a / 10 < 10 ^ Z.of_nat f) by (split; [apply Z.div_pos; lia|apply Z.div_lt_upper_bound; lia]).
    destruct f as [|f]; [cbn in B; assert (a / 10 = 0) by lia; apply Z.div_small_iff in H0; lia|].
    rewrite IH by (auto; exact B). rewrite dv_digit by (apply Z.mod_pos_bound; lia). pose proof (Z.div_mod a 10 ltac:(lia)). lia.
Qed.
Lemma nat_text_ne a : 0 <= a -> nat_text a <> "".
Proof. intros H. destruct (nat_text_first a H) as (c & t & -> & _). discriminate. Qed.
Lemma nat_text_natural a : 0 <= a -> natural (nat_text a) a.
Proof.
  intros H. split; [now apply nat_text_ne|]. split; [now apply nat_text_chars|]. symmetry. apply dv_digits; [|discriminate]. split; [exact H|].
  assert (a = 0 \/ 0 < a) as [-> |P] by lia; [reflexivity|].
  apply Z.lt_le_trans with (2 ^ Z.succ (Z.log2 a)); [apply Z.log2_spec; exact P|].
  rewrite Nat2Z.inj_succ, Z2Nat.id by apply Z.log2_nonneg. apply Z.pow_le_mono_l. lia.
Qed.
Lemma dv_frac : forall k f acc, 0 <= f < 10 ^ Z.of_nat k -> k <> O ->
  let s := frac_text k f in (1 <= String.length s <= k)%nat /\
  digits_value acc s * 10 ^ (Z.of_nat k - Z.of_nat (String.length s)) = acc * 10 ^ Z.of_nat k + f.
Proof.
  induction k as [|k IH]; intros f acc H N; [congruence|]. cbn [frac_text]. pose proof H as H0. rewrite Nat2Z.inj_succ, Z.pow_succ_r in H0 by lia.
  pose proof (pow10_pos k) as P. set (p := 10 ^ Z.of_nat k) in *. cbn zeta.
  assert (D : 0 <= f / p < 10) by (split; [apply Z.div_pos; lia|apply Z.div_lt_upper_bound; lia]).
  pose proof (Z.div_mod f p ltac:(lia)) as DM. pose proof (Z.mod_pos_bound f p P) as MB.
  assert (Pk : 10 ^ Z.of_nat (S k) = 10 * p) by (rewrite Nat2Z.inj_succ, Z.pow_succ_r by lia; reflexivity).
  destruct (Z.eqb_spec (f mod p) 0) as [E0|E0].
  - cbn [String.length]. split; [lia|]. rewrite dv_digit by exact D. replace (Z.of_nat (S k) - Z.of_nat 1) with (Z.of_nat k) by lia. fold p. rewrite Pk. nia.
  - destruct k as [|k]; [subst p; cbn in *; rewrite Z.mod_1_r in E0; congruence|].
    destruct (IH (f mod p) (10 * acc + f / p) MB ltac:(discriminate)) as [A B]. cbn [String.length]. split; [lia|].
    change (String (digit (f / p)) (frac_text (S k) (f mod p))) with (String (digit (f / p)) "" ++ frac_text (S k) (f mod p)).
    rewrite dv_app, dv_digit by exact D.
    replace (Z.of_nat (S (S k)) - Z.of_nat (S (String.length (frac_text (S k) (f mod p))))) with (Z.of_nat (S k) - Z.of_nat (String.length (frac_text (S k) (f mod p)))) by lia.
    rewrite B, Pk. fold p. nia.
Qed.

Local Open Scope R_scope.
Lemma IZR_ten k : (0 <= k)%Z -> IZR (10 ^ k) = p10 k. Proof. apply (IZR_Zpower ten). Qed.
Lemma plain_ok places q : (0 <= places)%Z -> (0 <= q)%Z -> fraction (plain places q) (IZR q * p10 (- places)).
Proof.
  intros Hp Hq. unfold plain. assert (P : (0 < 10 ^ places)%Z) by (apply Z.pow_pos_nonneg; lia).
  pose proof (Z.div_mod q (10 ^ places) ltac:(lia)) as DM. pose proof (Z.mod_pos_bound q (10 ^ places) P) as MB.
  assert (Q0 : (0 <= q / 10 ^ places)%Z) by (apply Z.div_pos; lia). rewrite bpow_opp, <- IZR_ten by exact Hp.
  assert (Pr : 0 < IZR (10 ^ places)) by (apply IZR_lt; exact P).
  destruct (Z.eqb_spec (q mod 10 ^ places) 0) as [E|E].
  - left. rewrite str_app_nil. exists (q / 10 ^ places)%Z. split; [now apply nat_text_natural|].
    rewrite DM at 1. rewrite E, Z.add_0_r, mult_IZR. field. lra.
  - right. set (k := Z.to_nat places). assert (K : Z.of_nat k = places) by (unfold k; lia).
    destruct (dv_frac k (q mod 10 ^ places) (q / 10 ^ places)) as [L V].
    { rewrite K. exact MB. }
    { intros Z. rewrite Z in K. cbn in K. subst places. cbn in E. rewrite Z.mod_1_r in E. congruence. }
    set (f := frac_text k (q mod 10 ^ places)) in *. rewrite K in V.
    exists (nat_text (q / 10 ^ places)), f, (digits_value 0 (nat_text (q / 10 ^ places) ++ f)).
    split; [reflexivity|]. split; [now apply nat_text_ne|]. split; [intros Z; rewrite Z in L; cbn in L; lia|].
    split; [split; [|split; [|reflexivity]]|].
    + destruct (nat_text_first _ Q0) as (c & t & -> & _). discriminate.
    + rewrite all_chars_app, nat_text_chars by exact Q0. unfold f. rewrite frac_chars by (rewrite K; exact MB). reflexivity.
    + rewrite dv_app. destruct (nat_text_natural _ Q0) as (_ & _ & <-). set (v := digits_value _ f) in *.
      assert (E1 : (v * 10 ^ (places - Z.of_nat (String.length f)) = q)%Z) by (rewrite V; lia).
      rewrite <- p10_pow. rewrite <- E1 at 1. rewrite mult_IZR, !IZR_ten by lia.
      replace (p10 places) with (p10 (places - Z.of_nat (String.length f)) * p10 (Z.of_nat (String.length f))) by (rewrite <- bpow_plus; f_equal; lia).
      assert (0 < p10 (places - Z.of_nat (String.length f))) by apply p10_pos. assert (0 < p10 (Z.of_nat (String.length f))) by apply p10_pos.
      field. lra.
Qed.
Lemma natural_zero s n : natural s n -> natural ("0" ++ s) n.
Proof. intros (A & B & C). split; [discriminate|]. split; [exact B|]. exact C. Qed.
Lemma exponent_ok k : exponent (exponent_text k) k.
Proof.
  right. unfold exponent_text. assert (A : (0 <= Z.abs k)%Z) by lia.
  set (ds := (if (Z.abs k <? 10)%Z then "0" else "") ++ nat_text (Z.abs k)).
  assert (N : natural ds (Z.abs k)).
  { unfold ds. pose proof (nat_text_natural _ A). destruct (Z.abs k <? 10)%Z; [now apply natural_zero|exact H]. }
  exists ds, (Z.abs k). split; [exact N|].
  destruct (Z.ltb_spec k 0) as [L|L]; [right|left]; (split; [reflexivity|lia]).
Qed.
Definition unsigned (s : string) (x : R) : Prop := exists m ex y k, s = m ++ ex /\ fraction m y /\ exponent ex k /\ x = y * p10 k.
Lemma g_text_ok n d : (0 < n)%Z -> (0 < d)%Z -> exists q k, twelve n d = (q, k) /\ (10 ^ 11 <= q < 10 ^ 12)%Z /\
  unsigned (g_text n d) (IZR q * p10 (k - 11)) /\ Rabs (IZR q * p10 (k - 11) - IZR n / IZR d) <= 5 / 10 ^ 12 * (IZR n / IZR d).
Proof.
  intros N D. destruct (twelve_value n d N D) as (q & k & T & Hq & H). exists q, k. split; [exact T|]. split; [exact Hq|]. split; [|exact H].
  unfold g_text. rewrite T. destruct ((-4 <=? k)%Z && (k <? 12)%Z) eqn:E.
  - apply andb_prop in E. destruct E as [E1 E2]. apply Z.leb_le in E1. apply Z.ltb_lt in E2.
    exists (plain (11 - k) q), "", (IZR q * p10 (- (11 - k))), 0%Z. rewrite str_app_nil. split; [reflexivity|]. split; [apply plain_ok; lia|].
    split; [left; split; reflexivity|]. cbn [bpow]. rewrite Rmult_1_r. do 2 f_equal. lia.
  - exists (plain 11 q), (exponent_text k), (IZR q * p10 (- (11))), k. split; [reflexivity|]. split; [apply plain_ok; lia|]. split; [apply exponent_ok|].
    rewrite Rmult_assoc, <- bpow_plus. do 2 f_equal. lia.
Qed.
Lemma decimal_plus s x : unsigned s x -> decimal s x.
Proof. intros (m & ex & y & k & -> & F & E & ->). exists m, ex, y, k. rewrite p10_powerRZ. auto. Qed.
Lemma decimal_minus s x : unsigned s x -> decimal ("-" ++ s) (- x).
Proof. intros (m & ex & y & k & -> & F & E & ->). exists m, ex, y, k. rewrite p10_powerRZ. auto. Qed.

(** * Fractions with signs *)
Lemma Q2R_make n d : Q2R (n # d) = IZR n / IZR (Zpos d). Proof. reflexivity. Qed.
Lemma zero_decimal : decimal "0" 0.
Proof.
  exists "0", "", 0, 0%Z. split; [left; exists 0%Z; split; [split; [discriminate|split; reflexivity]|reflexivity]|].
  split; [left; split; reflexivity|]. left. split; [reflexivity|]. ring.
Qed.
Lemma minus_zero_decimal : decimal "-0" 0.
Proof.
  exists "0", "", 0, 0%Z. split; [left; exists 0%Z; split; [split; [discriminate|split; reflexivity]|reflexivity]|].
  split; [left; split; reflexivity|]. right. split; [reflexivity|]. ring.
Qed.
Definition signed (s : bool) (x : R) : R := if s then - x else x.
(** the text of a fraction *)
Lemma q_text_ok (x : Q) : (x == 0)%Q /\ q_text x = "0" \/
  exists s n d q k, (0 < n)%Z /\ (0 < d)%Z /\ Q2R x = signed s (IZR n / IZR d) /\ twelve n d = (q, k) /\ (10 ^ 11 <= q < 10 ^ 12)%Z /\
    q_text x = (if s then "-" else "") ++ g_text n d /\ unsigned (g_text n d) (IZR q * p10 (k - 11)) /\
    Rabs (IZR q * p10 (k - 11) - IZR n / IZR d) <= 5 / 10 ^ 12 * (IZR n / IZR d).
Proof.
  destruct x as [n d]. unfold q_text. cbn [Qnum Qden]. destruct n as [|n|n].
  - left. split; reflexivity.
  - right. destruct (g_text_ok (Zpos n) (Zpos d) eq_refl eq_refl) as (q & k & A & B & C & D).
    exists false, (Zpos n), (Zpos d), q, k. repeat split; auto; try apply B; reflexivity.
  - right. destruct (g_text_ok (Zpos n) (Zpos d) eq_refl eq_refl) as (q & k & A & B & C & D).
    exists true, (Zpos n), (Zpos d), q, k. repeat split; auto; try apply B.
    cbn [signed]. rewrite Q2R_make. rewrite <- Pos2Z.opp_pos, opp_IZR. unfold Rdiv. ring.
Qed.
Lemma signed_decimal (s : bool) t x : unsigned t x -> decimal ((if s then "-" else "") ++ t) (signed s x).
Proof. destruct s; [apply decimal_minus|apply decimal_plus]. Qed.
Lemma signed_abs s x : Rabs (signed s x) = Rabs x. Proof. destruct s; cbn; [apply Rabs_Ropp|reflexivity]. Qed.
Lemma signed_minus s x y : signed s x - signed s y = signed s (x - y). Proof. destruct s; cbn; ring. Qed.

(** * float() *)
Lemma isdigit_of c : isdigit c = true -> digit_of c = Some (Z.of_nat (nat_of_ascii c) - 48)%Z.
Proof. intros H. unfold digit_of. now rewrite H. Qed.
(** a text that does not start with a digit *)
Definition no_digit (s : string) : Prop := match s with "" => True | String c _ => isdigit c = false end.
Lemma take_digits_ok : forall ds acc c rest, all_chars isdigit ds = true -> no_digit rest ->
  take_digits acc c (ds ++ rest) = (digits_value acc ds, (c + String.length ds)%nat, rest).
Proof.
  induction ds as [|x ds IH]; intros acc c rest H N.
  - cbn [String.append digits_value String.length]. rewrite Nat.add_0_r. destruct rest as [|y rest]; [reflexivity|].
    cbn [take_digits]. cbn in N. unfold digit_of. now rewrite N.
  - cbn [all_chars] in H. apply andb_prop in H. destruct H as [H1 H2]. cbn [String.append take_digits]. rewrite (isdigit_of _ H1), IH by assumption.
    cbn [digits_value String.length]. f_equal. f_equal. lia.
Qed.
Lemma dv_nonneg : forall s acc, all_chars isdigit s = true -> (0 <= acc)%Z -> (0 <= digits_value acc s)%Z.
Proof.
  induction s as [|c s IH]; intros acc H A; [exact A|]. cbn [all_chars] in H. apply andb_prop in H. destruct H as [H1 H2]. cbn [digits_value].
  apply IH; [exact H2|]. unfold isdigit in H1. apply andb_prop in H1. destruct H1 as [H1 _]. apply Nat.leb_le in H1. lia.
Qed.
Lemma take_sign_digit c t : isdigit c = true -> take_sign (String c t) = (false, String c t).
Proof. intros H. destruct c as [[] [] [] [] [] [] [] []]; cbn in H |- *; try reflexivity; discriminate. Qed.
Lemma exponent_take ex k : exponent ex k -> take_exponent ex = Some k /\ no_digit ex /\ (forall t, ex <> String "." t).
Proof.
  intros [[-> ->] | (ds & n & (N1 & N2 & ->) & [[-> ->] | [-> ->]])].
  - split; [reflexivity|]. split; [exact I|]. discriminate.
  - split; [|split; [reflexivity|discriminate]]. cbn. rewrite <- (str_app_nil ds) at 1. rewrite take_digits_ok by (auto; exact I).
    destruct ds as [|c ds]; [congruence|]. reflexivity.
  - split; [|split; [reflexivity|discriminate]]. cbn. rewrite <- (str_app_nil ds) at 1. rewrite take_digits_ok by (auto; exact I).
    destruct ds as [|c ds]; [congruence|]. reflexivity.
Qed.
(** the rest of [scan] after the sign *)
Definition scan_unsigned (neg : bool) (s : string) : option (bool * Z * Z) :=
  let '(a, ca, s) := take_digits 0 0 s in
  let '(m, cf, s) := match s with String "." t => take_digits a 0 t | _ => (a, O, s) end in
  match (ca + cf)%nat, take_exponent s with
  | S _, Some k => Some (neg, m, (k - Z.of_nat cf)%Z)
  | _, _ => None
  end.
Lemma scan_fraction neg m ex y k : fraction m y -> exponent ex k ->
  exists a p, scan_unsigned neg (m ++ ex) = Some (neg, a, p) /\ (0 <= a)%Z /\ y * p10 k = IZR a * p10 p.
Proof.
  intros F E. destruct (exponent_take ex k E) as (T & ND & NP). unfold scan_unsigned. destruct F as [(n & (N1 & N2 & ->) & ->) | (i & f & n & -> & I0 & F0 & (N1 & N2 & ->) & ->)].
  - rewrite take_digits_ok by assumption. exists (digits_value 0 m), k.
    assert (M : match ex with String "." t => take_digits (digits_value 0 m) 0 t | _ => (digits_value 0 m, O, ex) end = (digits_value 0 m, O, ex)).
    { destruct ex as [|c t]; [reflexivity|]. destruct c as [[] [] [] [] [] [] [] []]; try reflexivity. exfalso. apply (NP t). reflexivity. }
    rewrite M, T. destruct m as [|c m]; [congruence|]. cbn [String.length Nat.add]. split; [do 2 f_equal; lia|]. split; [apply dv_nonneg; auto; lia|reflexivity].
  - rewrite all_chars_app in N2. apply andb_prop in N2. destruct N2 as [Ni Nf].
    rewrite !str_app_assoc. rewrite take_digits_ok by (auto; reflexivity). cbn [String.append]. rewrite take_digits_ok by assumption.
    rewrite T. exists (digits_value (digits_value 0 i) f), (k - Z.of_nat (String.length f))%Z.
    destruct i as [|c i]; [congruence|]. cbn [String.length Nat.add]. split; [reflexivity|]. split.
    + apply dv_nonneg; [exact Nf|]. apply dv_nonneg; [exact Ni|lia].
    + rewrite dv_app, <- p10_pow. unfold Zminus. rewrite bpow_plus, bpow_opp. field. apply Rgt_not_eq. apply p10_pos.
Qed.
Lemma fraction_first m y ex : fraction m y -> exists c t, m ++ ex = String c t /\ isdigit c = true.
Proof.
  intros [(n & (N1 & N2 & _) & _) | (i & f & n & -> & I0 & _ & (_ & N2 & _) & _)].
  - destruct m as [|c m]; [congruence|]. cbn [all_chars] in N2. apply andb_prop in N2. exists c, (m ++ ex). tauto.
  - destruct i as [|c i]; [congruence|]. cbn [String.append all_chars] in N2. apply andb_prop in N2. exists c, ((i ++ "." ++ f) ++ ex). tauto.
Qed.
Lemma scan_ok s x : decimal s x -> exists neg a p, scan s = Some (neg, a, p) /\ (0 <= a)%Z /\ x = signed neg (IZR a * p10 p).
Proof.
  intros (m & ex & y & k & F & E & H). rewrite <- p10_powerRZ in H. destruct (fraction_first m y ex F) as (c & t & M & C).
  destruct H as [[-> ->] | [-> ->]].
  - destruct (scan_fraction false m ex y k F E) as (a & p & S & A & V). exists false, a, p. split; [|split; [exact A|exact V]].
    unfold scan. rewrite M, take_sign_digit, <- M by exact C. exact S.
  - destruct (scan_fraction true m ex y k F E) as (a & p & S & A & V). exists true, a, p. split; [|split; [exact A|cbn; now rewrite V]]. exact S.
Qed.
Lemma decimal_unique s x y : decimal s x -> decimal s y -> x = y.
Proof.
  intros A B. destruct (scan_ok s x A) as (n1 & a1 & p1 & E1 & _ & ->). destruct (scan_ok s y B) as (n2 & a2 & p2 & E2 & _ & ->). congruence.
Qed.

(** ** the nearest float *)
Lemma fl_opp x : fl (- x) = - fl x. Proof. unfold fl. apply round_NE_opp. Qed.
Lemma fl_signed s x : fl (signed s x) = signed s (fl x). Proof. destruct s; [apply fl_opp|reflexivity]. Qed.
Lemma fl_fits x : Rabs x <= 10 ^ 300 -> Rabs (fl x) < bpow radix2 emax.
Proof.
  intros H. apply Rle_lt_trans with (bpow radix2 1000); [|apply bpow_lt; reflexivity]. unfold fl.
  apply abs_round_le_generic; [exact (fexp_correct prec emax Hprec)|auto with typeclass_instances|apply generic_format_bpow; vm_compute; discriminate|].
  eapply Rle_trans; [exact H|]. rewrite <- (IZR_Zpower radix2) by discriminate. rewrite pow_IZR. apply IZR_le. vm_compute. discriminate.
Qed.
Lemma round_fraction_ok s n d : (0 < n)%Z -> (0 < d)%Z -> IZR n / IZR d <= 10 ^ 300 -> nearest_float (signed s (IZR n / IZR d)) (round_fraction s n d).
Proof.
  intros N D H. pose proof (ratio_pos n d N D) as X. unfold round_fraction. set (e := Z.max _ _).
  destruct (scale_ok radix2 e n d N D) as (_ & Q & E). change (radix_val radix2) with 2%Z in Q, E.
  destruct (magnitude_ok radix2 n d N D) as [A B]. change (radix_val radix2) with 2%Z in A, B.
  set (x := IZR n / IZR d) in *.
  assert (M : mag radix2 x = (magnitude 2 n d + 1)%Z :> Z). { apply mag_unique_pos. replace (magnitude 2 n d + 1 - 1)%Z with (magnitude 2 n d) by lia. now split. }
  assert (Ce : cexp radix2 fexp x = e). { unfold cexp. rewrite M. reflexivity. }
  assert (V : nearest (scale 2 e n d) = ZnearestE (x * bpow radix2 (- e))).
  { destruct (scale 2 e n d) as [a c]. cbn [snd] in Q. rewrite nearest_ok by exact Q. unfold ratio in E. cbn [fst snd] in E. now rewrite E. }
  assert (F : F2R (Float radix2 (nearest (scale 2 e n d)) e) = fl x).
  { unfold fl, round. rewrite Ce, V. unfold scaled_mantissa. rewrite Ce. reflexivity. }
  assert (Fs : F2R (Float radix2 (cond_Zopp s (nearest (scale 2 e n d))) e) = signed s (fl x)).
  { rewrite <- F. destruct s; cbn [cond_Zopp signed]; [apply F2R_Zopp|reflexivity]. }
  pose proof (binary_normalize_correct prec emax Hprec Hmax mode_NE (cond_Zopp s (nearest (scale 2 e n d))) e s) as C. cbv zeta in C. rewrite Fs in C.
  assert (G : round radix2 fexp (round_mode mode_NE) (signed s (fl x)) = signed s (fl x)).
  { rewrite <- fl_signed. apply round_generic; [auto with typeclass_instances|]. unfold fl. apply generic_format_round; [exact (fexp_correct prec emax Hprec)|auto with typeclass_instances]. }
  rewrite G in C. rewrite Rlt_bool_true in C.
  - destruct C as (C1 & C2 & _). split; [exact C2|]. rewrite C1. symmetry. apply (fl_signed s x).
  - rewrite signed_abs. apply fl_fits. rewrite Rabs_pos_eq by lra. exact H.
Qed.
Lemma to_float_ok s x : decimal s x -> Rabs x <= 10 ^ 300 -> exists y, to_float s = Some y /\ nearest_float x y.
Proof.
  intros H B. destruct (scan_ok s x H) as (neg & a & p & S & A & ->). rewrite signed_abs in B. unfold to_float. rewrite S. eexists. split; [reflexivity|].
  destruct (Z.eqb_spec a 0) as [-> |Ne].
  - split; [reflexivity|]. rewrite Rmult_0_l. change (round radix2 fexp ZnearestE (signed neg 0)) with (fl (signed neg 0)). rewrite fl_signed.
    replace (fl 0) with 0 by (symmetry; apply round_0; auto with typeclass_instances). destruct neg; cbn; ring.
  - destruct (scale_ok ten (- p) a 1 ltac:(lia) ltac:(lia)) as (P & Q & E). change (radix_val ten) with 10%Z in P, Q, E.
    destruct (scale 10 (- p) a 1) as [n d]. cbn [fst snd] in P, Q. unfold ratio in E. cbn [fst snd] in E. rewrite Z.opp_involutive in E.
    replace (IZR a / 1) with (IZR a) in E by field. rewrite <- E. apply round_fraction_ok; auto.
    rewrite E. rewrite Rabs_pos_eq in B; [exact B|]. apply Rmult_le_pos; [apply IZR_le; lia|apply Rlt_le, p10_pos].
Qed.
