(** Numbers in the files that klayout-pex writes: '%.12g' % x, and float(s), which reads them back.  klayout_pex/common/capacitance_matrix.py,
    klayout_pex/fastercap/fastercap_model_generator.py.  Floats as in FP_Model; both functions of Python round correctly, ties to even. *)
From Coq Require Import ZArith Qcanon String Ascii List.
From Flocq Require Import Core.Core IEEE754.BinarySingleNaN.
From Verif Require Import PyBase PyStr PyNum FP_Model.
From Verif Require TG_Model.
Import ListNotations.
Local Close Scope Qc_scope.
Local Open Scope string_scope.
Local Open Scope Z_scope.

(** ** Python: positive fractions n / d *)
(** the integer nearest to a fraction, ties to even *)
Definition nearest (f : Z * Z) : Z :=
  let '(n, d) := f in
  let q := n / d in
  let r := n mod d in
  if 2 * r <? d then q else if d <? 2 * r then q + 1 else if Z.even q then q else q + 1.
(** (n / d) / b^k *)
Definition scale (b k n d : Z) : Z * Z := if 0 <=? k then (n, d * b ^ k) else (n * b ^ (- k), d).
(** b^k <= n / d *)
Definition reaches (b k n d : Z) : bool := let '(x, y) := scale b k n d in y <=? x.
(** the greatest such k *)
Fixpoint search (fuel : nat) (b k n d : Z) : Z :=
  match fuel with
  | O => k
  | S f => if reaches b k n d then k else search f b (k - 1) n d
  end.
(** the same for any fraction *)
Definition magnitude (b n d : Z) : Z := search (S (S (Z.to_nat (Z.log2 n + Z.log2 d)))) b (Z.log2 n) n d.

(** ** Python: '%.12g' % x, as in capacitance_matrix.py L68 and fastercap_model_generator.py L259, L747, L771, L818, L905 *)
(** the twelve digits, as an integer, and the exponent of the first one *)
Definition twelve (n d : Z) : Z * Z :=
  let k := magnitude 10 n d in
  let q := nearest (scale 10 (k - 11) n d) in
  if q =? 10 ^ 12 then (10 ^ 11, k + 1) else (q, k).
(** q / 10^places, without zeros at the end and without a point at the end *)
Definition plain (places q : Z) : string :=
  let p := 10 ^ places in
  nat_text (q / p) ++ (if q mod p =? 0 then "" else "." ++ frac_text (Z.to_nat places) (q mod p)).
(** at least two digits *)
Definition exponent_text (k : Z) : string :=
  "e" ++ (if k <? 0 then "-" else "+") ++ (if Z.abs k <? 10 then "0" else "") ++ nat_text (Z.abs k).
(** the usual notation if the first digit is worth at least 0.0001 and less than 10^12, otherwise with an exponent *)
Definition g_text (n d : Z) : string :=
  let '(q, k) := twelve n d in
  if (-4 <=? k) && (k <? 12) then plain (11 - k) q else plain 11 q ++ exponent_text k.
(** a fraction with its sign *)
Definition q_text (x : Q) : string :=
  match Qnum x with
  | 0 => "0"
  | Zpos n => g_text (Zpos n) (Zpos (Qden x))
  | Zneg n => "-" ++ g_text (Zpos n) (Zpos (Qden x))
  end.
(** the exact value of a finite float; 0 for an infinity or nan *)
Definition q_value (x : float) : Q :=
  match x with
  | B754_finite s m e _ =>
      let n := cond_Zopp s (Zpos m) in
      if 0 <=? e then inject_Z (n * 2 ^ e) else Qmake n (Z.to_pos (2 ^ (- e)))
  | _ => 0%Q
  end.
(** '%.12g' % x of a float *)
Definition f_text (x : float) : string :=
  match x with
  | B754_zero s => if s then "-0" else "0"
  | B754_infinity s => if s then "-inf" else "inf"
  | B754_nan => "nan"
  | B754_finite _ _ _ _ => q_text (q_value x)
  end.

(** ** Python: float(s), as in capacitance_matrix.py L56.  Simplified: only decimal notation; Python also reads inf, nan and underscores between digits *)
(** as many digits as there are: their value after [acc], their number, and what follows *)
Fixpoint take_digits (acc : Z) (count : nat) (s : string) : Z * nat * string :=
  match s with
  | "" => (acc, count, "")
  | String c t => match digit_of c with Some d => take_digits (10 * acc + d) (S count) t | None => (acc, count, s) end
  end.
(** an optional sign, true if it is a minus *)
Definition take_sign (s : string) : bool * string :=
  match s with
  | String "-" t => (true, t)
  | String "+" t => (false, t)
  | _ => (false, s)
  end.
(** an optional exponent and the end of the text *)
Definition take_exponent (s : string) : option Z :=
  match s with
  | "" => Some 0
  | String c t =>
      if Ascii.eqb c "e"%char || Ascii.eqb c "E"%char then
        let '(neg, t) := take_sign t in
        match take_digits 0 0 t with
        | (k, S _, "") => Some (if neg then - k else k)
        | _ => None
        end
      else None
  end.
(** the sign, m and p of m * 10^p *)
Definition scan (s : string) : option (bool * Z * Z) :=
  let '(neg, s) := take_sign s in
  let '(a, ca, s) := take_digits 0 0 s in
  let '(m, cf, s) := match s with String "." t => take_digits a 0 t | _ => (a, O, s) end in
  match (ca + cf)%nat, take_exponent s with
  | S _, Some k => Some (neg, m, k - Z.of_nat cf)
  | _, _ => None
  end.
(** the float nearest to a fraction with a sign *)
Definition round_fraction (s : bool) (n d : Z) : float :=
  let e := Z.max (magnitude 2 n d + 1 - prec) (3 - emax - prec) in
  binary_normalize prec emax Hprec Hmax mode_NE (cond_Zopp s (nearest (scale 2 e n d))) e s.
(** float(s); [None] is a ValueError *)
Definition to_float (s : string) : option float :=
  match scan s with
  | Some (neg, m, p) =>
      Some (if m =? 0 then B754_zero neg
            else let '(n, d) := scale 10 (- p) m 1 in round_fraction neg n d)
  | None => None
  end.

(** ** Uses *)
(** Point.to_fastcap, fastercap_model_generator.py L258-259 *)
Definition to_fastcap (p : TG_Model.point) : string :=
  f_text (TG_Model.px p) ++ " " ++ f_text (TG_Model.py p) ++ " " ++ f_text (TG_Model.pz p).
(** '%.12g' % cell of capacitance_matrix.py L68 and float(cell) of L56, for matrices as in CM_Model: a cell is the exact value of a float.
    Simplified: -0.0 is 0, an infinity or nan is not a cell *)
Definition cell_fmt (v : Qc) : string := q_text v.
Definition cell_read (s : string) : option Qc := option_map (fun x => Q2Qc (q_value x)) (to_float s).
