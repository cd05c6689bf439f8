(** Python string operations: strip, split, join, readlines, indexing with negative indices.
    Characters are bytes; white space is the ASCII part of str.isspace. *)
From Coq Require Import String Ascii ZArith Lia DecimalString Decimal DecimalNat DecimalFacts.
From Verif Require Import PyBase PyLib.
Local Open Scope string_scope.

Definition chr (n : nat) : ascii := ascii_of_nat n.
Definition nl : ascii := chr 10.
(** characters removed by str.strip() *)
Definition isspace (c : ascii) : bool :=
  let n := nat_of_ascii c in
  (Nat.leb 9 n && Nat.leb n 13) || (Nat.leb 28 n && Nat.leb n 32).
Definition isdigit (c : ascii) : bool :=
  let n := nat_of_ascii c in Nat.leb 48 n && Nat.leb n 57.

Fixpoint lstrip (s : string) : string :=
  match s with EmptyString => EmptyString | String c t => if isspace c then lstrip t else s end.
Fixpoint rstrip (s : string) : string :=
  match s with
  | EmptyString => EmptyString
  | String c t => match rstrip t with
                  | EmptyString => if isspace c then EmptyString else String c EmptyString
                  | r => String c r
                  end
  end.
(** str.strip() *)
Definition strip (s : string) : string := rstrip (lstrip s).

(** str.split(sep) for a one-character separator *)
Fixpoint split_on (sep : ascii) (s : string) : list string :=
  match s with
  | EmptyString => [EmptyString]
  | String c t => if Ascii.eqb c sep then EmptyString :: split_on sep t
                  else match split_on sep t with
                       | [] => [String c EmptyString]
                       | x :: r => String c x :: r
                       end
  end.
(** sep.join(l) *)
Fixpoint join (sep : ascii) (l : list string) : string :=
  match l with
  | [] => EmptyString
  | [x] => x
  | x :: r => x ++ String sep (join sep r)
  end.
(** file.readlines(): lines keep their newline; no empty last line *)
Fixpoint readlines (s : string) : list string :=
  match s with
  | EmptyString => []
  | String c t => if Ascii.eqb c nl then String c EmptyString :: readlines t
                  else match readlines t with
                       | [] => [String c EmptyString]
                       | x :: r => String c x :: r
                       end
  end.
(** l[i] for a Python integer, [None] is IndexError *)
Definition py_index {A} (l : list A) (i : Z) : option A :=
  if (i <? 0)%Z then
    if (i + Z.of_nat (List.length l) <? 0)%Z then None
    else nth_error l (Z.to_nat (i + Z.of_nat (List.length l)))
  else nth_error l (Z.to_nat i).

(** decimal digits *)
Fixpoint all_chars (P : ascii -> bool) (s : string) : bool :=
  match s with EmptyString => true | String c t => P c && all_chars P t end.
Definition digit_val (c : ascii) : nat := nat_of_ascii c - 48.
(** int(s) for a string of digits *)
Fixpoint digits_val (acc : nat) (s : string) : nat :=
  match s with EmptyString => acc | String c t => digits_val (10 * acc + digit_val c) t end.
(** longest prefix of digits and the rest *)
Fixpoint span_digits (s : string) : string * string :=
  match s with
  | EmptyString => (EmptyString, EmptyString)
  | String c t => if isdigit c then let (a, b) := span_digits t in (String c a, b) else (EmptyString, s)
  end.
(** the rest of s after prefix p *)
Fixpoint drop_prefix (p s : string) : option string :=
  match p, s with
  | EmptyString, _ => Some s
  | String a p', String b s' => if Ascii.eqb a b then drop_prefix p' s' else None
  | String _ _, EmptyString => None
  end.

(** * Facts *)
Lemma all_chars_app P a b : all_chars P (a ++ b) = all_chars P a && all_chars P b.
Proof. induction a; cbn; [reflexivity|]. now rewrite IHa, Bool.andb_assoc. Qed.
Lemma all_chars_impl (P Q : ascii -> bool) s : (forall c, P c = true -> Q c = true) -> all_chars P s = true -> all_chars Q s = true.
Proof. intros H. induction s; cbn; [auto|]. intros E. apply andb_prop in E. destruct E as [E1 E2]. now rewrite (H _ E1), IHs. Qed.
Lemma str_app_nil s : s ++ "" = s.
Proof. induction s; cbn; congruence. Qed.
Lemma str_app_assoc a b c : (a ++ b) ++ c = a ++ b ++ c.
Proof. induction a; cbn; congruence. Qed.

(** no leading or trailing white space *)
Fixpoint last_char (s : string) : option ascii :=
  match s with EmptyString => None | String c EmptyString => Some c | String _ t => last_char t end.
Definition trimmed (s : string) : bool :=
  match s with EmptyString => true | String c _ => negb (isspace c) end &&
  match last_char s with None => true | Some c => negb (isspace c) end.
Definition no_space (s : string) : bool := all_chars (fun c => negb (isspace c)) s.

Lemma rstrip_spaces s : all_chars isspace s = true -> rstrip s = "".
Proof. induction s as [|c t IH]; cbn; [auto|]. intros E. apply andb_prop in E. destruct E as [E1 E2]. now rewrite IH, E1. Qed.
Lemma rstrip_app s w c : last_char s = Some c -> isspace c = false -> all_chars isspace w = true -> rstrip (s ++ w) = s.
Proof.
  revert c. induction s as [|a s IH]; intros c Hl Hc Hw; [discriminate|].
  cbn [append rstrip]. destruct s as [|b s'].
  - cbn in Hl. injection Hl as ->. cbn [append]. now rewrite (rstrip_spaces _ Hw), Hc.
  - rewrite (IH c); auto.
Qed.
Lemma strip_trimmed_app s w : trimmed s = true -> all_chars isspace w = true -> strip (s ++ w) = s.
Proof.
  intros Ht Hw. unfold strip, trimmed in *. apply andb_prop in Ht. destruct Ht as [H1 H2].
  destruct s as [|c s].
  - cbn [append]. assert (E : lstrip w = "").
    { clear - Hw. induction w as [|a w IH]; [reflexivity|]. cbn in *. apply andb_prop in Hw. destruct Hw as [-> Hw]. auto. }
    now rewrite E.
  - apply Bool.negb_true_iff in H1. cbn [append lstrip]. rewrite H1.
    destruct (last_char (String c s)) as [d|] eqn:E.
    + apply Bool.negb_true_iff in H2. exact (rstrip_app (String c s) w d E H2 Hw).
    + exfalso. clear - E. revert c E. induction s as [|b s IH]; intros c E; [discriminate|]. now apply (IH b).
Qed.
Lemma strip_trimmed s : trimmed s = true -> strip s = s.
Proof. intros H. rewrite <- (str_app_nil s) at 1. now apply strip_trimmed_app. Qed.
Lemma no_space_trimmed s : no_space s = true -> trimmed s = true.
Proof.
  unfold no_space, trimmed. intros H. destruct s as [|c s]; [reflexivity|].
  assert (G : forall t, all_chars (fun c => negb (isspace c)) t = true -> match last_char t with None => true | Some d => negb (isspace d) end = true).
  { induction t as [|a t IH]; [auto|]. cbn. intros E. apply andb_prop in E. destruct E as [E1 E2]. destruct t; [exact E1|auto]. }
  rewrite (G _ H). cbn in H. apply andb_prop in H. destruct H as [-> _]. reflexivity.
Qed.

Lemma split_on_none sep s : all_chars (fun c => negb (Ascii.eqb c sep)) s = true -> split_on sep s = [s].
Proof.
  induction s as [|c s IH]; cbn; [auto|]. intros E. apply andb_prop in E. destruct E as [E1 E2].
  apply Bool.negb_true_iff in E1. rewrite E1, IH; auto.
Qed.
Lemma split_on_app sep a b : all_chars (fun c => negb (Ascii.eqb c sep)) a = true ->
  split_on sep (a ++ String sep b) = a :: split_on sep b.
Proof.
  induction a as [|c a IH]; cbn.
  - now rewrite Ascii.eqb_refl.
  - intros E. apply andb_prop in E. destruct E as [E1 E2]. apply Bool.negb_true_iff in E1. rewrite E1, IH; auto.
Qed.
(** split undoes join; [w] is appended to the last field *)
Fixpoint append_last (l : list string) (w : string) : list string :=
  match l with [] => [] | [x] => [x ++ w] | x :: r => x :: append_last r w end.
Lemma split_join sep l w : l <> [] ->
  Forall (fun x => all_chars (fun c => negb (Ascii.eqb c sep)) x = true) l ->
  all_chars (fun c => negb (Ascii.eqb c sep)) w = true ->
  split_on sep (join sep l ++ w) = append_last l w.
Proof.
  intros Hne HF Hw. induction HF as [|x l Hx HF IH]; [easy|].
  destruct l as [|y l].
  - cbn [join append_last]. apply split_on_none. now rewrite all_chars_app, Hx.
  - assert (E : join sep (x :: y :: l) ++ w = x ++ String sep (join sep (y :: l) ++ w)).
    { change (join sep (x :: y :: l)) with (x ++ String sep (join sep (y :: l))). now rewrite str_app_assoc. }
    rewrite E, split_on_app by exact Hx. change (append_last (x :: y :: l) w) with (x :: append_last (y :: l) w).
    f_equal. now apply IH.
Qed.
Lemma readlines_line a b : all_chars (fun c => negb (Ascii.eqb c nl)) a = true ->
  readlines (a ++ String nl b) = (a ++ String nl "") :: readlines b.
Proof.
  induction a as [|c a IH]; cbn [append all_chars].
  - intros _. cbn [readlines]. now rewrite Ascii.eqb_refl.
  - intros E. apply andb_prop in E. destruct E as [E1 E2]. apply Bool.negb_true_iff in E1. cbn [readlines]. rewrite E1, IH; auto.
Qed.
Lemma all_chars_join P sep l : P sep = true -> Forall (fun x => all_chars P x = true) l -> all_chars P (join sep l) = true.
Proof.
  intros Hs HF. induction HF as [|x l Hx HF IH]; [reflexivity|]. destruct l; [exact Hx|].
  change (join sep (x :: s :: l)) with (x ++ String sep (join sep (s :: l))).
  rewrite all_chars_app, Hx. cbn. now rewrite Hs.
Qed.
Lemma drop_prefix_app p s : drop_prefix p (p ++ s) = Some s.
Proof. induction p as [|c p IH]; [destruct s; reflexivity|]. cbn. now rewrite Ascii.eqb_refl. Qed.
Lemma span_digits_app a b : all_chars isdigit a = true ->
  match b with EmptyString => true | String c _ => negb (isdigit c) end = true -> span_digits (a ++ b) = (a, b).
Proof.
  intros Ha Hb. induction a as [|c a IH]; cbn in *.
  - destruct b as [|c b]; [reflexivity|]. apply Bool.negb_true_iff in Hb. cbn. now rewrite Hb.
  - apply andb_prop in Ha. destruct Ha as [-> Ha]. now rewrite IH.
Qed.
