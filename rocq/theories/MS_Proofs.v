(** Proofs for C80-C82. *)
From Coq Require Import String Ascii ZArith QArith.Qround Lia Lqa.
From Verif Require Import PyBase PyLib PyStr MG_Spec MG_Proofs MG_Run MS_Model MS_Spec.
Local Open Scope list_scope.
Local Open Scope string_scope.

(** ** Tcl *)
Section Tcl.
Variable vars : string -> option string.
Notation rd := (read_all vars).
Lemma rd_app a : forall r b, rd r (a ++ b) = rd (rd r a) b.
Proof. induction a as [|c a IH]; intros r b; [reflexivity|]. cbn. apply IH. Qed.

Lemma plain_char_inv c : plain_char c = true -> is_blank c = false /\ is_end c = false /\ is_quoting c = false /\ Ascii.eqb c "$" = false.
Proof. unfold plain_char. destruct (is_blank c), (is_end c), (is_quoting c), (Ascii.eqb c "$"); cbn; intuition discriminate. Qed.
Lemma snoc_app s c t : snoc s c ++ t = s ++ String c t.
Proof. unfold snoc. rewrite str_app_assoc. reflexivity. Qed.

Lemma rd_word w : forall v d ws, all_chars plain_char w = true -> rd (Reading d ws (InWord v)) w = Reading d ws (InWord (v ++ w)).
Proof.
  induction w as [|c w IH]; intros v d ws P; [cbn; now rewrite str_app_nil|]. cbn [all_chars] in P. apply andb_prop in P as [P1 P2].
  destruct (plain_char_inv c P1) as (A & B & C & D). cbn [read_all read_char read_plain]. rewrite A, B, C, D. rewrite IH by exact P2. now rewrite snoc_app.
Qed.
Lemma rd_gap w d ws : plain w -> rd (Reading d ws AtGap) w = Reading d ws (InWord w).
Proof.
  intros [N P]. destruct w as [|c w]; [congruence|]. cbn [all_chars] in P. apply andb_prop in P as [P1 P2].
  destruct (plain_char_inv c P1) as (A & B & C & D). cbn [read_all read_char read_plain]. rewrite A, B, C, D. rewrite rd_word by exact P2. reflexivity.
Qed.
Definition opens (w : string) : Prop := plain w /\ forall t, w <> String "#" t.
Lemma rd_start w d : opens w -> rd (Reading d [] AtStart) w = Reading d [] (InWord w).
Proof.
  intros [[N P] H]. destruct w as [|c w]; [congruence|]. cbn [all_chars] in P. apply andb_prop in P as [P1 P2].
  destruct (plain_char_inv c P1) as (A & B & C & D). cbn [read_all read_char read_plain]. rewrite A, B, C, D. cbn [orb].
  destruct (Ascii.eqb c "#") eqn:E; [apply Ascii.eqb_eq in E; subst; exfalso; now apply (H w)|]. rewrite rd_word by exact P2. reflexivity.
Qed.

(** the words after the first one, then the end of the line *)
Fixpoint rest (l : list string) : string := match l with [] => "" | w :: t => String " " (w ++ rest t) end.
Lemma join_rest w l : join " " (w :: l) = w ++ rest l.
Proof. revert w. induction l as [|x l IH]; intros w; [cbn; now rewrite str_app_nil|]. cbn [join rest]. rewrite <- IH. reflexivity. Qed.
Lemma rd_rest l : forall d ws w, Forall plain l -> rd (Reading d ws (InWord w)) (rest l ++ String nl "") = Reading (d ++ [ws ++ w :: l])%list [] AtStart.
Proof.
  induction l as [|x l IH]; intros d ws w F; [reflexivity|]. inversion F as [|? ? Px Pl]; subst. cbn [rest].
  change (String " " (x ++ rest l) ++ String nl "") with (String " " ((x ++ rest l) ++ String nl "")). rewrite str_app_assoc.
  cbn [read_all read_char read_plain]. change (is_blank " ") with true. cbn iota. rewrite rd_app, rd_gap by exact Px. rewrite IH by exact Pl.
  rewrite <- app_assoc. reflexivity.
Qed.
Definition command_ok (ws : list string) : Prop := match ws with [] => False | w :: t => opens w /\ Forall plain t end.
Lemma rd_line ws d : command_ok ws -> rd (Reading d [] AtStart) (join " " ws ++ String nl "") = Reading (d ++ [ws])%list [] AtStart.
Proof. destruct ws as [|w l]; [intros []|]. intros [O F]. rewrite join_rest, str_app_assoc, rd_app, rd_start by exact O. apply (rd_rest l d [] w F). Qed.

Fixpoint lines (l : list (list string)) : string := match l with [] => "" | ws :: t => join " " ws ++ String nl (lines t) end.
Lemma rd_lines l : forall d, Forall command_ok l -> rd (Reading d [] AtStart) (lines l) = Reading (d ++ l)%list [] AtStart.
Proof.
  induction l as [|ws l IH]; intros d F; [cbn; now rewrite app_nil_r|]. inversion F as [|? ? A B]; subst. cbn [lines].
  replace (join " " ws ++ String nl (lines l)) with ((join " " ws ++ String nl "") ++ lines l) by (now rewrite str_app_assoc).
  rewrite rd_app, rd_line by exact A. rewrite IH by exact B. now rewrite <- app_assoc.
Qed.
Lemma rd_comment s : forall d, one_comment s -> rd (Reading d [] InComment) (s ++ String nl "") = Reading d [] AtStart.
Proof.
  induction s as [|c s IH]; intros d P; [reflexivity|]. unfold one_comment in *. cbn [all_chars] in P. apply andb_prop in P as [P1 P2]. cbn [append read_all read_char read_plain].
  destruct (Ascii.eqb c nl); [discriminate|]. destruct (Ascii.eqb c "\"); [discriminate|]. apply IH, P2.
Qed.
Lemma tcl_script v l tail : one_comment v -> Forall command_ok l -> (tail = "" \/ tail = String nl "") ->
  rd (Reading [] [] AtStart) (("# Generated by kpex " ++ v) ++ String nl (lines l ++ tail)) = Reading l [] AtStart.
Proof.
  intros V F T. rewrite str_app_assoc. change ("# Generated by kpex " ++ v ++ String nl (lines l ++ tail)) with (String "#" ((" Generated by kpex " ++ v) ++ String nl (lines l ++ tail))).
  cbn [read_all read_char read_plain]. change (is_blank "#" || is_end "#") with false. change (Ascii.eqb "#" "#") with true. cbn iota.
  change (String nl (lines l ++ tail)) with (String nl "" ++ (lines l ++ tail)). rewrite <- str_app_assoc, rd_app, rd_comment by exact V.
  rewrite rd_app, rd_lines by exact F. destruct T as [-> | ->]; reflexivity.
Qed.
End Tcl.

(** ** words *)
Lemma plain_lit s : (match s with EmptyString => false | _ => all_chars plain_char s end) = true -> plain s.
Proof. destruct s; [discriminate|]. intros H. split; [discriminate|exact H]. Qed.
Lemma opens_lit s : (match s with EmptyString => false | String c _ => negb (Ascii.eqb c "#") && all_chars plain_char s end) = true -> opens s.
Proof.
  destruct s as [|c s]; [discriminate|]. intros H. apply andb_prop in H as [A B]. split; [split; [discriminate|exact B]|].
  intros t [= -> _]. discriminate.
Qed.
Lemma plain_flat s : plain s -> plain (s ++ "_flat").
Proof. intros [A B]. split; [destruct s; [congruence|discriminate]|]. rewrite all_chars_app, B. reflexivity. Qed.
Lemma plain_int z : plain (int_text z).
Proof.
  pose proof (dec_integer z) as D. change (dec z) with (int_text z) in D. pose proof (integer_chars _ _ D) as C. split.
  - intros E. destruct D as (d & Q & _). rewrite E in Q. discriminate.
  - revert C. apply all_chars_impl. intros c. now destruct c as [[] [] [] [] [] [] [] []].
Qed.

Ltac unq := repeat match goal with |- context [this (Q2Qc ?a)] => setoid_replace (this (Q2Qc a)) with a using relation Qeq by (apply Qred_correct) end.
Lemma py_round_near x : halo_units x (py_round (x * Q2Qc 200)%Qc).
Proof.
  unfold halo_units, py_round. set (y := (x * Q2Qc 200)%Qc). pose proof (Qfloor_le y) as A. pose proof (Qlt_floor y) as B. rewrite inject_Z_plus in B. change (inject_Z 1) with 1%Q in B.
  set (f := Qfloor y) in *. clearbody f. clearbody y. unfold Qcle, Qcminus, Qcplus, Qcopp. 
  assert (I : forall a : Q, (this (Q2Qc a) == a)%Q) by (intros; apply Qred_correct).
  destruct ((y - inject_Z f) ?= 1 # 2)%Q eqn:E.
  - apply Qeq_alt in E. destruct (Z.even f); [|rewrite inject_Z_plus; change (inject_Z 1) with 1%Q]; unq; split; lra.
  - apply Qlt_alt in E. unq. split; lra.
  - apply Qgt_alt in E. rewrite inject_Z_plus. change (inject_Z 1) with 1%Q. unq. split; lra.
Qed.

(** ** the script *)
Section Script.
Variables (abspath : string -> string) (show : Qc -> string) (version : string).
Definition halo_word (h : option Qc) : option string := option_map (fun x => int_text (py_round (x * Q2Qc 200)%Qc)) h.
Definition wanted (q : request) : list (list string) :=
  intended (abspath (q_gds q)) (q_cell q) (abspath (q_dir q)) (abspath (q_out q)) (q_mode q) (show (q_cthresh q)) (show (q_rthresh q)) (show (q_tolerance q))
           (halo_word (q_halo q)) (short_text (q_short q)) (merge_text (q_merge q)).

Lemma assoc1 a c b : a ++ String c b = (a ++ String c "") ++ b.
Proof. rewrite str_app_assoc. reflexivity. Qed.

Lemma script_text q : exists tail, (tail = "" \/ tail = String nl "") /\
  snoc (prepare_magic_script abspath show version q) nl = ("# Generated by kpex " ++ version) ++ String nl (lines (wanted q) ++ tail).
Proof.
  destruct q as [gds cell dir out mode ct rt tol halo sh me]. unfold prepare_magic_script, wanted, snoc.
  destruct mode; [exists ""|exists (String nl "")|exists (String nl "")]; (split; [tauto|]);
    destruct halo as [h|]; cbn -[nl short_text merge_text int_text py_round]; rewrite ?str_app_assoc, ?str_app_nil; cbn -[nl short_text merge_text int_text py_round];
    repeat (rewrite ?str_app_assoc, ?str_app_nil; cbn -[nl short_text merge_text int_text py_round]); try reflexivity.
Qed.

Definition clean (q : request) : Prop :=
  plain (abspath (q_gds q)) /\ plain (q_cell q) /\ plain (abspath (q_dir q)) /\ plain (abspath (q_out q)) /\ (forall v, plain (show v)) /\ one_comment version.
Lemma wanted_ok q : clean q -> Forall command_ok (wanted q).
Proof.
  intros (G & C & D & O & S & V). pose proof (plain_flat _ C) as Cf. unfold wanted, intended, when.
  assert (Ps : plain (short_text (q_short q))) by (destruct (q_short q); apply plain_lit; reflexivity).
  assert (Pm : plain (merge_text (q_merge q))) by (destruct (q_merge q); apply plain_lit; reflexivity).
  repeat (apply Forall_app; split).
  all: try (destruct (q_halo q); cbn [halo_word option_map]).
  all: try (destruct (q_mode q); cbn [wants_r wants_c negb]).
  all: repeat (first [apply Forall_nil|apply Forall_cons]); try (split; [apply opens_lit; reflexivity|]).
  all: repeat (first [apply Forall_nil|apply Forall_cons]); try assumption; try apply S; try apply plain_int; apply plain_lit; reflexivity.
Qed.
Lemma script_commands vars q : clean q -> tcl vars (prepare_magic_script abspath show version q) = Reading (wanted q) [] AtStart.
Proof.
  intros C. unfold tcl. destruct (script_text q) as (tail & T & ->). apply tcl_script; [apply C|apply wanted_ok, C|exact T].
Qed.
End Script.

(** ** logs *)
Lemma copy_lines_app l : forall log con, copy_lines l log con = (log ++ fold_right append "" l, (con ++ map but_last l)%list).
Proof.
  induction l as [|x l IH]; intros log con; cbn [copy_lines fold_right map]; [now rewrite str_app_nil, app_nil_r|].
  rewrite IH, str_app_assoc, <- app_assoc. reflexivity.
Qed.
Lemma readlines_concat s : fold_right append "" (readlines s) = s.
Proof.
  induction s as [|c s IH]; [reflexivity|]. cbn [readlines]. destruct (Ascii.eqb c nl); [cbn [fold_right]; rewrite IH; reflexivity|].
  destruct (readlines s) as [|x r]; cbn [fold_right] in *; rewrite <- IH; reflexivity.
Qed.
Lemma but_last_snoc s c : but_last (s ++ String c "") = s.
Proof. induction s as [|a s IH]; [reflexivity|]. cbn [append but_last]. destruct (s ++ String c "") eqn:E; [destruct s; discriminate|]. now rewrite IH. Qed.
Lemma readlines_last r : no_nl r -> r <> "" -> readlines r = [r].
Proof.
  induction r as [|c r IH]; [congruence|]. unfold no_nl in *. cbn [all_chars readlines]. intros H _. apply andb_prop in H as [A B].
  destruct (Ascii.eqb c nl); [discriminate|]. destruct r as [|d r]; [reflexivity|]. rewrite IH; [reflexivity|exact B|discriminate].
Qed.
Lemma readlines_ended ls r : Forall no_nl ls -> no_nl r -> readlines (ended ls ++ r) = (map (fun l => (l ++ String nl "")%string) ls ++ (if String.eqb r "" then [] else [r]))%list.
Proof.
  intros F R. induction ls as [|l ls IH].
  - cbn [ended append map app]. destruct (String.eqb_spec r ""); [subst; reflexivity|]. now apply readlines_last.
  - inversion F as [|? ? A B]; subst. cbn [ended map app]. rewrite str_app_assoc. change (String nl (ended ls) ++ r) with (String nl (ended ls ++ r)).
    rewrite readlines_line by exact A. now rewrite IH.
Qed.
