(** Proofs for C85. *)
From Coq Require Import String Ascii Permutation Lia.
From Verif Require Import PyBase PyLib PyStr PyNum ER_Model NX_Model NX_Spec NX_Proofs FG_Proofs CS_Model CS_Spec.
Local Open Scope list_scope.
Local Open Scope string_scope.

Lemma split_on_ne sep s : split_on sep s <> [].
Proof. destruct s as [|c s]; cbn; [discriminate|]. destruct (Ascii.eqb c sep); [discriminate|]. destruct (split_on sep s); discriminate. Qed.
Lemma clean_chars s : clean s -> all_chars (fun c => negb (Ascii.eqb c semicolon)) s = true /\ all_chars (fun c => negb (Ascii.eqb c nl)) s = true.
Proof. intros H. split; revert H; apply all_chars_impl; intros c C; apply andb_prop in C; apply C. Qed.
Lemma clean_app a b : clean a -> clean b -> clean (a ++ b).
Proof. unfold clean. intros A B. now rewrite all_chars_app, A, B. Qed.

Lemma csv_rows_cons fields rest : fields <> [] -> Forall clean fields ->
  csv_rows (join semicolon fields ++ String nl rest) = fields :: csv_rows rest.
Proof.
  intros N F. unfold csv_rows. rewrite split_on_app.
  - pose proof (split_on_ne nl rest) as S. destruct (split_on nl rest) as [|x r] eqn:E; [congruence|]. cbn [removelast map]. f_equal.
    rewrite <- (str_app_nil (join semicolon fields)), split_join; [|exact N| |reflexivity].
    + clear. induction fields as [|x l IH]; [reflexivity|]. destruct l; [cbn; now rewrite str_app_nil|]. cbn [append_last] in *. now rewrite IH.
    + eapply Forall_impl; [|exact F]. intros s C. apply clean_chars, C.
  - apply all_chars_join; [reflexivity|]. eapply Forall_impl; [|exact F]. intros s C. apply clean_chars, C.
Qed.

Lemma number_clean k x : clean (show_round k x).
Proof. unfold clean. generalize (show_round_chars k x). apply all_chars_impl. intros c. now destruct c as [[] [] [] [] [] [] [] []]. Qed.
Lemma nat_str_clean n : clean (nat_str n).
Proof. unfold clean. generalize (nat_str_digits n). apply all_chars_impl. intros c. now destruct c as [[] [] [] [] [] [] [] []]. Qed.
Lemma clean_nil : clean "". Proof. reflexivity. Qed.

Definition clean_items (l : list (couple * Qc)) : Prop := forall s, In s (names_of l) -> clean s.
Lemma clean_items_cons n1 n2 v l : clean_items ((n1, n2, v) :: l) -> clean n1 /\ clean n2 /\ clean_items l.
Proof. intros H. split; [|split]; [apply H; cbn; auto|apply H; cbn; auto|]. intros s J. apply H. right; right. exact J. Qed.

Lemma cap_lines_rows rest : forall l idx, clean_items l -> exists rows,
  csv_rows (cap_lines idx l ++ rest) = (rows ++ csv_rows rest)%list /\
  Forall2 (fun p row => cap_row (fst p) (snd p) row) (combine (seq (S idx) (List.length l)) l) rows.
Proof.
  induction l as [|[[n1 n2] v] l IH]; intros idx C; [exists []; split; [reflexivity|constructor]|].
  apply clean_items_cons in C. destruct C as (C1 & C2 & C). destruct (IH (S idx) C) as (rows & E & F).
  exists (["C" ++ nat_str (idx + 1); n1; n2; show_round 3 v; ""] :: rows). split.
  - cbn [List.app]. rewrite <- E, <- (csv_rows_cons ["C" ++ nat_str (idx + 1); n1; n2; show_round 3 v; ""]).
    + f_equal. cbn [cap_lines join]. unfold endl. repeat (rewrite ?str_app_assoc; cbn [append]). reflexivity.
    + discriminate.
    + repeat constructor; auto using number_clean, clean_nil. apply clean_app; [reflexivity|apply nat_str_clean].
  - cbn [List.length seq combine]. constructor; [|exact F]. exists (show_round 3 v). cbn [fst snd]. rewrite Nat.add_1_r.
    split; [reflexivity|]. now apply show_round_rounds.
Qed.
Lemma res_lines_rows rest : forall l idx, clean_items l -> exists rows,
  csv_rows (res_lines idx l ++ rest) = (rows ++ csv_rows rest)%list /\
  Forall2 (fun p row => res_row (fst p) (snd p) row) (combine (seq (S idx) (List.length l)) l) rows.
Proof.
  induction l as [|[[n1 n2] v] l IH]; intros idx C; [exists []; split; [reflexivity|constructor]|].
  apply clean_items_cons in C. destruct C as (C1 & C2 & C). destruct (IH (S idx) C) as (rows & E & F).
  exists (["R" ++ nat_str (idx + 1); n1; n2; ""; show_round 3 v] :: rows). split.
  - cbn [List.app]. rewrite <- E, <- (csv_rows_cons ["R" ++ nat_str (idx + 1); n1; n2; ""; show_round 3 v]).
    + f_equal. cbn [res_lines join]. unfold endl. repeat (rewrite ?str_app_assoc; cbn [append]). reflexivity.
    + discriminate.
    + repeat constructor; auto using number_clean, clean_nil. apply clean_app; [reflexivity|apply nat_str_clean].
  - cbn [List.length seq combine]. constructor; [|exact F]. exists (show_round 3 v). cbn [fst snd]. rewrite Nat.add_1_r.
    split; [reflexivity|]. now apply show_round_rounds.
Qed.

Lemma sorted_in_order l : in_order (py_sorted item_lt l).
Proof.
  assert (S : srt item_lt (py_sorted item_lt l)).
  { apply py_sorted_srt; intros; [eapply couple_lt_trans; eauto|apply couple_lt_irrefl|apply couple_lt_weak; assumption]. }
  induction S as [|x m H S IH]; constructor; [exact IH|]. intros e' J. apply H in J. unfold item_lt in J.
  assert (N : couple_lt (fst e') (fst x) <> true) by congruence. rewrite couple_lt_spec in N. split.
  - destruct (strlt (casefold (fst (fst e'))) (casefold (fst (fst x)))); [exfalso; tauto|reflexivity].
  - intros E. destruct (strlt (casefold (snd (fst e'))) (casefold (snd (fst x)))); [exfalso; tauto|reflexivity].
Qed.

(** device names in the rows *)
Lemma first_fields (pre : string) (P : nat -> couple * Qc -> list string -> Prop) :
  (forall i e row, P i e row -> hd "" row = pre ++ nat_str i) ->
  forall l idx rows, Forall2 (fun p row => P (fst p) (snd p) row) (combine (seq (S idx) (List.length l)) l) rows ->
  map (hd "") rows = map (fun i => pre ++ nat_str i) (seq (S idx) (List.length l)).
Proof.
  intros H. induction l as [|e l IH]; intros idx rows F; cbn [List.length seq combine] in F; inversion F as [|a b p q A B]; subst; [reflexivity|].
  cbn [map List.length seq]. rewrite (H _ _ _ A). f_equal. apply (IH (S idx)). exact B.
Qed.
Lemma distinct_names a b n m : a <> b -> NoDup (map (fun i => String a (nat_str i)) (seq 1 n) ++ map (fun i => String b (nat_str i)) (seq 1 m)).
Proof.
  intros N.
  assert (I : forall c k, NoDup (map (fun i => String c (nat_str i)) (seq 1 k))).
  { intros c k. apply FinFun.Injective_map_NoDup; [|apply seq_NoDup]. intros i j E. injection E as E. now apply nat_str_inj. }
  pose proof (I a n) as A. pose proof (I b m) as B.
  set (la := map (fun i => String a (nat_str i)) (seq 1 n)) in *. set (lb := map (fun i => String b (nat_str i)) (seq 1 m)) in *.
  assert (D : forall x, In x la -> ~ In x lb).
  { intros x Ja Jb. apply in_map_iff in Ja, Jb. destruct Ja as (i & <- & _), Jb as (j & E & _). congruence. }
  clearbody la lb. induction A as [|x l Nx A IH]; [exact B|]. cbn. constructor.
  - rewrite in_app_iff. intros [J|J]; [contradiction|]. apply (D x); [left; reflexivity|exact J].
  - apply IH. intros y Jy. apply D. right. exact Jy.
Qed.

(** ** the FasterCap table *)
Lemma csv_lines_skip net_name nets a b : Forall (fun f => csv_line net_name nets f = Some "") a ->
  csv_lines net_name nets (a ++ b) = csv_lines net_name nets b.
Proof.
  induction 1 as [|f a E F IH]; [reflexivity|]. cbn [List.app csv_lines]. rewrite E, IH. now destruct (csv_lines net_name nets b).
Qed.
Lemma csv_lines_write {A} net_name nets (name n1 n2 : A -> string) (v : A -> Qc) b : forall (cells : list A) (fs : list fdev),
  Forall2 (fun a f => csv_line net_name nets f =
      Some (name a ++ ";" ++ n1 a ++ ";" ++ n2 a ++ ";" ++ show_round 2 (v a * femto)%Qc ++ endl) /\
      clean (name a) /\ clean (n1 a) /\ clean (n2 a)) cells fs ->
  exists rows, csv_rows (fst (csv_lines net_name nets (fs ++ b))) = (rows ++ csv_rows (fst (csv_lines net_name nets b)))%list /\
    snd (csv_lines net_name nets (fs ++ b)) = snd (csv_lines net_name nets b) /\
    Forall2 (fun a row => fc_row (name a) (n1 a) (n2 a) (v a) row) cells rows.
Proof.
  intros cells fs F. induction F as [|a f cells fs (E & C0 & C1 & C2) F (rows & R & S & G)]; [exists []; auto|].
  exists ([name a; n1 a; n2 a; show_round 2 (v a * femto)%Qc] :: rows). cbn [List.app csv_lines]. rewrite E.
  destruct (csv_lines net_name nets (fs ++ b)) as [u ok]. cbn [fst snd] in *. split; [|split; [exact S|]].
  - rewrite <- R, <- (csv_rows_cons [name a; n1 a; n2 a; show_round 2 (v a * femto)%Qc]).
    + f_equal. cbn [join]. unfold endl. repeat (rewrite ?str_app_assoc; cbn [append]). reflexivity.
    + discriminate.
    + repeat constructor; auto using number_clean.
  - constructor; [|exact G]. exists (show_round 2 (v a * femto)%Qc). split; [reflexivity|]. now apply show_round_rounds.
Qed.
Lemma find_id (nets : list knet) x : NoDup (map n_id nets) -> In x nets -> find (fun n => Nat.eqb (n_id n) (n_id x)) nets = Some x.
Proof.
  induction nets as [|y l IH]; [intros _ []|]. cbn [map find]. intros N J. inversion N as [|? ? N1 N2]; subst.
  destruct (Nat.eqb_spec (n_id y) (n_id x)) as [E|E].
  - destruct J as [->|J]; [reflexivity|]. exfalso. apply N1. rewrite E. now apply in_map.
  - destruct J as [->|J]; [congruence|]. now apply IH.
Qed.
