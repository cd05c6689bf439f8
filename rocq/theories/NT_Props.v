(** Property theorems C106 (the text of a resistor network). *)
From Coq Require Import String Ascii Sorted Permutation Lia.
From Verif Require Import PyBase PyLib PyStr QcLra RN_Model RN_Spec RN_Inv RN_All RN_Hist NT_Model NT_Spec.
From Verif Require NX_Model FG_Proofs PyNum.
Local Open Scope string_scope.
Local Open Scope list_scope.

(** ** sorting *)
Lemma pair_lt_spec x y : pair_lt x y = true <-> pair_before x y.
Proof.
  unfold pair_lt, pair_before. rewrite orb_true_iff, andb_true_iff, !Nat.ltb_lt, Nat.eqb_eq. reflexivity.
Qed.
Lemma sorted_strict {A} (lt : A -> A -> bool) (P : A -> A -> Prop) l :
  (forall x y, lt x y = true <-> P x y) -> (forall x y z, P x y -> P y z -> P x z) -> (forall x, ~ P x x) -> (forall x y, P x y \/ x = y \/ P y x) ->
  NoDup l -> StronglySorted P (py_sorted lt l).
Proof.
  intros S T I Tot N.
  assert (St : srt lt (py_sorted lt l)).
  { apply py_sorted_srt.
    - intros x y z. rewrite !S. apply T.
    - intros x. destruct (lt x x) eqn:E; [|reflexivity]. apply S in E. now apply I in E.
    - intros x y z. rewrite !S. intros Q. destruct (Tot x z) as [H|[->|H]]; auto. right. eauto. }
  assert (ND : NoDup (py_sorted lt l)) by (eapply Permutation_NoDup; [apply py_sorted_perm|exact N]).
  induction St as [|x m Hx Sm IH]; [constructor|]. inversion ND; subst. constructor; [auto|].
  apply Forall_forall. intros y J. destruct (Tot x y) as [H|[->|H]]; [exact H|contradiction|]. apply S in H. rewrite (Hx y J) in H. discriminate.
Qed.
Lemma filter_sorted {A} (P : A -> A -> Prop) f l : StronglySorted P l -> StronglySorted P (filter f l).
Proof.
  induction 1 as [|x l S IH H]; cbn; [constructor|]. destruct (f x); [|exact IH]. constructor; [exact IH|].
  apply Forall_forall. intros y J. apply filter_In in J. rewrite Forall_forall in H. now apply H.
Qed.

(** ** characters *)
Lemma plain_parts x : plain x -> all_chars (fun c => negb (Ascii.eqb c ",")) x = true /\ all_chars (fun c => negb (Ascii.eqb c ":")) x = true /\ all_chars (fun c => negb (Ascii.eqb c nl)) x = true.
Proof.
  unfold plain. intros H. repeat split; revert H; apply all_chars_impl; intros c C; apply andb_prop in C; destruct C as [C D]; [apply andb_prop in C; apply C|apply andb_prop in C; apply C|exact D].
Qed.
Lemma plain_value_parts x : plain_value x -> all_chars (fun c => negb (Ascii.eqb c ":")) x = true /\ all_chars (fun c => negb (Ascii.eqb c nl)) x = true.
Proof. unfold plain_value. intros H. split; revert H; apply all_chars_impl; intros c C; now apply andb_prop in C. Qed.
Lemma number_plain i : plain (NX_Model.nat_str i).
Proof. unfold plain. generalize (FG_Proofs.nat_str_digits i). apply all_chars_impl. intros c. now destruct c as [[] [] [] [] [] [] [] []]. Qed.
Lemma label_called n i : called n i (label n i).
Proof. unfold called, label. now destruct (dget (node_names n) i). Qed.

Lemma read_line_text l v : all_chars (fun c => negb (Ascii.eqb c ":")) l = true -> all_chars (fun c => negb (Ascii.eqb c ":")) v = true ->
  read_line ("  " ++ l ++ ": " ++ v) = Some (l, v).
Proof.
  intros L V. unfold read_line. cbn [indented String.append]. change (l ++ String ":" (String " " v))%string with (l ++ String ":" (String " " v))%string.
  rewrite split_on_app by exact L. rewrite split_on_none; [reflexivity|]. cbn. exact V.
Qed.
Lemma read_pair_text a b v : plain a -> plain b -> plain_value v -> read_pair ("  " ++ a ++ "," ++ b ++ ": " ++ v) = Some (a, b, v).
Proof.
  intros A B V. apply plain_parts in A, B. apply plain_value_parts in V. destruct A as (A1 & A2 & _), B as (B1 & B2 & _), V as (V1 & _).
  unfold read_pair. replace ("  " ++ a ++ "," ++ b ++ ": " ++ v)%string with ("  " ++ (a ++ "," ++ b) ++ ": " ++ v)%string by (now rewrite !str_app_assoc).
  rewrite read_line_text; [|rewrite !all_chars_app, A2, B2; reflexivity|exact V1].
  change ("," ++ b)%string with (String "," b). rewrite split_on_app by exact A1. now rewrite split_on_none.
Qed.

Section C106.
Variables (g_text : Qc -> string) (point_text : point -> string).
Hypothesis g_plain : forall v, plain_value (g_text v).
Hypothesis point_plain : forall p, plain_value (point_text p).

Lemma pair_lines_read n res l ls : (forall a b, In (a, b) l -> plain (label n a) /\ plain (label n b)) -> pair_lines g_text n res l = Some ls ->
  Forall (fun x => all_chars (fun c => negb (Ascii.eqb c nl)) x = true) ls /\
  exists vs, read_pairs ls = Some vs /\ Forall2 (fun ab v => v = (label n (fst ab), label n (snd ab), snd v) /\ value_text g_text n res ab = Some (snd v)) l vs.
Proof.
  revert ls. induction l as [|ab l IH]; intros ls N E; cbn [pair_lines] in E.
  - injection E as <-. split; [constructor|]. exists []. split; [reflexivity|constructor].
  - unfold pair_line in E. destruct (value_text g_text n res ab) as [v|] eqn:V; [|discriminate]. cbn [option_map] in E.
    destruct (pair_lines g_text n res l) as [ls'|] eqn:E'; [|discriminate]. injection E as <-.
    destruct (IH ls') as (F & vs & R & G); [intros a b J; apply N; now right|reflexivity|].
    destruct ab as [a b]. destruct (N a b (or_introl eq_refl)) as [Pa Pb]. cbn [fst snd] in *.
    assert (Pv : plain_value v). { unfold value_text in V. destruct (dget (s n) (a, b)); [|discriminate]. cbv zeta in V. destruct res; [destruct (eqb _ _); [discriminate|]|]; injection V as <-; apply g_plain. }
    split.
    + constructor; [|exact F]. apply plain_parts in Pa, Pb. apply plain_value_parts in Pv. destruct Pa as (_ & _ & Pa), Pb as (_ & _ & Pb), Pv as (_ & Pv).
      cbn [all_chars]. rewrite all_chars_app. cbn [all_chars]. rewrite all_chars_app. cbn [all_chars]. rewrite Pa, Pb, Pv. reflexivity.
    + exists ((label n a, label n b, v) :: vs). cbn [read_pairs]. pose proof (read_pair_text (label n a) (label n b) v Pa Pb Pv) as RT. cbn [String.append] in RT. rewrite RT, R. split; [reflexivity|]. constructor; [|exact G]. cbn. auto.
Qed.
Lemma nodes_read n ids h ls vs : indented h = None -> read_pairs ls = Some vs -> (forall i, In i ids -> plain (label n i)) ->
  read_nodes (map (node_line point_text n) ids ++ h :: ls) =
  Some (map (fun i => (label n i, match dget (locations n) i with Some p => point_text p | None => "" end)) ids, h, vs).
Proof.
  intros H R. induction ids as [|i ids IH]; intros P; cbn [map app read_nodes].
  - rewrite H, R. reflexivity.
  - assert (L : read_line (node_line point_text n i) = Some (label n i, match dget (locations n) i with Some p => point_text p | None => "" end)).
    { apply read_line_text; [apply plain_parts, P; now left|]. destruct (dget (locations n) i); [apply plain_value_parts, point_plain|reflexivity]. }
    rewrite L, IH by (intros j J; apply P; now right). reflexivity.
Qed.

(** The text has one line for each node, in the order of their numbers, with its name and place, and one line for each resistor, with the names of
    its two nodes and its conductance, or its resistance.  There is no text exactly if resistances are asked for and a conductance is zero. *)
Theorem C106_text : forall n resistance, reachable n -> (forall i nn, dget (node_names n) i = Some nn -> plain nn) ->
  exists nodes pairs,
    StronglySorted lt nodes /\ (forall i, In i nodes <-> exists p, location n i = Some p) /\
    StronglySorted pair_before pairs /\ (forall a b, In (a, b) pairs <-> (a < b)%nat /\ exists g, resistor n a b g) /\
    match to_string g_text point_text n resistance with
    | Some t => exists ns ps, read_text t = Some (ns, if resistance then "Resistors:" else "Conductors:", ps) /\
        Forall2 (fun i x => called n i (fst x) /\ exists p, location n i = Some p /\ snd x = point_text p) nodes ns /\
        Forall2 (fun ab x => called n (fst ab) (fst (fst x)) /\ called n (snd ab) (snd (fst x)) /\
                   exists g, resistor n (fst ab) (snd ab) g /\ (resistance = true -> g <> 0%Qc) /\ snd x = g_text (if resistance then 1 / g else g)%Qc) pairs ps
    | None => resistance = true /\ exists a b, In (a, b) pairs /\ resistor n a b 0%Qc
    end.
Proof.
  intros n res R PN. apply reachable_Inv in R. exists (py_sorted Nat.ltb (dkeys (locations n))), (shown_pairs n).
  assert (PL : forall i, plain (label n i)). { intros i. unfold label. destruct (dget (node_names n) i) eqn:E; [eauto|apply number_plain]. }
  assert (InP : forall a b, In (a, b) (shown_pairs n) <-> (a < b)%nat /\ exists g, resistor n a b g).
  { intros a b. unfold shown_pairs. rewrite filter_In, In_py_sorted. cbn [fst snd]. rewrite Nat.ltb_lt. unfold resistor. split.
    - intros [J L]. apply dkeys_dget in J. destruct J as [r E]. eauto.
    - intros [L (g & r & E & _)]. apply dget_Some_key in E. auto. }
  split; [apply sorted_strict; [intros; apply Nat.ltb_lt|lia|lia|lia|apply R]|].
  split; [intros i; rewrite In_py_sorted; split; [apply dkeys_dget|intros [p E]; now apply dget_Some_key in E]|].
  split. { apply filter_sorted, sorted_strict; [apply pair_lt_spec|unfold pair_before; lia|unfold pair_before; lia| |apply R]. unfold pair_before. intros [a b] [c d]. cbn [fst snd].
    destruct (Nat.lt_total a c) as [H|[H|H]], (Nat.lt_total b d) as [H'|[H'|H']]; subst; auto; lia. }
  split; [exact InP|]. unfold to_string. destruct (pair_lines g_text n res (shown_pairs n)) as [ls|] eqn:E; cbn [option_map].
  - destruct (pair_lines_read n res (shown_pairs n) ls) as (F & vs & RP & G); [auto|exact E|].
    set (ids := py_sorted Nat.ltb (dkeys (locations n))).
    exists (map (fun i => (label n i, match dget (locations n) i with Some p => point_text p | None => "" end)) ids), vs.
    split; [|split].
    + unfold read_text. rewrite <- (str_app_nil (join nl _)). rewrite split_join; [|discriminate| |reflexivity].
      * match goal with |- context [append_last ?l ""] => assert (AL : append_last l "" = l) end.
        { generalize (("Nodes:" :: map (node_line point_text n) ids) ++ (if res then "Resistors:" else "Conductors:") :: ls). intros l.
          induction l as [|x l IH]; [reflexivity|]. destruct l as [|y l]; [cbn; now rewrite str_app_nil|]. change (append_last (x :: y :: l) "") with (x :: append_last (y :: l) ""). now rewrite IH. }
        rewrite AL. cbn [app]. change (String.eqb "Nodes:" "Nodes:") with true. cbn iota. apply nodes_read; [now destruct res|exact RP|auto].
      * cbn [app]. constructor; [reflexivity|]. apply Forall_app. split; [|constructor; [now destruct res|exact F]].
        apply Forall_forall. intros x J. apply in_map_iff in J. destruct J as (i & <- & _). unfold node_line. rewrite !all_chars_app. destruct (plain_parts _ (PL i)) as (_ & _ & ->).
        destruct (dget (locations n) i); [|reflexivity]. destruct (plain_value_parts _ (point_plain p)) as (_ & ->). reflexivity.
    + assert (K : forall i, In i ids -> exists p, location n i = Some p) by (intros i J; unfold ids in J; rewrite In_py_sorted in J; now apply dkeys_dget in J).
      induction ids as [|i l IH]; [constructor|]. cbn [map]. constructor; [|apply IH; intros j J; apply K; now right].
      cbn [fst snd]. split; [apply label_called|]. destruct (K i (or_introl eq_refl)) as [p Ep]. exists p. split; [exact Ep|]. unfold location in Ep. now rewrite Ep.
    + eapply Forall2_impl; [|exact G]. cbv beta. intros [a b] [[x y] v] [Q V]. cbn [fst snd] in *. injection Q as -> ->. split; [apply label_called|]. split; [apply label_called|].
      unfold value_text in V. destruct (dget (s n) (a, b)) as [r|] eqn:Er; [|discriminate]. exists (hget (heap n) r). split; [exists r; auto|]. cbv zeta in V. destruct res.
      * destruct (eqb (hget (heap n) r) 0%Qc) eqn:Z; [discriminate|]. injection V as <-. split; [intros _; now apply eqb_neq in Z|reflexivity].
      * injection V as <-. split; [discriminate|reflexivity].
  - assert (H : forall l, incl l (shown_pairs n) -> pair_lines g_text n res l = None -> res = true /\ exists a b, In (a, b) l /\ resistor n a b 0%Qc).
    { clear E. induction l as [|[a b] l IH]; intros I E; [discriminate|]. cbn [pair_lines] in E. unfold pair_line, value_text in E. cbn [fst snd] in E.
      destruct (proj1 (InP a b) (I _ (or_introl eq_refl))) as (_ & g & r & Er & Eg). rewrite Er in E. cbv zeta in E.
      assert (T : pair_lines g_text n res l = None -> res = true /\ exists a0 b0, In (a0, b0) ((a, b) :: l) /\ resistor n a0 b0 0%Qc).
      { intros Q. destruct IH as (X & a' & b' & J & Z); [intros y J; apply I; now right|exact Q|]. split; [exact X|]. exists a', b'. split; [now right|exact Z]. }
      destruct res.
      - destruct (eqb (hget (heap n) r) 0%Qc) eqn:Z.
        + split; [reflexivity|]. exists a, b. split; [now left|]. exists r. split; [exact Er|now apply eqb_eq in Z].
        + cbn [option_map] in E. destruct (pair_lines g_text n true l); [discriminate|]. auto.
      - cbn [option_map] in E. destruct (pair_lines g_text n false l); [discriminate|]. auto. }
    apply H in E; [exact E|]. intros x J. exact J.
Qed.
(** str(network) never fails, and gives the conductances *)
Theorem C106_str : forall n, reachable n -> (forall i nn, dget (node_names n) i = Some nn -> plain nn) ->
  exists t ns ps pairs, str_network g_text point_text n = Some t /\ read_text t = Some (ns, "Conductors:", ps) /\
    StronglySorted pair_before pairs /\ (forall a b, In (a, b) pairs <-> (a < b)%nat /\ exists g, resistor n a b g) /\
    Forall2 (fun ab x => called n (fst ab) (fst (fst x)) /\ called n (snd ab) (snd (fst x)) /\ exists g, resistor n (fst ab) (snd ab) g /\ snd x = g_text g) pairs ps.
Proof.
  intros n R PN. destruct (C106_text n false R PN) as (nodes & pairs & _ & _ & P1 & P2 & T). unfold str_network.
  destruct (to_string g_text point_text n false) as [t|]; [|destruct T as [T _]; discriminate T]. destruct T as (ns & ps & T1 & _ & T2).
  exists t, ns, ps, pairs. split; [reflexivity|]. split; [exact T1|]. split; [exact P1|]. split; [exact P2|].
  eapply Forall2_impl; [|exact T2]. cbv beta. intros ab x (A & B & g & C & _ & D). split; [exact A|]. split; [exact B|]. exists g. auto.
Qed.
End C106.
Print Assumptions C106_str.
Print Assumptions C106_text.

Notation built l := (match run empty_net l with Some n => n | None => empty_net end).
Definition hist : list op := [ONode (0, 0)%Z; ONode (5, 0)%Z; ONode (9, 9)%Z; OName 1%nat "VDD"; OCond 2%nat 0%nat (Q2Qc 4); OCond 1%nat 0%nat (Q2Qc 2)].
Lemma built_reachable l : run_okb empty_net l = true -> (if run empty_net l then true else false) = true -> reachable (built l).
Proof. intros O S. exists l. split; [now apply run_okb_ok|]. now destruct (run empty_net l). Qed.
(** three nodes and two resistors of 1/4 and 1/2 Ohm *)
Example C106_case : reachable (built hist) /\ (forall i nn, dget (node_names (built hist)) i = Some nn -> plain nn) /\
  (forall v, plain_value (PyNum.show_round 2 v)) /\
  (let place (p : point) := ("x" ++ NX_Model.nat_str (Z.to_nat (fst p)))%string in
   match to_string (PyNum.show_round 2) place (built hist) true with
   | Some t => read_text t = Some ([("0", "x0"); ("VDD", "x5"); ("2", "x9")], "Resistors:", [("0", "VDD", "0.5"); ("0", "2", "0.25")])
   | None => False
   end).
Proof.
  split; [apply built_reachable; vm_compute; reflexivity|]. split.
  - intros i nn. change (node_names (built hist)) with [(1%nat, "VDD")]. cbn [dget]. destruct (eq_dec i 1%nat); [intros H; injection H as <-; reflexivity|discriminate].
  - split; [|vm_compute; reflexivity]. intros v. unfold plain_value. generalize (PyNum.show_round_chars 2 v). apply all_chars_impl. intros c. now destruct c as [[] [] [] [] [] [] [] []].
Qed.
(** A name may be the number of another node: networks with different resistors have the same text. *)
Theorem C106_number_as_name_refuted : exists n n', reachable n /\ reachable n' /\ (forall i, location n i = location n' i) /\ node_names n = node_names n' /\
  (exists g, resistor n 0%nat 2%nat g) /\ ~ (exists g, resistor n' 0%nat 2%nat g) /\
  forall g_text point_text, to_string g_text point_text n false <> None /\ to_string g_text point_text n false = to_string g_text point_text n' false.
Proof.
  set (start := [ONode (0, 0)%Z; ONode (5, 0)%Z; ONode (9, 9)%Z; OName 0%nat "1"]).
  exists (built (start ++ [OCond 0%nat 2%nat 1%Qc])), (built (start ++ [OCond 1%nat 2%nat 1%Qc])).
  split; [apply built_reachable; vm_compute; reflexivity|]. split; [apply built_reachable; vm_compute; reflexivity|].
  split; [reflexivity|]. split; [reflexivity|]. split; [eexists; eexists; split; reflexivity|]. split; [intros (g & r & E & _); vm_compute in E; discriminate|].
  intros g_text point_text. split; [intros E; vm_compute in E; discriminate|]. reflexivity.
Qed.
Print Assumptions C106_number_as_name_refuted.
(** A resistor of conductance zero, which two calls can leave, stops the text with resistances. *)
Theorem C106_open_refuted : exists n, reachable n /\ forall g_text point_text, to_string g_text point_text n true = None /\ to_string g_text point_text n false <> None.
Proof.
  exists (built [ONode (0, 0)%Z; ONode (5, 0)%Z; OCond 0%nat 1%nat 1%Qc; OCond 0%nat 1%nat (-(1))%Qc]).
  split; [apply built_reachable; vm_compute; reflexivity|]. intros g_text point_text. split; [vm_compute; reflexivity|]. intros E; vm_compute in E; discriminate.
Qed.
Print Assumptions C106_open_refuted.
