(** Lemmas for patterns, boolean arguments, category paths and category trees. *)
From Coq Require Import String Ascii Lia.
From Verif Require Import PyBase PyLib PyStr UT_Model UT_Spec.
Local Open Scope string_scope.
Local Open Scope list_scope.

Lemma mem_In x l : mem x l = true <-> In x l.
Proof.
  unfold mem. rewrite existsb_exists. split; [intros (y & J & E); apply eqb_eq in E; subst; exact J | intros J; exists x; split; [exact J | apply eqb_refl]].
Qed.
Lemma components_names pattern w : In w (components pattern) <-> names pattern w.
Proof. unfold components, names. rewrite in_map_iff. split; intros (c & A & B); exists c; auto. Qed.
Lemma signed_In a cs w : In w (signed a cs) <-> In (String a w) cs.
Proof.
  unfold signed. rewrite in_flat_map. split.
  - intros ([|b r] & J & I); [destruct I|]. destruct (eqb b a) eqn:E; [|destruct I]. apply eqb_eq in E. destruct I as [->|[]]. subst. exact J.
  - intros J. exists (String a w). split; [exact J|]. rewrite eqb_refl. left. reflexivity.
Qed.
Lemma parse_fields pattern p : parse_choice pattern = Some p ->
  (has_all p = true <-> names pattern "all") /\ (has_none p = true <-> names pattern "none") /\
  (forall w, In w (ch_included p) <-> names pattern (String "+" w)) /\ (forall w, In w (ch_excluded p) <-> names pattern (String "-" w)).
Proof.
  unfold parse_choice. intros E. set (c := Choice _ _ _ _) in E.
  destruct (has_none c && has_all c); [discriminate|]. destruct (has_none c && _); [discriminate|]. destruct (has_all c && _); [discriminate|].
  injection E as <-. unfold c. cbn [has_all has_none ch_included ch_excluded]. rewrite !mem_In, !components_names.
  split; [reflexivity|]. split; [reflexivity|]. split; intros w; rewrite signed_In; apply components_names.
Qed.
Lemma nonempty_len {A} (l : list A) : Nat.leb 1 (List.length l) = true <-> exists x, In x l.
Proof. destruct l as [|x l]; cbn; split; try discriminate; [intros (x & []) | intros _; exists x; left; reflexivity | reflexivity]. Qed.
Lemma lower_cases x : lower_ascii x = x \/ exists n, (65 <= n <= 90)%nat /\ x = ascii_of_nat n /\ lower_ascii x = ascii_of_nat (n + 32).
Proof.
  unfold lower_ascii. destruct (Nat.leb 65 (nat_of_ascii x) && Nat.leb (nat_of_ascii x) 90) eqn:E; [right|left; reflexivity].
  apply andb_true_iff in E. destruct E as [A B]. apply Nat.leb_le in A, B. exists (nat_of_ascii x). rewrite ascii_nat_embedding. auto.
Qed.
Lemma lower_upper n : (65 <= n <= 90)%nat -> lower_ascii (ascii_of_nat n) = ascii_of_nat (n + 32).
Proof. intros B. unfold lower_ascii. rewrite nat_ascii_embedding by lia. rewrite (proj2 (Nat.leb_le 65 n)), (proj2 (Nat.leb_le n 90)) by lia. reflexivity. Qed.
Lemma lower_lower n : (65 <= n <= 90)%nat -> lower_ascii (ascii_of_nat (n + 32)) = ascii_of_nat (n + 32).
Proof. intros B. unfold lower_ascii. rewrite nat_ascii_embedding by lia. rewrite (proj2 (Nat.leb_gt (n + 32) 90)) by lia. rewrite andb_false_r. reflexivity. Qed.
Lemma fold_same s w : casefold w = w -> (casefold s = w <-> same_letters s w).
Proof.
  revert w. induction s as [|x s IH]; intros [|y w] W; cbn in *; try (split; [discriminate | intros []]); [tauto|].
  injection W as Wy Ww. specialize (IH w Ww). split.
  - intros E. injection E as Ex Es. split; [|apply IH, Es]. destruct (lower_cases x) as [L|(n & B & X & L)]; [left; congruence|].
    right. exists n. split; [exact B|]. left. split; congruence.
  - intros [C S]. apply IH in S. rewrite S. f_equal. destruct C as [->|(n & B & [[-> ->]|[-> ->]])]; [exact Wy | apply lower_upper, B |].
    rewrite lower_lower by exact B. rewrite lower_upper in Wy by exact B. exact Wy.
Qed.
Lemma mem_fold s ws : (forall w, In w ws -> casefold w = w) -> (mem (casefold s) ws = true <-> exists w, In w ws /\ same_letters s w).
Proof.
  intros L. rewrite mem_In. split.
  - intros J. exists (casefold s). split; [exact J | apply fold_same; [apply L, J | reflexivity]].
  - intros (w & J & S). apply fold_same in S; [|apply L, J]. rewrite S. exact J.
Qed.
Lemma snoc_app a c b : (snoc a c ++ b)%string = (a ++ String c b)%string.
Proof. unfold snoc. rewrite str_app_assoc. reflexivity. Qed.
Lemma special_eqb c : special c <-> eqb c dot = true \/ eqb c backslash = true \/ eqb c apos = true.
Proof. unfold special. cbn. rewrite !eqb_true. unfold dot, backslash, apos. cbn. intuition. Qed.
Lemma writes_parse q e w : writes q e w -> forall word rest,
  parse_path q false word (e ++ rest)%string = parse_path false false (word ++ w)%string rest.
Proof.
  induction 1 as [|q c e w N W IH|q c e w S W IH|e w W IH|q e w W IH]; intros word rest.
  - rewrite str_app_nil. reflexivity.
  - cbn [append parse_path]. destruct (eqb c dot) eqn:A; [exfalso; apply N, special_eqb; auto|].
    destruct (eqb c backslash) eqn:B; [exfalso; apply N, special_eqb; auto|]. destruct (eqb c apos) eqn:C; [exfalso; apply N, special_eqb; auto|].
    rewrite IH, snoc_app. reflexivity.
  - cbn [append parse_path]. change (eqb "\"%char dot) with false. change (eqb "\"%char backslash) with true. cbv iota. cbn [parse_path].
    apply special_eqb in S. destruct (eqb c dot) eqn:A; [rewrite IH, snoc_app; reflexivity|]. destruct (eqb c backslash) eqn:B; [rewrite IH, snoc_app; reflexivity|].
    destruct (eqb c apos) eqn:C; [rewrite IH, snoc_app; reflexivity|]. destruct S as [S|[S|S]]; discriminate.
  - cbn [append parse_path]. change (eqb "."%char dot) with true. cbv iota. rewrite IH, snoc_app. reflexivity.
  - cbn [append parse_path]. change (eqb "'"%char dot) with false. change (eqb "'"%char backslash) with false. change (eqb "'"%char apos) with true. cbv iota. apply IH.
Qed.
Lemma add_path_complete p : forall cs, complete cs -> exists cs', add_path p cs = Some cs' /\ complete cs'.
Proof.
  induction p as [|c r IH]; [intros cs H; exists cs; auto|].
  intros cs H. cbn [add_path]. induction H as [|n s cs Cs _ H IHcs].
  - destruct (IH [] complete_nil) as (s & E & Cs). rewrite E. exists [Cat c (Some s)]. split; [reflexivity|]. constructor; [exact Cs | constructor].
  - destruct (eqb n c).
    + destruct r as [|c2 r]; [eexists; split; [reflexivity|]; constructor; assumption|].
      destruct (IH s Cs) as (s' & E & Cs'). rewrite E. eexists. split; [reflexivity|]. constructor; assumption.
    + destruct IHcs as (t & E & Ct). rewrite E. eexists. split; [reflexivity|]. constructor; assumption.
Qed.
Lemma add_path_follows p : forall cs cs', add_path p cs = Some cs' -> follows cs' p.
Proof.
  induction p as [|c r IH]; [intros cs cs' E; exact I|].
  intros cs. cbn [add_path]. induction cs as [|[n s] cs IHcs]; intros cs'.
  - destruct (add_path r []) as [s|] eqn:E; [|discriminate]. intros [= <-]. cbn [follows find cat_name]. rewrite eqb_refl. apply IH in E. destruct r; [exact I | exact E].
  - destruct (eqb n c) eqn:N.
    + destruct r as [|c2 r]; [intros [= <-]; cbn [follows find cat_name]; rewrite N; exact I|]. destruct s as [s|]; [|discriminate].
      destruct (add_path (c2 :: r) s) as [s'|] eqn:E; [|discriminate]. intros [= <-]. cbn [follows find cat_name]. rewrite N. apply (IH _ _ E).
    + match goal with |- context [match ?g with _ => _ end] => destruct g as [t|] eqn:E; [|discriminate] end. intros [= <-].
      specialize (IHcs _ eq_refl). cbn [follows find cat_name] in *. rewrite N. exact IHcs.
Qed.
Fixpoint extends_refl_c (c : cat) : forall a b, extends a b -> extends (c :: a) (c :: b).
Proof.
  destruct c as [n [s|]]; intros a b H; constructor; try exact H; constructor.
  induction s as [|d s IH]; [constructor | apply extends_refl_c, IH].
Defined.
Lemma extends_refl cs : extends cs cs.
Proof. induction cs as [|c cs IH]; [constructor | apply extends_refl_c, IH]. Qed.
Lemma extends_opt_refl s : extends_opt s s.
Proof. destruct s; constructor. apply extends_refl. Qed.
Lemma add_path_extends p : forall cs cs', add_path p cs = Some cs' -> extends cs cs'.
Proof.
  induction p as [|c r IH]; [intros cs cs' [= <-]; apply extends_refl|].
  intros cs. cbn [add_path]. induction cs as [|[n s] cs IHcs]; intros cs'; [constructor|].
  destruct (eqb n c) eqn:N.
  - destruct r as [|c2 r]; [intros [= <-]; apply extends_refl|]. destruct s as [s|]; [|discriminate].
    destruct (add_path (c2 :: r) s) as [s'|] eqn:E; [|discriminate]. intros [= <-]. constructor; [constructor; apply (IH _ _ E) | apply extends_refl].
  - match goal with |- context [match ?g with _ => _ end] => destruct g as [t|] eqn:E; [|discriminate] end. intros [= <-].
    constructor; [apply extends_opt_refl | apply IHcs; reflexivity].
Qed.
Scheme extends_ind2 := Induction for extends Sort Prop with extends_opt_ind2 := Induction for extends_opt Sort Prop.
Lemma extends_follows a b : extends a b -> forall q, follows a q -> follows b q.
Proof.
  intros H. induction H as [more|n s t a b Hs IHs Hab IHab| |a b Hab IHab] using extends_ind2
    with (P0 := fun s t _ => match s with Some s => exists t', t = Some t' /\ forall q, follows s q -> follows t' q | None => True end).
  - intros [|c r]; [auto | intros []].
  - intros [|c r]; [auto|]. cbn [follows find cat_name]. destruct (eqb n c).
    + destruct r as [|c2 r]; [auto|]. destruct s as [s|]; [|intros []]. destruct IHs as (t' & -> & F). apply F.
    + intros F. specialize (IHab (c :: r)). cbn [follows] in IHab. apply IHab, F.
  - exact I.
  - exists b. auto.
Qed.
Lemma extends_trans a b : extends a b -> forall c, extends b c -> extends a c.
Proof.
  intros H. induction H as [more|n s t a b Hs IHs Hab IHab| |a b Hab IHab] using extends_ind2
    with (P0 := fun s t _ => forall u, extends_opt t u -> extends_opt s u).
  - intros c _. constructor.
  - intros c Hc. inversion Hc; subst. constructor; auto.
  - auto.
  - intros u Hu. inversion Hu; subst. constructor. auto.
Qed.
Lemma add_path_there p : forall cs, follows cs p -> add_path p cs = Some cs.
Proof.
  induction p as [|c r IH]; [reflexivity|]. intros cs. induction cs as [|[n s] cs IHcs]; [intros []|].
  cbn [follows find cat_name add_path]. destruct (eqb n c) eqn:N.
  - destruct r as [|c2 r]; [reflexivity|]. destruct s as [s|]; [|intros []]. intros F. rewrite (IH s F). reflexivity.
  - intros F. cbn [follows add_path] in IHcs. rewrite (IHcs F). reflexivity.
Qed.
Lemma add_path_minimal p : forall cs cs' q, add_path p cs = Some cs' -> follows cs' q -> follows cs q \/ exists more, p = q ++ more.
Proof.
  induction p as [|c r IH]; [intros cs cs' q [= <-] F; left; exact F|].
  intros cs. induction cs as [|[n s] cs IHcs]; intros cs' q; cbn [add_path].
  - destruct (add_path r []) as [s|] eqn:E; [|discriminate]. intros [= <-]. destruct q as [|d q]; [right; exists (c :: r); reflexivity|].
    cbn [follows find cat_name]. destruct (eqb c d) eqn:N; [|intros []]. apply eqb_eq in N. subst d.
    destruct q as [|d q]; [intros _; right; exists r; reflexivity|]. intros F. destruct (IH _ _ _ E F) as [[]|(more & ->)]. right. exists more. reflexivity.
  - destruct (eqb n c) eqn:N.
    + destruct r as [|c2 r]; [intros [= <-] F; left; exact F|]. destruct s as [s|]; [|discriminate].
      destruct (add_path (c2 :: r) s) as [s'|] eqn:E; [|discriminate]. intros [= <-]. destruct q as [|d q]; [intros _; left; exact I|].
      cbn [follows find cat_name]. destruct (eqb n d) eqn:D; [|auto]. apply eqb_eq in N, D. subst. destruct q as [|e q]; [auto|].
      intros F. destruct (IH _ _ _ E F) as [G|(more & ->)]; [left; exact G | right; exists more; reflexivity].
    + match goal with |- context [match ?g with _ => _ end] => destruct g as [t|] eqn:E; [|discriminate] end. intros [= <-].
      destruct q as [|d q]; [intros _; left; exact I|]. cbn [follows find cat_name]. destruct (eqb n d) eqn:D; [auto|]. intros F. apply (IHcs _ (d :: q) E F).
Qed.
Definition add_all (ps : list (list string)) (cs : option (list cat)) : option (list cat) :=
  fold_left (fun cs p => match cs with Some cs => add_path p cs | None => None end) ps cs.
Lemma add_all_ok ps : forall cs, complete cs -> exists out, add_all ps (Some cs) = Some out /\ complete out /\ extends cs out /\
  (forall p, In p ps -> follows out p) /\ (forall q, follows out q -> follows cs q \/ exists p more, In p ps /\ p = q ++ more).
Proof.
  induction ps as [|p ps IH]; intros cs C.
  - exists cs. split; [reflexivity|]. split; [exact C|]. split; [apply extends_refl|]. split; [intros p [] | auto].
  - destruct (add_path_complete p cs C) as (cs1 & E & C1). destruct (IH cs1 C1) as (out & Eo & Co & Xo & Fo & Mo).
    exists out. unfold add_all in *. cbn [fold_left]. rewrite E. split; [exact Eo|]. split; [exact Co|].
    split; [apply (extends_trans _ _ (add_path_extends _ _ _ E) _ Xo)|]. split.
    + intros p' [<-|J]; [apply (extends_follows _ _ Xo), (add_path_follows _ _ _ E) | apply Fo, J].
    + intros q F. destruct (Mo q F) as [G|(p' & more & J & P)].
      * destruct (add_path_minimal _ _ _ _ E G) as [H|(more & P)]; [left; exact H | right; exists p, more; split; [left; reflexivity | exact P]].
      * right. exists p', more. split; [right; exact J | exact P].
Qed.
Lemma add_all_there ps : forall cs, (forall p, In p ps -> follows cs p) -> add_all ps (Some cs) = Some cs.
Proof.
  induction ps as [|p ps IH]; intros cs F; [reflexivity|]. unfold add_all. cbn [fold_left]. rewrite add_path_there by (apply F; left; reflexivity).
  apply IH. intros q J. apply F. right. exact J.
Qed.
