From Coq Require Import String Sorted Lia.
From Verif Require Import PyBase QcLra PyLib ER_Model OV_Model OV_Spec.
Set Implicit Arguments.
Local Open Scope Qc_scope.

Section P.
Context {pt : Type}.
Variable area : region pt -> Qc.
Variable dbu : Qc.
Variable substrate : string.
Variable specs : dict string (dict string Qc).
Variable layer_names : list string.

Lemma spec_for_some top bot c : spec_for specs top bot = Some c <-> specified specs top bot c.
Proof.
  unfold spec_for, specified. split.
  - destruct (dget specs top) as [[|a t]|] eqn:E; try discriminate. intros H. exists (a :: t). auto.
  - intros (t & -> & H). destruct t; [discriminate H|exact H].
Qed.

Variables (bot_name net_bot : string) (bottom : region pt).
Let nm (k : nat) := nth k layer_names EmptyString.
Let step (s : st) (e : nat * poly pt) := visit area dbu specs bot_name net_bot bottom (nm (fst e)) s (snd e).

Lemma layers_flat nb ks s :
  fold_left (visit_layer area dbu specs layer_names bot_name net_bot bottom nb) ks s
  = fold_left step (flat_map (fun k => match dget nb k with Some ps => map (pair k) ps | None => [] end) ks) s.
Proof.
  revert s. induction ks as [|k ks IH]; intros s; [reflexivity|].
  cbn [fold_left flat_map]. rewrite fold_left_app, IH. f_equal. unfold visit_layer.
  destruct (dget nb k) as [ps|]; [|reflexivity].
  revert s. induction ps as [|p ps IHp]; intros s; [reflexivity|]. cbn [map fold_left]. apply IHp.
Qed.

Lemma done_stays l s : st_done s = true -> fold_left step l s = s.
Proof.
  revert s. induction l as [|e l IH]; intros s H; [reflexivity|]. cbn [fold_left].
  assert (E : step s e = s) by (unfold step, visit; now rewrite H). now rewrite E, IH.
Qed.
Lemma skip_same l s :
  fold_left step l s = fold_left step (filter (fun e => negb (eqb (p_net (snd e)) net_bot)) l) s.
Proof.
  revert s. induction l as [|e l IH]; intros s; [reflexivity|]. cbn [fold_left filter].
  destruct (eqb (p_net (snd e)) net_bot) eqn:E; cbn [negb].
  - rewrite <- IH. f_equal. unfold step, visit. rewrite E. now destruct (st_done s).
  - cbn [fold_left]. apply IH.
Qed.

Definition has_spec (e : nat * poly pt) : bool :=
  match spec_for specs (nm (fst e)) bot_name with Some _ => true | None => false end.
(* length of the longest prefix with specs *)
Fixpoint lead (l : list (nat * poly pt)) : nat :=
  match l with [] => O | e :: t => if has_spec e then S (lead t) else O end.

Section Cands.
Variable cands : list (nat * poly pt).
Hypothesis Hnet : forall e, In e cands -> p_net (snd e) <> net_bot.
Hypothesis Harea : measure area.

Lemma existsb_app' {A} (f : A -> bool) l l' : existsb f (l ++ l') = existsb f l || existsb f l'.
Proof. induction l; simpl; auto. now rewrite IHl, Bool.orb_assoc. Qed.

Lemma main : forall post pre sh out idx,
  cands = (pre ++ post)%list ->
  (forall p, sh p = existsb (fun e => p_points (snd e) p) pre) ->
  StronglySorted lt idx ->
  (forall i, In i idx <-> (i < List.length pre)%nat /\ exists v, worth area dbu specs layer_names bot_name bottom cands i v /\ 0 < v) ->
  Forall2 (report_for area dbu specs layer_names bot_name net_bot bottom cands) idx out ->
  reports_first area dbu specs layer_names bot_name net_bot bottom cands (List.length pre + lead post)
    (st_out (fold_left step post (St sh out false))).
Proof.
  induction post as [|[k p] post IH]; intros pre sh out idx Hc Hsh Hs Hi HF.
  { cbn. rewrite Nat.add_0_r. exists idx. auto. }
  cbn [fold_left lead].
  assert (Hin : In (k, p) cands) by (rewrite Hc; apply in_or_app; right; now left).
  assert (Hn := @Hnet _ Hin). cbn [snd] in Hn.
  unfold has_spec. cbn [fst].
  destruct (spec_for specs (nm k) bot_name) as [c|] eqn:Ec.
  2:{ replace (step (St sh out false) (k, p)) with (St sh out true)
        by (unfold step, visit; cbn; now rewrite (proj2 (eqb_false (p_net p) net_bot) Hn), Ec).
      rewrite done_stays by reflexivity. cbn. rewrite Nat.add_0_r. exists idx. auto. }
  assert (Hnth : nth_error cands (List.length pre) = Some (k, p)).
  { rewrite Hc, nth_error_app2, Nat.sub_diag by lia. reflexivity. }
  assert (Hfst : firstn (List.length pre) cands = pre).
  { rewrite Hc, firstn_app, Nat.sub_diag, firstn_all. cbn. apply app_nil_r. }
  set (ov := rsub (rand (p_points p) bottom) sh).
  assert (Hov : forall q, ov q = first_cover bottom cands (List.length pre) q).
  { intros q. unfold ov, rsub, rand, first_cover. rewrite Hnth, Hfst, Hsh. cbn [snd].
    destruct (p_points p q), (bottom q); reflexivity. }
  assert (Ha : area ov = area (first_cover bottom cands (List.length pre))) by now apply (m_ext Harea).
  set (cap := area ov * (dbu * dbu) * c / Q2Qc 1000).
  replace (step (St sh out false) (k, p)) with
    (St (rinsert sh (p_points p))
        (if qltb 0 cap then (out ++ [Emitted (OverlapCap (nm k, p_net p, bot_name, net_bot) cap 0 0) p ov])%list else out) false)
    by (unfold step, visit; cbn [st_done st_shield st_out fst snd];
        now rewrite (proj2 (eqb_false (p_net p) net_bot) Hn), Ec).
  assert (Hw : worth area dbu specs layer_names bot_name bottom cands (List.length pre) cap).
  { exists k, p, c. split; [exact Hnth|]. split; [now apply spec_for_some|]. unfold cap. now rewrite Ha. }
  assert (Hwu : forall v, worth area dbu specs layer_names bot_name bottom cands (List.length pre) v -> v = cap).
  { intros v (k' & p' & c' & E1 & E2 & ->). rewrite Hnth in E1. injection E1 as <- <-.
    apply spec_for_some in E2. change (nth k layer_names EmptyString) with (nm k) in E2.
    rewrite Ec in E2. injection E2 as <-. unfold cap. now rewrite Ha. }
  replace (List.length pre + S (lead post))%nat with (List.length (pre ++ [(k, p)])%list + lead post)%nat
    by (rewrite app_length; cbn; lia).
  assert (Hc' : cands = ((pre ++ [(k, p)]) ++ post)%list) by (rewrite <- app_assoc; exact Hc).
  assert (Hsh' : forall q, rinsert sh (p_points p) q = existsb (fun e => p_points (snd e) q) (pre ++ [(k, p)])%list).
  { intros q. unfold rinsert. rewrite existsb_app', Hsh. cbn. now rewrite Bool.orb_false_r. }
  destruct (qltb 0 cap) eqn:Eq.
  - apply qltb_true in Eq.
    apply (IH (pre ++ [(k, p)])%list _ _ (idx ++ [List.length pre])%list); auto.
    + assert (Hlt : Forall (fun i => (i < List.length pre)%nat) idx)
        by (apply Forall_forall; intros i H; now apply Hi in H).
      clear - Hs Hlt. induction Hs as [|a l Hs IHs Hf]; cbn.
      * constructor; constructor.
      * inversion Hlt; subst. constructor; [now apply IHs|]. apply Forall_app. split; auto.
    + intros i. rewrite in_app_iff, app_length. cbn [List.length In].
      split.
      * intros [H|[<-|[]]]; [apply Hi in H; destruct H; split; [lia|auto]|]. split; [lia|]. exists cap. auto.
      * intros [Hl Hv]. destruct (Nat.eq_dec i (List.length pre)) as [->|Hne]; [now right; left|].
        left. apply Hi. split; [lia|auto].
    + apply Forall2_app; [exact HF|]. constructor; [|constructor].
      exists k, p, cap. cbn. auto 10.
  - apply qltb_false in Eq.
    apply (IH (pre ++ [(k, p)])%list _ _ idx); auto.
    intros i. rewrite app_length. cbn [List.length]. rewrite Hi. split.
    + intros [H1 H2]. split; [lia|auto].
    + intros [H1 (v & H2 & H3)]. destruct (Nat.eq_dec i (List.length pre)) as [->|Hne].
      * apply Hwu in H2. subst v. exfalso. revert H3. now apply Qcle_not_lt.
      * split; [lia|]. eauto.
Qed.
End Cands.

Lemma lead_le l : (lead l <= List.length l)%nat.
Proof. induction l; cbn; [lia|]. destruct (has_spec a); lia. Qed.
Lemma lead_all l : (forall e, In e l -> exists c, specified specs (nm (fst e)) bot_name c) -> lead l = List.length l.
Proof.
  induction l as [|e l IH]; intros H; [reflexivity|]. cbn.
  destruct (H e) as [c Hc]; [now left|]. apply spec_for_some in Hc. unfold has_spec. rewrite Hc.
  f_equal. apply IH. intros e' He. apply H. now right.
Qed.
Lemma lead_spec l i e : (i < lead l)%nat -> nth_error l i = Some e -> exists c, specified specs (nm (fst e)) bot_name c.
Proof.
  revert i. induction l as [|a l IH]; intros i Hi He; [cbn in Hi; lia|].
  cbn in Hi. destruct (has_spec a) eqn:Ha; [|lia].
  destruct i; cbn in He.
  - injection He as <-. unfold has_spec in Ha. destruct (spec_for specs (nm (fst a)) bot_name) as [c|] eqn:E; [|discriminate].
    exists c. now apply spec_for_some.
  - apply (IH i); auto. lia.
Qed.
Lemma lead_stop l e : nth_error l (lead l) = Some e -> forall c, ~ specified specs (nm (fst e)) bot_name c.
Proof.
  induction l as [|a l IH]; cbn; intros He c Hc; [discriminate|].
  destruct (has_spec a) eqn:Ha; cbn in He; [now apply (IH He c)|].
  injection He as <-. apply spec_for_some in Hc. unfold has_spec in Ha. now rewrite Hc in Ha.
Qed.
End P.

Section Q.
Context {pt : Type}.
Variable area : region pt -> Qc.
Hypothesis Harea : measure area.

Lemma neighbors_main dbu substrate specs layer_names inside polygon nb :
  let bot := nth inside layer_names EmptyString in
  let net := bottom_net substrate bot polygon in
  let cands := candidates (List.length layer_names) inside nb net in
  reports_first area dbu specs layer_names bot net (p_points polygon) cands
    (lead specs layer_names bot cands)
    (neighbors area dbu substrate specs layer_names inside polygon nb).
Proof.
  intros bot net cands. unfold neighbors. fold bot. change (if eqb bot substrate then substrate else p_net polygon) with net.
  rewrite layers_flat, skip_same. fold (candidates (List.length layer_names) inside nb net). fold cands.
  assert (Hn : forall e, In e cands -> p_net (snd e) <> net).
  { intros e He. unfold cands, candidates in He. apply filter_In in He. destruct He as [_ He].
    apply Bool.negb_true_iff in He. now apply eqb_neq. }
  refine (@main pt area dbu specs layer_names bot net (p_points polygon) cands Hn Harea cands [] _ _ [] eq_refl _ _ _ _);
    auto.
  - constructor.
  - intros i. cbn. split; [tauto|]. intros [H _]. lia.
Qed.

Lemma measure_mono a b : (forall p, a p = true -> b p = true) -> area a <= area b.
Proof.
  intros H.
  assert (E : area b = area a + area (fun p => b p && negb (a p))).
  { rewrite <- (m_add Harea a (fun p => b p && negb (a p))).
    - apply (m_ext Harea). intros p. specialize (H p). destruct (a p), (b p); auto.
    - intros p. destruct (a p), (b p); reflexivity. }
  rewrite E. assert (H0 := m_nonneg Harea (fun p => b p && negb (a p))).
  rewrite <- (Qcplus_0_r (area a)) at 1. apply Qcplus_le_compat; [apply Qcle_refl|exact H0].
Qed.

Lemma disjoint_sum (l : list (region pt)) b :
  (forall a, In a l -> subset a b) -> ForallOrdPairs disjoint l -> rsum (map area l) <= area b.
Proof.
  intros Hs Hd.
  assert (E : rsum (map area l) = area (fun p => existsb (fun a => a p) l)).
  { clear Hs. induction Hd as [|a l Ha Hd IH]; cbn; [symmetry; apply (m_empty Harea)|].
    rewrite IH. symmetry. apply (m_add Harea a (fun p => existsb (fun r => r p) l)).
    intros p. destruct (a p) eqn:Ea; [|reflexivity]. cbn.
    destruct (existsb (fun r => r p) l) eqn:Ee; [|reflexivity]. exfalso.
    apply existsb_exists in Ee. destruct Ee as (r & Hr & Hp).
    rewrite Forall_forall in Ha. now apply (Ha r Hr p). }
  rewrite E. apply measure_mono. intros p Hp. apply existsb_exists in Hp. destruct Hp as (r & Hr & Hp).
  now apply (Hs r Hr).
Qed.

Lemma first_cover_disjoint bottom (cands : list (nat * poly pt)) i j : (i < j)%nat ->
  disjoint (first_cover bottom cands i) (first_cover bottom cands j).
Proof.
  intros Hij p Hi Hj. unfold first_cover in *.
  apply andb_prop in Hi as [_ Hi]. apply andb_prop in Hj as [_ Hj].
  destruct (nth_error cands i) as [e|] eqn:Ei; [|discriminate].
  destruct (nth_error cands j) as [e'|] eqn:Ej; [|discriminate].
  apply andb_prop in Hi as [Hi _]. apply andb_prop in Hj as [_ Hj].
  apply Bool.negb_true_iff in Hj.
  assert (existsb (fun e' => p_points (snd e') p) (firstn j cands) = true); [|congruence].
  apply existsb_exists. exists e. split; [|exact Hi].
  apply nth_error_In with (n:=i). clear - Ei Hij.
  revert j cands Ei Hij. induction i; intros [|j] [|c cs] Ei Hij; cbn in *; try lia; try discriminate; auto.
  apply IHi; auto. lia.
Qed.

Lemma reports_disjoint dbu specs layer_names bot net bottom cands n out :
  reports_first area dbu specs layer_names bot net bottom cands n out ->
  ForallOrdPairs disjoint (map em_area out)
  /\ (forall e, In e out -> subset (em_area e) bottom /\ subset (em_area e) (p_points (em_top e)))
  /\ rsum (map area (map em_area out)) <= area bottom.
Proof.
  intros (idx & Hs & _ & HF).
  assert (Hd : ForallOrdPairs disjoint (map em_area out)).
  { revert out HF. induction Hs as [|i l Hs IH Hlt]; intros out HF; inversion HF; subst; cbn; constructor; auto.
    rewrite Forall_forall in Hlt. apply Forall_forall. intros r Hr.
    apply in_map_iff in Hr. destruct Hr as (e & <- & He).
    assert (X : exists j, In j l /\ report_for area dbu specs layer_names bot net bottom cands j e).
    { clear - H3 He. induction H3; [destruct He|]. destruct He as [<-|He]; [exists x; cbn; auto|].
      destruct (IHForall2 He) as (j & ? & ?). exists j. cbn. auto. }
    destruct X as (j & Hj & (k2 & p2 & v2 & _ & _ & _ & _ & A2 & _)).
    destruct H1 as (k1 & p1 & v1 & _ & _ & _ & _ & A1 & _).
    intros q. rewrite A1, A2. apply first_cover_disjoint. now apply Hlt. }
  assert (Hsub : forall e, In e out -> subset (em_area e) bottom /\ subset (em_area e) (p_points (em_top e))).
  { intros e He. clear Hd. assert (X : exists j, report_for area dbu specs layer_names bot net bottom cands j e).
    { clear - HF He. induction HF; [destruct He|]. destruct He as [<-|He]; eauto. }
    destruct X as (j & k & p & v & E1 & _ & _ & E2 & E3 & _). unfold subset.
    split; intros q Hq; rewrite E3 in Hq; unfold first_cover in Hq; apply andb_prop in Hq as [Hb Hq]; auto.
    rewrite E1 in Hq. apply andb_prop in Hq as [Hq _]. now rewrite E2. }
  split; [exact Hd|]. split; [exact Hsub|]. apply disjoint_sum; auto.
  intros a Ha. apply in_map_iff in Ha. destruct Ha as (e & <- & He). now apply Hsub.
Qed.
End Q.
