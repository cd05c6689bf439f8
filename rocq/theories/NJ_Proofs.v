(** Proofs for C50, C51. *)
From Coq Require Import String Lia.
From Verif Require Import PyBase PyLib PyStr NX_Model NX_Proofs FG_Proofs NJ_Model NJ_Spec.
Local Open Scope list_scope.

(** ** dictionaries filled entry by entry *)
Definition puts {A} (l : list (string * A)) (d : dict string A) : dict string A := fold_left (fun d e => dset d (fst e) (snd e)) l d.

Lemma puts_app {A} (l m : list (string * A)) d : puts (l ++ m) d = puts m (puts l d).
Proof. apply fold_left_app. Qed.

Lemma dget_puts {A} (l : list (string * A)) : forall d k, dget (puts l d) k = match last_with k l with Some a => Some a | None => dget d k end.
Proof.
  induction l as [|[k' a] l IH]; intros d k; [reflexivity|]. unfold puts in *. cbn [fold_left fst snd last_with]. rewrite IH.
  destruct (last_with k l); [reflexivity|]. rewrite dget_dset. unfold eqb. destruct (eq_dec k k'); reflexivity.
Qed.

Lemma puts_fresh {A} (l : list (string * A)) : forall d, NoDup (map fst l) -> (forall k, In k (map fst l) -> ~ In k (dkeys d)) -> puts l d = d ++ l.
Proof.
  induction l as [|[k a] l IH]; intros d N F; [now rewrite app_nil_r|]. inversion N as [|? ? Nk N' Eq]; subst.
  unfold puts in *. cbn [fold_left fst snd]. rewrite dkeys_dset_absent by (apply F; left; reflexivity). rewrite IH; [now rewrite <- app_assoc|exact N'|].
  intros x X. unfold dkeys. rewrite map_app, in_app_iff. intros [I|[I|[]]]; [apply (F x); [right; exact X|exact I]|]. simpl in I. subst. contradiction.
Qed.

Lemma last_with_In {A} k (l : list (string * A)) a : last_with k l = Some a -> In (k, a) l.
Proof.
  induction l as [|[k' b] l IH]; [discriminate|]. cbn [last_with]. destruct (last_with k l) as [c|].
  - intros E. right. apply IH, E.
  - destruct (eqb k k') eqn:Q; [|discriminate]. apply eqb_eq in Q. intros [= ->]. left. now subst.
Qed.
Lemma last_with_NoDup {A} k (l : list (string * A)) a : NoDup (map fst l) -> In (k, a) l -> last_with k l = Some a.
Proof.
  induction l as [|[k' b] l IH]; [intros _ []|]. intros N I. inversion N as [|? ? Nk N' Eq]; subst. cbn [last_with]. destruct I as [[= -> ->]|I].
  - destruct (last_with k l) as [c|] eqn:L; [|now rewrite eqb_refl]. exfalso. apply Nk. apply last_with_In in L. now apply (in_map fst) in L.
  - now rewrite (IH N' I).
Qed.

(** ** the numbers given to nets *)
Definition good (w : writer) : Prop :=
  (forall a i, dget (id_for_net w) a = Some i -> (i < next_id w)%nat) /\
  (forall a b i, dget (id_for_net w) a = Some i -> dget (id_for_net w) b = Some i -> a = b).
Definition known (w : writer) (a : string) : Prop := dget (id_for_net w) a <> None.
Definition ext (w w' : writer) : Prop := forall a i, dget (id_for_net w) a = Some i -> dget (id_for_net w') a = Some i.
Definition agrees (f : string -> nat) (w : writer) : Prop := forall a i, dget (id_for_net w) a = Some i -> f a = i.
Definition final (w : writer) : string -> nat := fun a => match dget (id_for_net w) a with Some i => i | None => 0%nat end.

Lemma good_new : good new_writer.
Proof. split; intros a; simpl; discriminate. Qed.
Lemma ext_refl w : ext w w. Proof. intros a i H; exact H. Qed.
Lemma ext_trans u v w : ext u v -> ext v w -> ext u w. Proof. intros A B a i H. apply B, A, H. Qed.
Lemma agrees_ext f w w' : ext w w' -> agrees f w' -> agrees f w. Proof. intros E A a i H. apply A, E, H. Qed.
Lemma agrees_final w : agrees (final w) w. Proof. intros a i H. unfold final. now rewrite H. Qed.
Lemma known_ext w w' a : ext w w' -> known w a -> known w' a.
Proof. unfold known. intros E K. destruct (dget (id_for_net w) a) as [i|] eqn:D; [|congruence]. rewrite (E a i D). discriminate. Qed.

(** A step that looks at the nets named [L] and gives [R f] where [f] is the numbering. *)
Definition ok {A} (m : act A) (L : list string) (R : (string -> nat) -> A) : Prop :=
  forall w, good w ->
    good (fst (m w)) /\ ext w (fst (m w)) /\ (forall a, known (fst (m w)) a -> known w a \/ In a L) /\
    (forall v, snd (m w) = Some v -> (forall a, In a L -> known (fst (m w)) a) /\ forall f, agrees f (fst (m w)) -> v = R f).

Lemma ok_ret {A} (a : A) : ok (ret a) [] (fun _ => a).
Proof.
  intros w G. simpl. split; [exact G|]. split; [apply ext_refl|]. split; [now left|]. intros v [= <-]. split; [intros ? []|reflexivity].
Qed.
Lemma ok_raise {A} L R : ok (@raise A) L R.
Proof. intros w G. simpl. split; [exact G|]. split; [apply ext_refl|]. split; [now left|]. intros v [=]. Qed.
Lemma ok_bind {A B} (m : act A) (k : A -> act B) L L2 R R2 : ok m L R -> (forall v, ok (k v) L2 (R2 v)) -> ok (bind m k) (L ++ L2) (fun f => R2 (R f) f).
Proof.
  intros M K w G. specialize (M w G). unfold bind. destruct (m w) as [w1 [v|]]; cbn [fst snd] in *; destruct M as (G1 & E1 & K1 & V1).
  - destruct (K v w1 G1) as (G2 & E2 & K2 & V2). destruct (V1 v eq_refl) as [L1 F1]. split; [exact G2|]. split; [eapply ext_trans; eassumption|]. split.
    + intros a Ka. destruct (K2 a Ka) as [Ka'|I]; [|right; apply in_or_app; now right]. destruct (K1 a Ka') as [?|I]; [now left|right; apply in_or_app; now left].
    + intros v2 Q. destruct (V2 v2 Q) as [L3 F3]. split.
      * intros a I. apply in_app_or in I as [I|I]; [|now apply L3]. eapply known_ext; [exact E2|]. now apply L1.
      * intros f Af. rewrite <- (F1 f (agrees_ext _ _ _ E2 Af)). now apply F3.
  - split; [exact G1|]. split; [exact E1|]. split; [|intros ? [=]]. intros a Ka. destruct (K1 a Ka); [now left|right; apply in_or_app; now left].
Qed.
Lemma ok_eq {A} (m : act A) L L' R R' : L = L' -> (forall f, R f = R' f) -> ok m L R -> ok m L' R'.
Proof.
  intros <- E M w G. destruct (M w G) as (a & b & c & d). split; [exact a|]. split; [exact b|]. split; [exact c|]. intros v V. destruct (d v V) as [d1 d2].
  split; [exact d1|]. intros f Af. rewrite <- E. now apply d2.
Qed.

Definition lab (o : option net) : list string := match o with Some n => [label n] | None => [] end.

Lemma ok_id n : ok (get_or_create_id n) (lab n) (fun f => num f n).
Proof.
  destruct n as [n|]; [|apply ok_raise]. intros w [Lt Inj]. cbn [get_or_create_id lab num]. fold (label n) in *.
  change (or_else (n_expanded n) (n_name n)) with (label n). destruct (dget (id_for_net w) (label n)) as [i|] eqn:D; cbn [fst snd].
  - split; [split; assumption|]. split; [apply ext_refl|]. split; [now left|]. intros v [= <-]. split.
    + intros a [<-|[]]. unfold known. congruence.
    + intros f Af. symmetry. now apply Af.
  - unfold good, ext, known, agrees. cbn [id_for_net next_id]. split; [split|split; [|split]].
    + intros a i. rewrite dget_dset. destruct (eq_dec a (label n)); [intros [= <-]; lia|]. intros H. specialize (Lt a i H). lia.
    + intros a b i. rewrite !dget_dset. destruct (eq_dec a (label n)) as [Ea|Na], (eq_dec b (label n)) as [Eb|Nb]; try congruence.
      * intros [= <-] H. specialize (Lt b _ H). lia.
      * intros H [= <-]. specialize (Lt a _ H). lia.
      * apply Inj.
    + intros a i H. rewrite dget_dset. destruct (eq_dec a (label n)); [congruence|exact H].
    + intros a. rewrite dget_dset. destruct (eq_dec a (label n)); [right; left; congruence|now left].
    + intros v [= <-]. split.
      * intros a [<-|[]]. rewrite dget_dset_same. discriminate.
      * intros f Af. symmetry. apply Af. now rewrite dget_dset_same.
Qed.

Lemma ok_ports pins : forall d, ok (dict_for_ports pins d) (flat_map lab (map snd pins)) (fun f => puts (map (port_entry f) pins) d).
Proof.
  induction pins as [|[k n] t IH]; intros d; [apply ok_ret|]. cbn [dict_for_ports map flat_map].
  eapply ok_eq; [| |exact (ok_bind _ _ _ _ _ _ (ok_id n) (fun v => IH (dset d k v)))]; [reflexivity|]. intros f. reflexivity.
Qed.

Definition dir_entries (pins : list (nat * option net)) := map (fun p => (pin_text p, "input"%string)) pins.
Definition conn_entries (f : string -> nat) (pins : list (nat * option net)) := map (fun p => (pin_text p, num f (snd p))) pins.
Lemma ok_pins pins : forall d e, ok (instance_pins pins d e) (flat_map lab (map snd pins)) (fun f => (puts (dir_entries pins) d, puts (conn_entries f pins) e)).
Proof.
  induction pins as [|[k [n|]] t IH]; intros d e; [apply ok_ret| |apply ok_raise]. cbn [instance_pins map flat_map].
  eapply ok_eq; [| |exact (ok_bind _ _ _ _ _ _ (ok_id (Some n)) (fun v => IH _ (dset e _ v)))]; [reflexivity|]. intros f. reflexivity.
Qed.

Lemma pin_text_inj p q : pin_text p = pin_text q -> fst p = fst q.
Proof.
  unfold pin_text. intros E. apply (f_equal span_digits) in E. rewrite !span_digits_app in E; [|apply nat_str_digits|reflexivity|apply nat_str_digits|reflexivity].
  injection E as E _. now apply nat_str_inj.
Qed.
Lemma pin_texts pins : NoDup (map fst pins) -> NoDup (map pin_text pins).
Proof.
  induction pins as [|p t IH]; intros N; [constructor|]. inversion N as [|? ? Np N' Eq]; subst. simpl. constructor; [|apply IH, N'].
  intros I. apply Np. apply in_map_iff in I as (q & E & I). apply pin_text_inj in E. rewrite <- E. apply in_map, I.
Qed.
Lemma puts_pins {A} (v : nat * option net -> A) pins : NoDup (map fst pins) -> puts (map (fun p => (pin_text p, v p)) pins) [] = map (fun p => (pin_text p, v p)) pins.
Proof.
  intros N. rewrite puts_fresh; [reflexivity| |intros ? _ []]. rewrite map_map. cbn [fst]. apply (pin_texts _ N).
Qed.

Lemma ok_instances subs : (forall s, In s subs -> NoDup (map fst (i_pins s))) -> forall d,
  ok (instances subs d) (flat_map lab (flat_map (fun s => map snd (i_pins s)) subs)) (fun f => puts (map (sub_entry f) subs) d).
Proof.
  induction subs as [|s t IH]; intros N d; [apply ok_ret|]. cbn [instances map flat_map].
  eapply ok_eq; [| |exact (ok_bind _ _ _ _ _ _ (ok_pins (i_pins s) [] []) (fun v => IH (fun s I => N s (or_intror I)) _))].
  - now rewrite flat_map_app.
  - intros f. cbn [fst snd]. unfold dir_entries, conn_entries. rewrite !puts_pins by (apply N; left; reflexivity). reflexivity.
Qed.

Lemma ok_devices show3 devs : forall d,
  ok (devices show3 devs d) (flat_map lab (flat_map (fun e => [d_a e; d_b e]) devs)) (fun f => puts (map (dev_entry show3 f) devs) d).
Proof.
  induction devs as [|e t IH]; intros d; [apply ok_ret|]. cbn [devices map]. destruct (d_class e) eqn:C; [| |apply ok_raise].
  all: eapply ok_eq; [| |exact (ok_bind _ _ _ _ _ _ (ok_id (d_a e)) (fun a => ok_bind _ _ _ _ _ _ (ok_id (d_b e)) (fun b => IH _)))].
  all: try (cbn [flat_map app]; reflexivity).
  all: intros f; unfold dev_entry at 2; rewrite C; reflexivity.
Qed.

(** Ground symbols depend on the names known so far, which later steps of a call do not change. *)
Lemma ground_keeps names n d w : fst (ground_symbols names n d w) = w /\ exists v, snd (ground_symbols names n d w) = Some v.
Proof.
  revert n d. induction names as [|g t IH]; intros n d; [simpl; split; [reflexivity|now exists d]|]. cbn [ground_symbols].
  destruct (dget (id_for_net w) g); apply IH.
Qed.
Lemma ground_value w d ls f : (forall a, known w a <-> In a ls) -> agrees f w -> snd (ground_symbols ["VSUBS"; "GND"]%string 0%nat d w) = Some (puts (grounds f ls) d).
Proof.
  intros K Af. cbn [ground_symbols]. unfold grounds.
  assert (P : forall a i, dget (id_for_net w) a = Some i -> In a ls) by (intros a i H; apply K; unfold known; congruence).
  assert (N : forall a, dget (id_for_net w) a = None -> ~ In a ls) by (intros a H I; apply K in I; unfold known in I; congruence).
  destruct (dget (id_for_net w) "VSUBS"%string) as [i|] eqn:V, (dget (id_for_net w) "GND"%string) as [j|] eqn:G.
  all: destruct (in_dec eq_dec "VSUBS"%string ls) as [Iv|Iv]; try (exfalso; first [apply Iv, (P _ _ V)|apply (N _ V Iv)]).
  all: destruct (in_dec eq_dec "GND"%string ls) as [Ig|Ig]; try (exfalso; first [apply Ig, (P _ _ G)|apply (N _ G Ig)]).
  all: unfold puts; cbn [fold_left ground fst snd]; try rewrite (Af _ _ V); try rewrite (Af _ _ G); reflexivity.
Qed.

Lemma json_split show3 c w v : snd (netlist_json_dict show3 c w) = Some v ->
  exists w1 w2 ports c1 c2 c3, dict_for_ports (c_pins c) [] w = (w1, Some ports) /\
    bind (instances (c_subs c) []) (devices show3 (c_devs c)) w1 = (w2, Some c2) /\
    ground_symbols ["VSUBS"; "GND"]%string 0%nat c2 w2 = (w2, Some c3) /\ c1 = c2 /\ v = Module (c_name c) ports c3 /\ fst (netlist_json_dict show3 c w) = w2.
Proof.
  unfold netlist_json_dict, dict_for_cells, bind. destruct (dict_for_ports (c_pins c) [] w) as [w1 [p|]] eqn:E1; [|discriminate].
  destruct (instances (c_subs c) [] w1) as [w2 [c1|]] eqn:E2; [|discriminate]. destruct (devices show3 (c_devs c) c1 w2) as [w3 [c2|]] eqn:E3; [|discriminate].
  pose proof (ground_keeps ["VSUBS"; "GND"]%string 0%nat c2 w3) as [Gw (c3 & Gv)].
  destruct (ground_symbols ["VSUBS"; "GND"]%string 0%nat c2 w3) as [w4 o] eqn:Q. cbn [fst snd] in Gw, Gv. subst w4 o.
  cbn [ret snd fst]. intros [= <-]. exists w1, w3, p, c2, c2, c3. rewrite E2. auto 10.
Qed.

Lemma labels_eq c : labels c = flat_map lab (map snd (c_pins c)) ++ flat_map lab (flat_map (fun s => map snd (i_pins s)) (c_subs c)) ++
                               flat_map lab (flat_map (fun d => [d_a d; d_b d]) (c_devs c)).
Proof. unfold labels, places. change (fun o => match o with Some n => [label n] | None => [] end) with lab. rewrite !flat_map_app. reflexivity. Qed.

(** What one call does to the writer. *)
Lemma json_state show3 c w : pins_numbered c -> good w ->
  good (fst (netlist_json_dict show3 c w)) /\ ext w (fst (netlist_json_dict show3 c w)) /\
  (forall a, known (fst (netlist_json_dict show3 c w)) a -> known w a \/ In a (labels c)) /\
  (forall v, snd (netlist_json_dict show3 c w) = Some v -> (forall a, In a (labels c) -> known (fst (netlist_json_dict show3 c w)) a) /\
     forall f ls, agrees f (fst (netlist_json_dict show3 c w)) -> (forall a, known (fst (netlist_json_dict show3 c w)) a <-> In a ls) ->
       v = Module (c_name c) (puts (map (port_entry f) (c_pins c)) []) (puts (entries show3 f ls c) [])).
Proof.
  intros N G. rewrite labels_eq.
  pose proof (ok_ports (c_pins c) []) as O1. pose proof (ok_bind _ _ _ _ _ _ (ok_instances (c_subs c) N []) (fun v => ok_devices show3 (c_devs c) v)) as O2.
  pose proof (ok_bind _ _ _ _ _ _ O1 (fun p => ok_bind _ _ _ _ _ _ O2 (fun d => ok_ret (p, d)))) as O3. cbv beta in O3. rewrite app_nil_r in O3.
  assert (S : fst (netlist_json_dict show3 c w) =
    fst (bind (dict_for_ports (c_pins c) []) (fun p => bind (bind (instances (c_subs c) []) (devices show3 (c_devs c))) (fun d => ret (p, d))) w)).
  { unfold netlist_json_dict, dict_for_cells, bind. destruct (dict_for_ports (c_pins c) [] w) as [w1 [p|]]; [|reflexivity].
    destruct (instances (c_subs c) [] w1) as [w2 [c1|]]; [|reflexivity]. destruct (devices show3 (c_devs c) c1 w2) as [w3 [c2|]]; [|reflexivity].
    pose proof (ground_keeps ["VSUBS"; "GND"]%string 0%nat c2 w3) as [Gw (c3 & Gv)].
    destruct (ground_symbols ["VSUBS"; "GND"]%string 0%nat c2 w3) as [w4 o] eqn:Q. cbn [fst snd] in Gw, Gv. subst w4 o. reflexivity. }
  destruct (O3 w G) as (A & B & C & D). rewrite <- S in A, B, C, D. split; [exact A|]. split; [exact B|]. split; [exact C|]. intros v V.
  destruct (json_split _ _ _ _ V) as (w1 & w2 & p & c1 & c2 & c3 & E1 & E2 & E3 & _ & -> & E4).
  assert (V2 : snd (bind (dict_for_ports (c_pins c) []) (fun p => bind (bind (instances (c_subs c) []) (devices show3 (c_devs c))) (fun d => ret (p, d))) w) = Some (p, c2)).
  { unfold bind at 1. rewrite E1. unfold bind at 1. rewrite E2. reflexivity. }
  destruct (D (p, c2) V2) as [D1 D2]. split; [exact D1|]. intros f ls Af K. specialize (D2 f Af). injection D2 as Ep Ec. subst p c2.
  pose proof (ground_value w2 (puts (map (dev_entry show3 f) (c_devs c)) (puts (map (sub_entry f) (c_subs c)) [])) ls f) as Gv. rewrite E3 in Gv. cbn [snd] in Gv. rewrite E4 in *.
  injection (Gv K Af) as ->. unfold entries. now rewrite !puts_app.
Qed.

(** ** which circuits are accepted *)
Definition tot {A} (m : act A) (P : Prop) : Prop := forall w, snd (m w) <> None <-> P.
Lemma tot_ret {A} (a : A) : tot (ret a) True.
Proof. intros w. simpl. split; [auto|discriminate]. Qed.
Lemma tot_bind {A B} (m : act A) (k : A -> act B) P Q : tot m P -> (forall v, tot (k v) Q) -> tot (bind m k) (P /\ Q).
Proof.
  intros M K w. specialize (M w). unfold bind. destruct (m w) as [w1 [v|]]; cbn [snd] in *.
  - rewrite (K v w1). split; [intros q; split; [apply M; discriminate|exact q]|tauto].
  - split; [congruence|]. intros [p _]. apply M in p. congruence.
Qed.
Lemma tot_iff {A} (m : act A) P Q : (P <-> Q) -> tot m P -> tot m Q.
Proof. intros E T w. rewrite (T w). exact E. Qed.
Lemma tot_id n : tot (get_or_create_id n) (n <> None).
Proof.
  intros w. destruct n as [n|]; cbn [get_or_create_id]; [|simpl; tauto]. destruct (dget (id_for_net w) _); cbn [snd]; split; intros _; discriminate.
Qed.
Lemma tot_ports pins : forall d, tot (dict_for_ports pins d) (forall o, In o (map snd pins) -> o <> None).
Proof.
  induction pins as [|[k n] t IH]; intros d; [eapply tot_iff; [|apply tot_ret]; split; [intros _ ? []|auto]|]. cbn [dict_for_ports].
  eapply tot_iff; [|apply tot_bind; [apply tot_id|intros v; apply IH]]. cbn [map snd]. split; [intros [a b] o [<-|I]; auto|].
  intros H. split; [apply H; now left|intros o I; apply H; now right].
Qed.
Lemma tot_pins pins : forall d e, tot (instance_pins pins d e) (forall o, In o (map snd pins) -> o <> None).
Proof.
  induction pins as [|[k n] t IH]; intros d e; [eapply tot_iff; [|apply tot_ret]; split; [intros _ ? []|auto]|]. cbn [instance_pins].
  destruct n as [n|].
  - eapply tot_iff; [|apply tot_bind; [apply tot_id|intros v; apply IH]]. cbn [map snd]. split; [intros [a b] o [<-|I]; auto|].
    intros H. split; [discriminate|intros o I; apply H; now right].
  - intros w. cbn [raise snd]. split; [congruence|]. intros H. exfalso. exact (H None (or_introl eq_refl) eq_refl).
Qed.
Lemma tot_instances subs : forall d, tot (instances subs d) (forall o, In o (flat_map (fun s => map snd (i_pins s)) subs) -> o <> None).
Proof.
  induction subs as [|s t IH]; intros d; [eapply tot_iff; [|apply tot_ret]; split; [intros _ ? []|auto]|]. cbn [instances flat_map].
  eapply tot_iff; [|apply tot_bind; [apply tot_pins|intros v; apply IH]]. split; [intros [a b] o I; apply in_app_or in I as [I|I]; auto|].
  intros H. split; intros o I; apply H, in_or_app; auto.
Qed.
Lemma tot_devices show3 devs : forall d, tot (devices show3 devs d)
  ((forall o, In o (flat_map (fun d => [d_a d; d_b d]) devs) -> o <> None) /\ forall d, In d devs -> d_class d <> OtherClass).
Proof.
  induction devs as [|e t IH]; intros d; [eapply tot_iff; [|apply tot_ret]; split; [intros _; split; intros ? []|auto]|]. cbn [devices flat_map].
  destruct (d_class e) eqn:C.
  1,2: eapply tot_iff; [|apply tot_bind; [apply tot_id|intros a; apply tot_bind; [apply tot_id|intros b; apply IH]]].
  1,2: split; [intros (a & b & c & f); split; [intros o [<-|[<-|I]]; auto|intros x [<-|I]; [congruence|auto]]|].
  1,2: intros [H K]; split; [apply H; now left|]; split; [apply H; right; now left|]; split; [intros o I; apply H; right; now right|intros x I; apply K; now right].
  intros w. cbn [raise snd]. split; [congruence|]. intros [_ K]. exfalso. apply (K e (or_introl eq_refl) C).
Qed.
Lemma tot_json show3 c : tot (netlist_json_dict show3 c) (drawable c).
Proof.
  assert (G : forall d, tot (ground_symbols ["VSUBS"; "GND"]%string 0%nat d) True).
  { intros d w. destruct (ground_keeps ["VSUBS"; "GND"]%string 0%nat d w) as [_ (v & ->)]. split; [auto|discriminate]. }
  unfold netlist_json_dict, dict_for_cells.
  eapply tot_iff; [|apply tot_bind; [apply tot_ports|intros p; apply tot_bind; [apply tot_bind; [apply tot_instances|intros d; apply tot_bind; [apply tot_devices|intros e; apply G]]|intros x; apply tot_ret]]].
  unfold drawable, places. split.
  - intros (a & (b & (x & y) & _) & _). split; [|exact y]. intros o I. apply in_app_or in I as [I|I]; [auto|]. apply in_app_or in I as [I|I]; auto.
  - intros [H K]. repeat split; auto; intros o I; apply H; apply in_or_app; auto; right; apply in_or_app; auto.
Qed.

(** ** several calls *)
Fixpoint after show3 (cs : list circuit) (w : writer) : writer := match cs with [] => w | c :: t => after show3 t (fst (netlist_json_dict show3 c w)) end.

Lemma after_state show3 cs : forall w, (forall c, In c cs -> pins_numbered c) -> good w ->
  good (after show3 cs w) /\ ext w (after show3 cs w) /\ (forall a, known (after show3 cs w) a -> known w a \/ In a (flat_map labels cs)).
Proof.
  induction cs as [|c t IH]; intros w N G; [simpl; split; [exact G|]; split; [apply ext_refl|now left]|]. cbn [after flat_map].
  destruct (json_state show3 c w (N c (or_introl eq_refl)) G) as (A & B & C & _).
  destruct (IH (fst (netlist_json_dict show3 c w)) (fun c I => N c (or_intror I)) A) as (D & E & F). split; [exact D|]. split; [eapply ext_trans; eassumption|].
  intros a K. destruct (F a K) as [K1|I]; [|right; apply in_or_app; now right]. destruct (C a K1) as [?|I]; [now left|right; apply in_or_app; now left].
Qed.
Lemma calls_nth show3 pre : forall w c post, nth_error (calls show3 (pre ++ c :: post) w) (List.length pre) = Some (snd (netlist_json_dict show3 c (after show3 pre w))).
Proof. induction pre as [|a pre IH]; intros w c post; [reflexivity|]. cbn [app calls List.length nth_error after]. apply IH. Qed.
Lemma after_app show3 a : forall b w, after show3 (a ++ b) w = after show3 b (after show3 a w).
Proof. induction a as [|x a IH]; intros b w; [reflexivity|]. cbn [app after]. apply IH. Qed.
