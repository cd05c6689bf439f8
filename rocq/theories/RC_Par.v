(** Runs at the same time in directories of which none contains the other. *)
From Coq Require Import String Sorted.
From Verif Require Import PyBase PyLib RL_Model RL_Spec RL_Proofs RC_Model RC_Spec RC_Proofs RC_Runs.
Local Open Scope string_scope.
Local Open Scope list_scope.

Section Par.
Variable stamp : nat -> string.

Definition under (b q : list string) : Prop := exists x, q = b ++ x.
Lemma under_apart b b' q : apart b b' -> under b q -> under b' q -> False.
Proof.
  intros [A1 A2] [x ->] [y E]. apply app_eq_app in E as (l & [[E _]|[E _]]); [exact (A2 l E)|exact (A1 l E)].
Qed.
Lemma apart_sym b b' : apart b b' -> apart b' b. Proof. intros [A C]. now split. Qed.
Lemma log_under b k q : log_path stamp b k q -> under b q.
Proof. intros []; eexists; reflexivity. Qed.

(** ** The primitive operations, without assumptions about who names what *)
Lemma on_node_at i f d q : view (on_node i f d) q = if eq_dec (dget (names d) q) (Some i) then option_map f (view d q) else view d q.
Proof.
  unfold on_node, view. destruct (dget (nodes d) i) as [n|] eqn:N; cbn [names nodes].
  - destruct (eq_dec _ _) as [E|E].
    + rewrite E, dget_dset_same, N. reflexivity.
    + destruct (dget (names d) q) as [k|]; [|reflexivity]. rewrite dget_dset_other; [reflexivity|congruence].
  - destruct (eq_dec _ _) as [E|E]; [rewrite E, N|]; reflexivity.
Qed.
Lemma on_node_fresh i f d : fresh (on_node i f d) = fresh d.
Proof. unfold on_node. destruct (dget (nodes d) i); reflexivity. Qed.
Definition opened (p : list string) (d : disk) : nat := match dget (names d) p with Some i => i | None => fresh d end.
Lemma open_at p now d : let (d1, i) := open_append p now d in
  i = opened p d /\ (forall q, dget (names d1) q = if eq_dec q p then Some i else dget (names d) q) /\ (fresh d <= fresh d1)%nat /\ (sound d -> (i < fresh d1)%nat).
Proof.
  unfold open_append, opened. destruct (dget (names d) p) as [i|] eqn:N; cbn [names fresh].
  - split; [reflexivity|]. split; [|split; [lia|]]. { intros q. destruct (eq_dec q p) as [->|]; [exact N|reflexivity]. } intros (_ & H & _). apply (H p i N).
  - split; [reflexivity|]. split; [|split; lia]. intros q. now rewrite dget_dset.
Qed.
Lemma move_at src dst now d i : sound d -> dget (names d) src = Some i ->
  (forall q, dget (names (move src dst now d)) q = if eq_dec q dst then Some i else if eq_dec q src then None else dget (names d) q) /\ fresh (move src dst now d) = fresh d.
Proof.
  intros (W & _) N. unfold move. rewrite N, on_node_fresh. split; [|reflexivity]. intros q. rewrite on_node_names. cbn. rewrite dget_dset. destruct (eq_dec q dst); [reflexivity|]. now apply dget_dremove.
Qed.

(** ** What a process does is seen under its directory only *)
Definition owned (b : list string) (d : disk) (l : locals) : Prop :=
  forall k i, handler (l k) = Some i -> (i < fresh d)%nat /\ forall q, dget (names d) q = Some i -> under b q.
Definition outside (b : list string) (d d1 : disk) : Prop :=
  (fresh d <= fresh d1)%nat /\ (forall q, ~ under b q -> dget (names d1) q = dget (names d) q /\ view d1 q = view d q) /\
  (forall q i, dget (names d1) q = Some i -> (i < fresh d)%nat -> under b q -> exists q', under b q' /\ dget (names d) q' = Some i).
Lemma outside_refl b d : outside b d d.
Proof. split; [lia|]. split; [auto|]. intros q i N _ U. now exists q. Qed.

(** ** A process next to others and the same process alone *)
Definition linked (b : list string) (d d' : disk) (i i' : nat) : Prop :=
  (i < fresh d)%nat /\ (i' < fresh d')%nat /\ (forall q, dget (names d) q = Some i -> under b q) /\ (forall q, dget (names d') q = Some i' -> under b q) /\
  (forall q, under b q -> (dget (names d) q = Some i <-> dget (names d') q = Some i')).
Definition same (b : list string) (d d' : disk) (s s' : state) : Prop :=
  there s = there s' /\ since s = since s' /\ match handler s, handler s' with Some i, Some i' => linked b d d' i i' | None, None => True | _, _ => False end.
Definition rel (b : list string) (d d' : disk) (l l' : locals) : Prop :=
  sound d /\ sound d' /\ (forall q, under b q -> view d q = view d' q) /\ forall k, same b d d' (l k) (l' k).

Lemma view_name d q : sound d -> (dget (names d) q = None <-> view d q = None).
Proof.
  intros S. split; [intros H; unfold view; now rewrite H|]. apply view_none, S.
Qed.
Lemma name_iff b d d' q : sound d -> sound d' -> (forall q, under b q -> view d q = view d' q) -> under b q ->
  (dget (names d) q = None <-> dget (names d') q = None).
Proof. intros S S' V U. rewrite (view_name d q S), (view_name d' q S'), (V q U). tauto. Qed.
Lemma named_linked b d d' p i i' : sound d -> sound d' -> under b p -> dget (names d) p = Some i -> dget (names d') p = Some i' -> linked b d d' i i'.
Proof.
  intros (_ & H & J) (_ & H' & J') U N N'. split; [apply (H p i N)|]. split; [apply (H' p i' N')|].
  split; [intros q Q; now rewrite (J _ _ _ Q N)|]. split; [intros q Q; now rewrite (J' _ _ _ Q N')|].
  intros q _. split; intros Q; [rewrite (J _ _ _ Q N)|rewrite (J' _ _ _ Q N')]; assumption.
Qed.
Lemma same_update b d d' (l l' : locals) k s s' : same b d d' s s' -> (forall k, same b d d' (l k) (l' k)) -> forall k', same b d d' (update l k s k') (update l' k s' k').
Proof. intros H H' k'. unfold update. destruct (String.eqb k' k); auto. Qed.
(** after a change of both disks that links handlers as before *)
Lemma same_links b d d' d1 d1' s s' : (forall i i', linked b d d' i i' -> linked b d1 d1' i i') -> same b d d' s s' -> same b d1 d1' s s'.
Proof. intros H (A & C & D). split; [exact A|]. split; [exact C|]. destruct (handler s), (handler s'); auto. Qed.

Lemma link_open b p now d d' : rel b d d' start start -> under b p ->
  let (d1, i) := open_append p now d in let (d1', i') := open_append p now d' in
  sound d1 /\ sound d1' /\ (forall q, under b q -> view d1 q = view d1' q) /\ linked b d1 d1' i i' /\ (forall j j', linked b d d' j j' -> linked b d1 d1' j j') /\
  outside b d d1.
Proof.
  intros (S & S' & V & _) U. assert (O := open_spec p now d S). assert (A := open_at p now d). assert (O' := open_spec p now d' S'). assert (A' := open_at p now d').
  assert (NI := name_iff b d d' p S S' V U).
  destruct (open_append p now d) as [d1 i], (open_append p now d') as [d1' i']. destruct O as (S1 & N1 & V1 & K1), O' as (S1' & N1' & V1' & K1'), A as (I1 & D1 & F1 & L1), A' as (I1' & D1' & F1' & L1').
  split; [exact S1|]. split; [exact S1'|]. split; [|split; [|split]].
  - intros q Uq. rewrite V1, V1', (V p U), (V q Uq). reflexivity.
  - exact (named_linked b d1 d1' p i i' S1 S1' U N1 N1').
  - intros j j' (B1 & B2 & B3 & B4 & B5).
    split; [lia|]. split; [lia|]. split; [|split].
    + intros q. rewrite D1. destruct (eq_dec q p) as [->|]; [intros _; exact U|apply B3].
    + intros q. rewrite D1'. destruct (eq_dec q p) as [->|]; [intros _; exact U|apply B4].
    + intros q Uq. rewrite D1, D1'. destruct (eq_dec q p) as [->|]; [|now apply B5]. subst i i'. unfold opened. specialize (B5 p U).
      destruct (dget (names d) p) as [a|] eqn:E.
      * destruct (dget (names d') p) as [a'|]; [exact B5|]. exfalso. assert (X : Some a = None) by (apply NI; reflexivity). discriminate.
      * rewrite (proj1 NI eq_refl). split; intros X; injection X as X; lia.
  - split; [exact F1|]. split.
    + intros q NU. rewrite D1, V1. destruct (eq_dec q p) as [->|]; [contradiction|]. now split.
    + intros q j. rewrite D1. destruct (eq_dec q p) as [->|].
      * intros E Lj Uq. injection E as <-. exists p. split; [exact U|]. rewrite I1 in *. unfold opened in *. destruct (dget (names d) p); [reflexivity|lia].
      * intros E _ Uq. now exists q.
Qed.
Lemma link_move b src dst now d d' i i' : rel b d d' start start -> under b src -> under b dst -> src <> dst -> dget (names d) src = Some i -> dget (names d') src = Some i' ->
  sound (move src dst now d) /\ sound (move src dst now d') /\ (forall q, under b q -> view (move src dst now d) q = view (move src dst now d') q) /\
  (forall j j', linked b d d' j j' -> linked b (move src dst now d) (move src dst now d') j j') /\ outside b d (move src dst now d).
Proof.
  intros (S & S' & V & _) Us Ud Ne N N'. assert (X : view d src <> None) by (intros Q; apply (view_name d src S) in Q; congruence).
  assert (X' : view d' src <> None) by (intros Q; apply (view_name d' src S') in Q; congruence).
  destruct (move_spec src dst now d S Ne X) as (S1 & V1 & K1). destruct (move_spec src dst now d' S' Ne X') as (S1' & V1' & K1').
  destruct (move_at src dst now d i S N) as (D1 & F1). destruct (move_at src dst now d' i' S' N') as (D1' & F1').
  split; [exact S1|]. split; [exact S1'|]. split; [|split].
  - intros q Uq. rewrite V1, V1', (V src Us), (V q Uq). reflexivity.
  - intros j j' (B1 & B2 & B3 & B4 & B5). split; [lia|]. split; [lia|]. split; [|split].
    + intros q. rewrite D1. destruct (eq_dec q dst) as [->|]; [intros _; exact Ud|]. destruct (eq_dec q src); [discriminate|apply B3].
    + intros q. rewrite D1'. destruct (eq_dec q dst) as [->|]; [intros _; exact Ud|]. destruct (eq_dec q src); [discriminate|apply B4].
    + intros q Uq. rewrite D1, D1'. destruct (eq_dec q dst); [rewrite <- N, <- N'; now apply B5|]. destruct (eq_dec q src); [split; discriminate|now apply B5].
  - split; [lia|]. split.
    + intros q NU. rewrite D1, V1. destruct (eq_dec q dst) as [->|]; [contradiction|]. destruct (eq_dec q src) as [->|]; [contradiction|now split].
    + intros q j. rewrite D1. destruct (eq_dec q dst) as [->|]; [intros E _ _; injection E as <-; now exists src|]. destruct (eq_dec q src); [discriminate|]. intros E _ Uq. now exists q.
Qed.

Lemma rel_start b d d' l l' : rel b d d' l l' -> rel b d d' start start.
Proof. intros (S & S' & V & _). split; [exact S|]. split; [exact S'|]. split; [exact V|]. intros k. cbn. repeat split. Qed.
Lemma under_P b k : under b (b ++ [log_file k]). Proof. eexists; reflexivity. Qed.
Lemma under_L b id f : under b ((b ++ [id]) ++ [f]). Proof. exists ([id] ++ [f]). now rewrite <- app_assoc. Qed.
Lemma P_not_L b id k f : b ++ [log_file k] <> (b ++ [id]) ++ [f].
Proof. rewrite <- app_assoc. intros H. apply app_inv_head in H. discriminate. Qed.
Lemma log_not_backup k t : log_file k <> backup_file stamp k t.
Proof.
  unfold log_file, backup_file. intros H. assert (X : forall a x y : string, (a ++ x)%string = (a ++ y)%string -> x = y).
  { induction a as [|c a IH]; intros x y E; [exact E|]. injection E as E. exact (IH _ _ E). }
  apply X in H. discriminate.
Qed.
Lemma L_not_B b id k t : (b ++ [id]) ++ [log_file k] <> (b ++ [id]) ++ [backup_file stamp k t].
Proof. intros H. apply app_inv_head in H. injection H as H. exact (log_not_backup k t H). Qed.

Lemma lockstep b id o d d' (l l' : locals) : rel b d d' l l' ->
  match step stamp b id o (d, l), step stamp b id o (d', l') with
  | Some (d1, l1), Some (d1', l1') => rel b d1 d1' l1 l1' /\ outside b d d1
  | None, None => True
  | _, _ => False
  end.
Proof.
  intros R. assert (R0 := rel_start _ _ _ _ _ R). destruct R as (S & S' & V & H).
  assert (REN : forall src dst now, under b src -> under b dst -> src <> dst ->
    match (match dget (names d) src with Some _ => Some (move src dst now d, l) | None => None end), (match dget (names d') src with Some _ => Some (move src dst now d', l') | None => None end) with
    | Some (d1, l1), Some (d1', l1') => rel b d1 d1' l1 l1' /\ outside b d d1
    | None, None => True | _, _ => False end).
  { intros src dst now Us Ud Ne. assert (NI := name_iff b d d' src S S' V Us). destruct (dget (names d) src) as [i|] eqn:N, (dget (names d') src) as [i'|] eqn:N'; try exact I.
    - destruct (link_move b src dst now d d' i i' R0 Us Ud Ne N N') as (S1 & S1' & V1 & L1 & O1). split; [|exact O1]. split; [exact S1|]. split; [exact S1'|]. split; [exact V1|].
      intros k. exact (same_links b d d' _ _ _ _ L1 (H k)).
    - assert (X := proj2 NI eq_refl). discriminate.
    - assert (X := proj1 NI eq_refl). discriminate. }
  destruct o as [k now|k now msg|k|k|k now|k now|k now]; cbn [step].
  - assert (X := link_open b (b ++ [log_file k]) now d d' R0 (under_P b k)). destruct (open_append _ now d) as [d1 i], (open_append _ now d') as [d1' i'].
    destruct X as (S1 & S1' & V1 & L1 & K1 & O1). split; [|exact O1]. split; [exact S1|]. split; [exact S1'|]. split; [exact V1|]. apply same_update; [split; [reflexivity|split; [reflexivity|exact L1]]|].
    intros k'. exact (same_links b d d' _ _ _ _ K1 (H k')).
  - destruct (H k) as (A & C & D). destruct (handler (l k)) as [i|] eqn:E, (handler (l' k)) as [i'|]; try contradiction.
    + destruct D as (B1 & B2 & B3 & B4 & B5). set (f := fun n => Node (text n ++ [msg]) now). split.
      * split; [now apply on_node_sound|]. split; [now apply on_node_sound|]. split.
        -- intros q U. rewrite !on_node_at, (V q U). specialize (B5 q U). destruct (eq_dec _ _), (eq_dec _ _); tauto.
        -- intros k'. refine (same_links b d d' _ _ _ _ _ (H k')). intros j j' Lk. unfold linked. rewrite !on_node_names, !on_node_fresh. exact Lk.
      * split; [rewrite on_node_fresh; lia|]. rewrite on_node_names. split; [|intros q j N _ U; now exists q].
        intros q NU. split; [reflexivity|]. rewrite on_node_at. destruct (eq_dec _ _) as [Q|]; [destruct (NU (B3 q Q))|reflexivity].
    + split; [|apply outside_refl]. now split.
  - split; [|apply outside_refl]. split; [exact S|]. split; [exact S'|]. split; [exact V|]. apply same_update; [|exact H]. split; [|now split]. cbn.
    assert (NI := name_iff b d d' _ S S' V (under_L b id (log_file k))). destruct (dget (names d) _) as [i|] eqn:E, (dget (names d') _) as [i'|] eqn:E'; try reflexivity; exfalso.
    + assert (X := proj2 NI eq_refl). discriminate.
    + assert (X := proj1 NI eq_refl). discriminate.
  - destruct (H k) as (A & C & D). rewrite <- A. destruct (there (l k)).
    + assert (U := under_L b id (log_file k)). assert (Vq := V _ U). unfold view in Vq.
      destruct (dget (names d) _) as [i|] eqn:E, (dget (names d') _) as [i'|] eqn:E'; try exact I.
      * rewrite <- Vq. destruct (dget (nodes d) i) as [n|]; [|exact I]. split; [|apply outside_refl]. split; [exact S|]. split; [exact S'|]. split; [exact V|]. apply same_update; [now repeat split|exact H].
      * rewrite Vq. exact I.
      * rewrite <- Vq. exact I.
    + split; [|apply outside_refl]. now split.
  - destruct (H k) as (A & C & D). rewrite <- A, <- C. destruct (there (l k)).
    + apply REN; [apply under_L|apply under_L|apply L_not_B].
    + split; [|apply outside_refl]. now split.
  - apply REN; [apply under_P|apply under_L|apply P_not_L].
  - assert (X := link_open b ((b ++ [id]) ++ [log_file k]) now d d' R0 (under_L b id _)). destruct (open_append _ now d) as [d1 i], (open_append _ now d') as [d1' i'].
    destruct X as (S1 & S1' & V1 & L1 & K1 & O1). split; [|exact O1]. split; [exact S1|]. split; [exact S1'|]. split; [exact V1|]. apply same_update; [split; [reflexivity|split; [reflexivity|exact L1]]|].
    intros k'. exact (same_links b d d' _ _ _ _ K1 (H k')).
Qed.

(** a step of somebody else *)
Lemma others b b' d d1 d' l l' : apart b b' -> sound d1 -> outside b' d d1 -> rel b d d' l l' -> rel b d1 d' l l'.
Proof.
  intros AP S1 (F & O & K) (S & S' & V & H).
  assert (NU : forall q, under b q -> ~ under b' q) by (intros q U U'; exact (under_apart b b' q AP U U')).
  split; [exact S1|]. split; [exact S'|]. split.
  - intros q U. destruct (O q (NU q U)) as [_ ->]. now apply V.
  - intros k. refine (same_links b d d' _ _ _ _ _ (H k)). intros i i' (B1 & B2 & B3 & B4 & B5). split; [lia|]. split; [exact B2|]. split; [|split; [exact B4|]].
    + intros q N. assert (DEC : under b' q \/ ~ under b' q).
      { destruct (list_eq_dec string_dec (firstn (List.length b') q) b') as [Q|Q].
        - left. exists (skipn (List.length b') q). rewrite <- Q at 1. symmetry. apply firstn_skipn.
        - right. intros [x ->]. apply Q. rewrite firstn_app, Nat.sub_diag, firstn_all. cbn. apply app_nil_r. }
      destruct DEC as [U'|NU'].
      * destruct (K q i N B1 U') as (q' & Uq & N'). destruct (NU q' (B3 q' N') Uq).
      * destruct (O q NU') as [E _]. rewrite E in N. now apply B3.
    + intros q U. destruct (O q (NU q U)) as [-> _]. now apply B5.
Qed.

(** ** Schedules *)
Definition related (d : disk) (p : process) (a : disk * process) : Prop :=
  p_base (snd a) = p_base p /\ p_dir (snd a) = p_dir p /\ todo (snd a) = todo p /\ rel (p_base p) d (fst a) (mem p) (mem (snd a)).
Lemma advance_related d p a : related d p a ->
  related (fst (advance stamp d p)) (snd (advance stamp d p)) (advance stamp (fst a) (snd a)) /\ p_base (snd (advance stamp d p)) = p_base p /\
  sound (fst (advance stamp d p)) /\ outside (p_base p) d (fst (advance stamp d p)).
Proof.
  destruct a as [d' p']. cbn [fst snd]. intros (E1 & E2 & E3 & R). cbn [fst snd] in *. unfold advance. rewrite E1, E2, E3.
  assert (T : related d p (d', p')) by (split; [exact E1|split; [exact E2|split; [exact E3|exact R]]]).
  destruct (todo p) as [[|o t]|]; cbn [fst snd].
  - split; [exact T|]. split; [reflexivity|]. split; [apply R|apply outside_refl].
  - assert (X := lockstep (p_base p) (p_dir p) o d d' _ _ R). destruct (step stamp (p_base p) (p_dir p) o (d, mem p)) as [[d1 l1]|], (step stamp (p_base p) (p_dir p) o (d', mem p')) as [[d1' l1']|]; try contradiction; cbn [fst snd].
    + destruct X as [X O]. split; [split; [reflexivity|split; [reflexivity|split; [reflexivity|exact X]]]|]. split; [reflexivity|]. split; [apply X|exact O].
    + split; [split; [reflexivity|split; [reflexivity|split; [reflexivity|exact R]]]|]. split; [reflexivity|]. split; [apply R|apply outside_refl].
  - split; [exact T|]. split; [reflexivity|]. split; [apply R|apply outside_refl].
Qed.
Lemma nth_replace {A} (l : list A) i x j : nth_error (replace_at l i x) j = if Nat.eqb j i then match nth_error l i with Some _ => Some x | None => None end else nth_error l j.
Proof.
  revert i j. induction l as [|y l IH]; intros i j.
  - cbn. destruct i, j; cbn; try reflexivity. destruct (j =? i)%nat; reflexivity.
  - destruct i, j; cbn; try reflexivity. apply IH.
Qed.
Definition bases_apart (ps : list process) : Prop :=
  forall i j p q, i <> j -> nth_error ps i = Some p -> nth_error ps j = Some q -> apart (p_base p) (p_base q).
Lemma one_turn ts d p : schedule stamp (0%nat :: ts) (d, [p]) = schedule stamp ts (fst (advance stamp d p), [snd (advance stamp d p)]).
Proof. cbn [schedule nth_error replace_at]. destruct (advance stamp d p). reflexivity. Qed.
Lemma schedules turns : forall d ps (als : nat -> disk * process), bases_apart ps -> (forall i p, nth_error ps i = Some p -> related d p (als i)) ->
  forall i p, nth_error ps i = Some p ->
  exists p1 a, nth_error (snd (schedule stamp turns (d, ps))) i = Some p1 /\
    schedule stamp (repeat 0%nat (turns_of i turns)) (fst (als i), [snd (als i)]) = (fst a, [snd a]) /\ related (fst (schedule stamp turns (d, ps))) p1 a.
Proof.
  induction turns as [|t ts IH]; intros d ps als AP RL i p N.
  - exists p, (als i). split; [exact N|]. split; [reflexivity|now apply RL].
  - cbn [schedule]. destruct (nth_error ps t) as [pt|] eqn:Nt.
    + destruct (advance_related d pt (als t) (RL t pt Nt)) as (RT & EB & S1 & O1).
      destruct (advance stamp d pt) as [d1 p1] eqn:AD. cbn [fst snd] in *.
      set (als1 := fun m => if Nat.eqb m t then advance stamp (fst (als t)) (snd (als t)) else als m).
      assert (AP1 : bases_apart (replace_at ps t p1)).
      { intros m m' q q' NE Q Q'. rewrite nth_replace in Q, Q'. rewrite Nt in Q, Q'. destruct (Nat.eqb_spec m t) as [->|], (Nat.eqb_spec m' t) as [->|].
        - congruence.
        - injection Q as <-. rewrite EB. exact (AP _ _ _ _ NE Nt Q').
        - injection Q' as <-. rewrite EB. exact (AP _ _ _ _ NE Q Nt).
        - exact (AP _ _ _ _ NE Q Q'). }
      assert (RL1 : forall m q, nth_error (replace_at ps t p1) m = Some q -> related d1 q (als1 m)).
      { intros m q Q. unfold als1. rewrite nth_replace, Nt in Q. destruct (Nat.eqb_spec m t) as [->|NE].
        - injection Q as <-. exact RT.
        - destruct (RL m q Q) as (E1 & E2 & E3 & R). split; [exact E1|]. split; [exact E2|]. split; [exact E3|]. exact (others (p_base q) (p_base pt) d d1 _ _ _ (AP _ _ _ _ NE Q Nt) S1 O1 R). }
      assert (N1 : exists q, nth_error (replace_at ps t p1) i = Some q).
      { rewrite nth_replace, Nt. destruct (Nat.eqb i t); [now exists p1|now exists p]. }
      destruct N1 as (q & N1). destruct (IH d1 _ als1 AP1 RL1 i q N1) as (q1 & a & X1 & X2 & X3). exists q1, a. split; [exact X1|]. split; [|exact X3].
      unfold turns_of in *. cbn [filter]. unfold als1 in X2. destruct (Nat.eqb_spec i t) as [->|NE].
      * cbn [List.length repeat]. rewrite one_turn. exact X2.
      * exact X2.
    + destruct (IH d ps als AP RL i p N) as (q1 & a & X1 & X2 & X3). exists q1, a. split; [exact X1|]. split; [|exact X3].
      unfold turns_of in *. cbn [filter]. destruct (Nat.eqb_spec i t) as [->|NE]; [congruence|exact X2].
Qed.
Lemma begin_related d b j : sound d -> related d (begin b j) (d, begin b j).
Proof. intros S. do 3 (split; [reflexivity|]). split; [exact S|]. split; [exact S|]. split; [reflexivity|]. intros k. now repeat split. Qed.

(** alone, a process does its operations one by one *)
Lemma alone n : forall b id l d (m : locals) d1 m1, perform stamp b id (firstn n l) (d, m) = Some (d1, m1) ->
  schedule stamp (repeat 0%nat n) (d, [Process b id (Some l) m]) = (d1, [Process b id (Some (skipn n l)) m1]).
Proof.
  induction n as [|n IH]; intros b id l d m d1 m1 H.
  - injection H as <- <-. reflexivity.
  - cbn [repeat]. rewrite one_turn. destruct l as [|o l]; cbn [advance todo fst snd p_base p_dir mem].
    + injection H as <- <-. rewrite (IH b id [] d m d m); [now destruct n|]. now destruct n.
    + cbn [firstn perform] in H. unfold advance. cbn [todo p_base p_dir mem]. destruct (step stamp b id o (d, m)) as [[d2 m2]|]; [|discriminate]. exact (IH b id l d2 m2 d1 m1 H).
Qed.
End Par.
