From Coq Require Import List ZArith Lia Permutation.
From Verif Require Import PyBase PyLib CK_Model CK_Spec CK_Geo.
Local Open Scope Z_scope.
Local Open Scope list_scope.

(** ** sets and lists *)
Lemma mem_true (e : edge) s : existsb (eqb e) s = true <-> In e s.
Proof.
  rewrite existsb_exists. split.
  - intros (x & Hx & E). apply eqb_eq in E. now subst.
  - intros H. exists e. split; [exact H|apply eqb_refl].
Qed.
Lemma mem_false (e : edge) s : existsb (eqb e) s = false <-> ~ In e s.
Proof. rewrite <- mem_true. destruct (existsb (eqb e) s); split; congruence. Qed.
Lemma sadd_In s e x : In x (sadd s e) <-> x = e \/ In x s.
Proof.
  unfold sadd. destruct (existsb (eqb e) s) eqn:E.
  - apply mem_true in E. split; [auto|]. intros [->|]; auto.
  - rewrite in_app_iff. cbn. intuition.
Qed.
Lemma sadd_NoDup s e : NoDup s -> NoDup (sadd s e).
Proof.
  intros H. unfold sadd. destruct (existsb (eqb e) s) eqn:E; [exact H|]. apply mem_false in E.
  apply (Permutation_NoDup (Permutation_cons_append s e)). now constructor.
Qed.
Lemma sadds_In l : forall s x, In x (fold_left sadd l s) <-> In x l \/ In x s.
Proof. induction l as [|e l IH]; intros s x; cbn [fold_left]; [cbn; tauto|]. rewrite IH, sadd_In. cbn. intuition. Qed.
Lemma sadds_NoDup l : forall s, NoDup s -> NoDup (fold_left sadd l s).
Proof. induction l; intros s H; cbn; [exact H|]. apply IHl. now apply sadd_NoDup. Qed.
Lemma lremove_some l e : In e l -> exists l', lremove l e = Some l' /\
  (forall x, In x l' -> In x l) /\ (forall x, In x l -> x <> e -> In x l') /\ (NoDup l -> NoDup l' /\ ~ In e l').
Proof.
  induction l as [|x l IH]; [intros []|]. intros H. cbn [lremove]. destruct (eqb x e) eqn:E.
  - apply eqb_eq in E. subst x. exists l. split; [reflexivity|]. split; [now right|]. split.
    + intros x [<-|Hx] Hn; [congruence|exact Hx].
    + intros N. inversion N; subst. auto.
  - apply eqb_neq in E. destruct H as [H|H]; [congruence|]. destruct (IH H) as (l' & -> & A & B & C).
    exists (x :: l'). split; [reflexivity|]. split; [|split].
    + intros y [<-|Hy]; [now left|right; auto].
    + intros y [<-|Hy] Hn; [now left|right; auto].
    + intros N. inversion N as [|? ? N1 N2]; subst. destruct (C N2) as [C1 C2]. split.
      * constructor; [|exact C1]. intros Hx. apply N1. auto.
      * intros [->|Hx]; [congruence|auto].
Qed.

(** ** chains *)
Notation dchain S c d := (chain S c d).
Lemma dir_trans a b c d x y : same_direction a b c d -> same_direction c d x y -> same_direction a b x y.
Proof. rewrite <- !al_dir. apply al_trans. Qed.
Lemma dir_refl a b : a <> b -> same_direction a b a b.
Proof. intros N. split; [exact N|]. exists 1, 1. repeat split; lia. Qed.
Lemma dir_rev a b c d : same_direction a b c d -> same_direction b a d c.
Proof. intros (N & m & n & H1 & H2 & E1 & E2 & E3). split; [congruence|]. exists m, n. repeat split; lia. Qed.
Lemma dir_sym a b c d : same_direction a b c d -> same_direction c d a b.
Proof. rewrite <- !al_dir. apply al_sym. Qed.
Lemma dir_ne a b c d : same_direction a b c d -> a <> b.
Proof. intros H. apply dir_sym in H. now destruct H. Qed.
Lemma dir_add c d a x b : same_direction c d a x -> same_direction c d x b -> same_direction c d a b.
Proof.
  rewrite <- !al_dir. intros [A B] [C D]. split.
  - revert A C. unfold cross, psub, zero. cbn [px py pz]. intros [= A1 A2 A3] [= B1 B2 B3].
    match goal with |- P ?x ?y ?z = _ => assert (x = 0) by lia; assert (y = 0) by lia; assert (z = 0) by lia end. congruence.
  - revert B D. unfold dot, psub. cbn [px py pz]. intros. lia.
Qed.
Lemma chain_dir S c d c' d' a b : same_direction c' d' c d -> chain S c d a b -> chain S c' d' a b.
Proof. intros H. induction 1; [constructor|]. apply chain_edge with x; eauto using dir_trans. Qed.
Lemma chain_app S c d a x b : chain S c d a x -> chain S c d x b -> chain S c d a b.
Proof. induction 1; [auto|]. intros. apply chain_edge with x; auto. Qed.
Lemma chain_one S c d a b : In (a, b) S -> same_direction c d a b -> chain S c d a b.
Proof. intros. apply chain_edge with b; auto. constructor. Qed.
Lemma chain_mono S S' c d a b : (forall e, In e S -> In e S') -> chain S c d a b -> chain S' c d a b.
Proof. intros H. induction 1; [constructor|]. apply chain_edge with x; auto. Qed.
Lemma chain_reaches S c d a b : chain S c d a b -> reaches c d a b.
Proof.
  induction 1 as [a|a x b H1 H2 H3 IH]; [now left|]. right. destruct IH as [->|IH]; [exact H2|]. eapply dir_add; eauto.
Qed.
(** the last edge of a chain *)
Lemma chain_last S c d a b : chain S c d a b -> a = b \/ exists z, chain S c d a z /\ In (z, b) S /\ same_direction c d z b.
Proof.
  induction 1 as [a|a x b H1 H2 H3 IH]; [now left|]. right. destruct IH as [->|(z & A & B & C)].
  - exists a. split; [constructor|auto].
  - exists z. split; [|auto]. apply chain_edge with x; auto.
Qed.

(** replacing an edge by two pieces keeps chains *)
Lemma inside_dir p q x c d : same_direction c d p q -> inside (p, q) x -> same_direction c d p x /\ same_direction c d x q.
Proof.
  rewrite <- !al_dir. intros H (A & B & _). cbn [fst snd vec] in *. split; eapply al_trans; eauto.
Qed.
Lemma chain_replace S S' p q x c d a b : (forall e, In e S -> e <> (p, q) -> In e S') -> In (p, x) S' -> In (x, q) S' ->
  inside (p, q) x -> chain S c d a b -> chain S' c d a b.
Proof.
  intros H H1 H2 HI. induction 1 as [a|a y b A B C IH]; [constructor|]. destruct (eq_dec (a, y) (p, q)) as [E|N].
  - injection E as -> ->. destruct (inside_dir _ _ _ _ _ B HI) as [D1 D2].
    apply chain_edge with x; auto. apply chain_edge with q; auto.
  - apply chain_edge with y; auto.
Qed.

(** ** one round *)
(** replacement of an edge: pairs of pieces at points strictly inside it *)
Definition pieces (e : edge) (xs : list pnt) : list edge := flat_map (fun x => [(fst e, x); (x, snd e)]) xs.
Definition good_repl (V : list pnt) (e : edge) (rs : list edge) : Prop :=
  exists xs, xs <> [] /\ rs = pieces e xs /\ forall x, In x xs -> inside e x /\ In x V.

Record inv (E : list edge) (V : list pnt) (hist es : list edge) : Prop := Inv {
  inv_nodup : NoDup es;
  inv_hist : forall e, In e es -> In e hist;
  inv_pts : forall e, In e hist -> In (fst e) V /\ In (snd e) V;
  inv_chain : forall p q, In (p, q) E -> p <> q -> chain es p q p q;
  inv_sub : forall p q, In (p, q) es -> p <> q -> exists a b, In (a, b) E /\ same_direction a b p q /\ chain es a b a p /\ chain es a b q b;
  inv_deg : forall p, In (p, p) es <-> In (p, p) E }.

Lemma pieces_In e xs r : In r (pieces e xs) <-> exists x, In x xs /\ (r = (fst e, x) \/ r = (x, snd e)).
Proof.
  unfold pieces. rewrite in_flat_map. split; intros (x & Hx & H); exists x; (split; [exact Hx|]).
  - destruct H as [H|[H|[]]]; auto.
  - cbn. destruct H; auto.
Qed.
Lemma inside_ne e x : inside e x -> x <> fst e /\ x <> snd e.
Proof.
  intros (A & B & _). apply al_nz_r in A, B. split; intros ->; [clear B|clear A]; revert A || revert B;
  unfold sq, dot, psub; cbn; rewrite !Z.sub_diag; lia.
Qed.

Lemma replace_ok E V hist es e rs : inv E V hist es -> In e es -> good_repl V e rs ->
  exists hist' es', replace (Some (hist, es)) (e, rs) = Some (hist', es') /\ inv E V hist' es' /\
  (forall x, In x es' <-> (In x es /\ x <> e) \/ In x rs).
Proof.
  intros [N HH HP HC HS HD] He (xs & Hxs & -> & Hin). cbn [replace fst snd].
  destruct (lremove_some hist e (HH _ He)) as (hist' & -> & A1 & A2 & _).
  destruct (lremove_some es e He) as (es1 & -> & B1 & B2 & B3). destruct (B3 N) as [N1 Ne].
  set (rs := pieces e xs). set (es' := fold_left sadd rs es1).
  exists (hist' ++ rs), es'. split; [reflexivity|].
  assert (M : forall x, In x es' <-> (In x es /\ x <> e) \/ In x rs).
  { intros x. unfold es'. rewrite sadds_In. split.
    - intros [H|H]; [auto|]. left. split; [auto|]. intros ->. tauto.
    - intros [[H H2]|H]; auto. }
  split; [|exact M]. destruct e as [p q]. cbn [fst snd] in *.
  assert (NE : p <> q).
  { destruct xs as [|x xs]; [congruence|]. destruct (Hin x (or_introl eq_refl)) as [(A & _) _].
    apply al_nz_l in A. intros ->. unfold vec, sq, dot, psub in A. cbn in A. rewrite !Z.sub_diag in A. lia. }
  assert (R : forall c d a b, chain es c d a b -> chain es' c d a b).
  { intros c d a b. destruct xs as [|x xs]; [congruence|]. apply (chain_replace es es' p q x).
    - intros f Hf Hn. apply M. auto.
    - apply M. right. apply pieces_In. exists x. cbn. auto.
    - apply M. right. apply pieces_In. exists x. cbn. auto.
    - now apply Hin; left. }
  constructor.
  - unfold es'. now apply sadds_NoDup.
  - intros f Hf. apply M in Hf. apply in_or_app. destruct Hf as [[Hf Hn]|Hf]; [left|now right].
    apply A2; auto.
  - intros f Hf. apply in_app_or in Hf. destruct Hf as [Hf|Hf]; [auto|].
    apply pieces_In in Hf. destruct Hf as (x & Hx & Hf). apply Hin in Hx. destruct Hx as [_ Hx].
    destruct (HP (p, q) (HH _ He)) as [P1 P2]. cbn [fst snd] in *. destruct Hf as [->| ->]; cbn [fst snd]; auto.
  - intros a b Hab Hn. now apply R, HC.
  - intros a b Hab Hn. apply M in Hab. destruct Hab as [[Hab _]|Hab].
    + destruct (HS _ _ Hab Hn) as (c & d & S1 & S2 & S3 & S4). exists c, d. auto 6.
    + apply pieces_In in Hab. destruct Hab as (x & Hx & Hab). destruct (Hin x Hx) as [Hi _].
      destruct (HS _ _ He NE) as (c & d & S1 & S2 & S3 & S4). exists c, d. split; [exact S1|].
      destruct (inside_dir _ _ _ _ _ S2 Hi) as [D1 D2]. cbn [fst snd] in *.
      assert (Q1 : In (p, x) es') by (apply M; right; apply pieces_In; exists x; cbn; auto).
      assert (Q2 : In (x, q) es') by (apply M; right; apply pieces_In; exists x; cbn; auto).
      destruct Hab as [Hab|Hab]; injection Hab as -> ->.
      * split; [exact D1|]. split; [now apply R|]. apply chain_edge with q; auto.
      * split; [exact D2|]. split; [|now apply R]. eapply chain_app; [apply R; exact S3|]. now apply chain_one.
  - intros a. rewrite M, <- HD. split.
    + intros [[H _]|H]; [exact H|]. apply pieces_In in H. destruct H as (x & Hx & H). destruct (Hin x Hx) as [Hi _].
      apply inside_ne in Hi. cbn [fst snd] in *. destruct Hi. destruct H as [H|H]; injection H as -> ->; congruence.
    + intros H. left. split; [exact H|]. intros C. injection C as C1 C2. congruence.
Qed.

Lemma round_ok E V s : forall hist es, inv E V hist es -> dwf s ->
  (forall e rs, In (e, rs) s -> In e es /\ good_repl V e rs) ->
  exists hist' es', fold_left replace s (Some (hist, es)) = Some (hist', es') /\ inv E V hist' es' /\
  (forall x, In x es' -> (In x es /\ ~ In x (dkeys s)) \/ exists e rs, In (e, rs) s /\ In x rs).
Proof.
  induction s as [|[e rs] s IH]; intros hist es HI W Hs; cbn [fold_left].
  - exists hist, es. split; [reflexivity|]. split; [exact HI|]. intros x Hx. left. auto.
  - destruct (Hs e rs (or_introl eq_refl)) as [He Hg].
    destruct (replace_ok _ _ _ _ _ _ HI He Hg) as (h1 & es1 & -> & HI1 & M).
    inversion W as [|? ? W1 W2]; subst.
    destruct (IH h1 es1 HI1 W2) as (h2 & es2 & -> & HI2 & M2).
    { intros e' rs' H'. destruct (Hs e' rs' (or_intror H')) as [A B]. split; [|exact B]. apply M. left. split; [exact A|].
      intros ->. apply W1. change e with (fst (e, rs')). now apply in_map. }
    exists h2, es2. split; [reflexivity|]. split; [exact HI2|]. intros x Hx. apply M2 in Hx.
    destruct Hx as [[Hx Hk]|(e' & rs' & A & B)].
    + apply M in Hx. destruct Hx as [[Hx Hn]|Hx].
      * left. split; [exact Hx|]. cbn. intros [C|C]; [congruence|tauto].
      * right. exists e, rs. split; [now left|exact Hx].
    + right. exists e', rs'. split; [now right|exact B].
Qed.

(** ** subst *)
Definition repl (hist : list edge) (e : edge) : list edge := pass1 hist e ++ pass2 hist e.
Lemma subst_fold (f : edge -> list edge) es : forall s, NoDup es -> dwf s ->
  dwf (fold_left (fun s e => subst_add s e (f e)) es s) /\
  forall e, dget (fold_left (fun s e => subst_add s e (f e)) es s) e =
    if existsb (eqb e) es then match f e with [] => dget s e | _ => Some ((match dget s e with Some o => o | None => [] end) ++ f e) end else dget s e.
Proof.
  induction es as [|x es IH]; intros s N W; cbn [fold_left existsb]; [auto|].
  inversion N as [|? ? Nx N']; subst.
  assert (W' : dwf (subst_add s x (f x))) by (unfold subst_add; destruct (f x); [exact W|now apply dwf_dset]).
  destruct (IH _ N' W') as [A B]. split; [exact A|]. intros e. rewrite B.
  destruct (eqb e x) eqn:E; cbn [orb].
  - apply eqb_eq in E. subst e. apply mem_false in Nx. rewrite Nx. unfold subst_add. destruct (f x) eqn:F; [reflexivity|].
    now rewrite dget_dset_same.
  - apply eqb_neq in E. unfold subst_add. destruct (f x) eqn:F; [reflexivity|]. now rewrite dget_dset_other.
Qed.
Lemma subst_spec hist es : NoDup es -> dwf (subst_of hist es) /\
  (forall e rs, In (e, rs) (subst_of hist es) -> In e es /\ rs = repl hist e /\ rs <> []) /\
  (subst_of hist es = [] -> forall e, In e es -> repl hist e = []).
Proof.
  intros N. unfold subst_of. destruct (subst_fold (pass1 hist) es [] N (NoDup_nil _)) as [W1 G1].
  destruct (subst_fold (pass2 hist) es _ N W1) as [W2 G2].
  assert (G : forall e, dget (fold_left (fun s e => subst_add s e (pass2 hist e)) es (fold_left (fun s e => subst_add s e (pass1 hist e)) es [])) e =
     if existsb (eqb e) es then match repl hist e with [] => None | l => Some l end else None).
  { intros e. rewrite G2, G1. cbn [dget]. unfold repl. destruct (existsb (eqb e) es); [|reflexivity].
    destruct (pass1 hist e), (pass2 hist e); cbn; try reflexivity. now rewrite app_nil_r. }
  split; [exact W2|]. split.
  - intros e rs H. apply In_dget in H; [|exact W2]. rewrite G in H. destruct (existsb (eqb e) es) eqn:Em; [|discriminate].
    apply mem_true in Em. split; [exact Em|]. destruct (repl hist e); [discriminate|]. injection H as <-. split; [reflexivity|discriminate].
  - intros E0 e He. specialize (G e). rewrite E0 in G. cbn [dget] in G. apply mem_true in He. rewrite He in G.
    destruct (repl hist e); [reflexivity|discriminate].
Qed.
Definition cut_points (hist : list edge) (e : edge) : list pnt :=
  flat_map (fun h => if eqb (snd h) (fst e) && cuts e h then [fst h] else []) hist ++
  flat_map (fun h => if eqb (fst h) (snd e) && cuts e h then [snd h] else []) hist.
Lemma repl_pieces hist e : repl hist e = pieces e (cut_points hist e).
Proof.
  unfold repl, cut_points, pieces. rewrite flat_map_app. f_equal.
  - unfold pass1. induction hist as [|h t IH]; [reflexivity|]. cbn [flat_map]. rewrite flat_map_app, IH.
    now destruct (eqb (snd h) (fst e) && cuts e h).
  - unfold pass2. induction hist as [|h t IH]; [reflexivity|]. cbn [flat_map]. rewrite flat_map_app, IH.
    now destruct (eqb (fst h) (snd e) && cuts e h).
Qed.
Lemma cut_points_In hist e x : In x (cut_points hist e) <->
  (In (x, fst e) hist /\ cuts e (x, fst e) = true) \/ (In (snd e, x) hist /\ cuts e (snd e, x) = true).
Proof.
  unfold cut_points. rewrite in_app_iff, !in_flat_map. split.
  - intros [([a b] & H & Hx)|([a b] & H & Hx)]; cbn [fst snd] in Hx;
    match type of Hx with In _ (if eqb ?u ?v && ?c then _ else _) => destruct (eqb u v) eqn:E1; [|destruct Hx]; destruct c eqn:E2; [|destruct Hx] end;
    apply eqb_eq in E1; subst; destruct Hx as [<-|[]]; auto.
  - intros [[H1 H2]|[H1 H2]]; [left|right]; eexists; (split; [exact H1|]); cbn [fst snd]; rewrite eqb_refl, H2; cbn; auto.
Qed.
Lemma repl_good E V hist es e : inv E V hist es -> repl hist e <> [] -> good_repl V e (repl hist e).
Proof.
  intros HI Hne. exists (cut_points hist e). split; [|split].
  - intros C. apply Hne. now rewrite repl_pieces, C.
  - apply repl_pieces.
  - intros x Hx. apply cut_points_In in Hx. destruct e as [p q]. cbn [fst snd] in Hx. destruct Hx as [[H1 H2]|[H1 H2]].
    + split; [now apply cut1_inside|]. now apply (inv_pts _ _ _ _ HI) in H1.
    + split; [now apply cut2_inside|]. now apply (inv_pts _ _ _ _ HI) in H1.
Qed.

(** ** termination *)
Definition len (e : edge) : nat := Z.to_nat (sq (vec e)).
Fixpoint weight (B : nat) (l : list edge) : nat := match l with [] => 0 | e :: r => B ^ len e + weight B r end.
Lemma weight_app B l m : weight B (l ++ m) = (weight B l + weight B m)%nat.
Proof. induction l; cbn; [reflexivity|]. rewrite IHl. lia. Qed.
Lemma weight_perm B l m : Permutation l m -> weight B l = weight B m.
Proof. induction 1; cbn; lia. Qed.
Lemma weight_incl B l m : NoDup l -> incl l m -> (weight B l <= weight B m)%nat.
Proof.
  revert m. induction l as [|e l IH]; intros m N HI; [cbn; lia|]. inversion N; subst.
  assert (He : In e m) by (apply HI; now left). apply in_split in He. destruct He as (m1 & m2 & ->).
  rewrite (weight_perm B (m1 ++ e :: m2) (e :: m1 ++ m2)) by (symmetry; apply Permutation_middle). cbn [weight].
  apply Nat.add_le_mono_l, IH; [assumption|]. intros x Hx.
  assert (Hx2 := HI x (or_intror Hx)). apply in_app_or in Hx2. apply in_or_app. destruct Hx2 as [A|[A|A]]; [auto|congruence|auto].
Qed.
Lemma weight_split B f l : weight B l = (weight B (filter f l) + weight B (filter (fun e => negb (f e)) l))%nat.
Proof. induction l as [|e l IH]; cbn; [reflexivity|]. rewrite IH. destruct (f e); cbn; lia. Qed.
Lemma weight_bound B L l : (0 < B)%nat -> (forall e, In e l -> (len e <= L)%nat) -> (weight B l <= length l * B ^ L)%nat.
Proof.
  intros HB. induction l as [|e l IH]; intros H; [cbn; lia|]. cbn [weight length].
  assert (A := IH (fun x Hx => H x (or_intror Hx))). assert (C : (B ^ len e <= B ^ L)%nat) by (apply Nat.pow_le_mono_r; [lia|apply H; now left]). nia.
Qed.
Lemma edges_bound (V : list pnt) es : NoDup es -> (forall e, In e es -> In (fst e) V /\ In (snd e) V) -> (length es <= length V * length V)%nat.
Proof.
  intros N H. rewrite <- prod_length. apply NoDup_incl_length; [exact N|]. intros [p q] He. apply in_prod; now apply (H (p, q)).
Qed.
Lemma max_key (s : dict edge (list edge)) : s <> [] -> exists e rs, In (e, rs) s /\ forall e' rs', In (e', rs') s -> (len e' <= len e)%nat.
Proof.
  induction s as [|[e rs] s IH]; [congruence|]. intros _. destruct s as [|y s].
  - exists e, rs. split; [now left|]. intros e' rs' [H|[]]. injection H as -> ->. lia.
  - destruct IH as (m & ms & A & B); [discriminate|]. destruct (Nat.leb_spec (len m) (len e)) as [L|L].
    + exists e, rs. split; [now left|]. intros e' rs' [H|H]; [injection H as -> ->; lia|]. specialize (B _ _ H). lia.
    + exists m, ms. split; [now right|]. intros e' rs' [H|H]; [injection H as -> ->; lia|]. eauto.
Qed.
Lemma pieces_shorter V e rs r : good_repl V e rs -> In r rs -> (len r < len e)%nat.
Proof.
  intros (xs & _ & -> & Hin) Hr. apply pieces_In in Hr. destruct Hr as (x & Hx & Hr). destruct (Hin x Hx) as [(A & B & C & D) _].
  unfold len. apply Z2Nat.inj_lt; [apply sq_nonneg|apply sq_nonneg|]. destruct e as [p q]. cbn [fst snd] in *.
  destruct Hr as [->| ->]; exact C || exact D.
Qed.
Lemma round_decreases E V hist es s hist' es' : inv E V hist es -> inv E V hist' es' -> s <> [] -> dwf s ->
  (forall e rs, In (e, rs) s -> In e es /\ good_repl V e rs) ->
  (forall x, In x es' -> (In x es /\ ~ In x (dkeys s)) \/ exists e rs, In (e, rs) s /\ In x rs) ->
  let B := S (length V * length V) in (weight B es' < weight B es)%nat.
Proof.
  intros HI HI' Hs W Hg M B. destruct (max_key s Hs) as (m & ms & Hm & Hmax).
  set (long := fun e => Nat.leb (len m) (len e)).
  rewrite (weight_split B long es'), (weight_split B long es).
  assert (P0 : (0 < len m)%nat).
  { destruct (Hg _ _ Hm) as [_ (xs & Hxs & Em & Hin)]. destruct xs as [|x xs]; [congruence|]. destruct (Hin x (or_introl eq_refl)) as [(A & _) _].
    apply al_nz_l in A. unfold len. lia. }
  assert (A : (weight B (filter long es') + B ^ len m <= weight B (filter long es))%nat).
  { rewrite Nat.add_comm. change (B ^ len m + weight B (filter long es'))%nat with (weight B (m :: filter long es')).
    apply weight_incl.
    - constructor; [|apply NoDup_filter, (inv_nodup _ _ _ _ HI')]. intros C. apply filter_In in C. destruct C as [C _]. apply M in C.
      destruct C as [[_ C]|(e & rs & C1 & C2)].
      + apply C. change m with (fst (m, ms)). now apply in_map.
      + assert (L1 := pieces_shorter _ _ _ _ (proj2 (Hg _ _ C1)) C2). assert (L2 := Hmax _ _ C1). lia.
    - intros x [<-|Hx].
      + apply filter_In. split; [now apply (Hg m ms)|]. unfold long. apply Nat.leb_refl.
      + apply filter_In in Hx. destruct Hx as [Hx Hl]. apply filter_In. split; [|exact Hl]. apply M in Hx. destruct Hx as [[Hx _]|(e & rs & C1 & C2)]; [exact Hx|].
        exfalso. assert (L1 := pieces_shorter _ _ _ _ (proj2 (Hg _ _ C1)) C2). assert (L2 := Hmax _ _ C1). unfold long in Hl. apply Nat.leb_le in Hl. lia. }
  assert (C : (weight B (filter (fun e => negb (long e)) es') < B ^ len m)%nat).
  { eapply Nat.le_lt_trans; [apply (weight_bound B (len m - 1))|].
    - unfold B. lia.
    - intros e He. apply filter_In in He. destruct He as [_ He]. unfold long in He. apply negb_true_iff, Nat.leb_gt in He. lia.
    - assert (L : (length (filter (fun e => negb (long e)) es') <= length V * length V)%nat).
      { apply edges_bound; [apply NoDup_filter, (inv_nodup _ _ _ _ HI')|]. intros e He. apply filter_In in He. destruct He as [He _].
        apply (inv_pts _ _ _ _ HI'). now apply (inv_hist _ _ _ _ HI'). }
      replace (len m) with (S (len m - 1)) at 2 by lia. rewrite Nat.pow_succ_r'.
      assert (X : (0 < B ^ (len m - 1))%nat) by (apply Nat.neq_0_lt_0, Nat.pow_nonzero; unfold B; lia). unfold B at 2. nia. }
  lia.
Qed.

(** ** the loop *)
Section Loop.
Variable ord : nat -> list edge -> list edge.
Hypothesis ord_perm : forall i l, Permutation (ord i l) l.

(** nothing more to split *)
Definition settled (hist es : list edge) : Prop := forall e h, In e es -> In h hist ->
  (snd h = fst e \/ fst h = snd e) -> cuts e h = false.
Lemma settled_of hist es i : subst_of hist (ord i es) = [] -> NoDup es -> settled hist es.
Proof.
  intros H N e h He Hh Hk.
  assert (N' : NoDup (ord i es)) by (eapply Permutation_NoDup; [symmetry; apply ord_perm|exact N]).
  destruct (subst_spec hist (ord i es) N') as (_ & _ & F).
  assert (R := F H e (Permutation_in _ (Permutation_sym (ord_perm i es)) He)). rewrite repl_pieces in R.
  destruct (cuts e h) eqn:C; [|reflexivity]. exfalso.
  assert (X : cut_points hist e = []). { destruct (cut_points hist e); [reflexivity|discriminate]. }
  destruct h as [a b]. cbn [fst snd] in Hk. destruct Hk as [->| ->].
  - assert (Y : In a (cut_points hist e)) by (apply cut_points_In; auto). rewrite X in Y. destruct Y.
  - assert (Y : In b (cut_points hist e)) by (apply cut_points_In; auto). rewrite X in Y. destruct Y.
Qed.
Lemma loop_ok E V n : forall fuel i hist es, inv E V hist es -> (weight (S (length V * length V)) es < n)%nat -> (n <= fuel)%nat ->
  exists hist' es', split_loop ord fuel i hist es = Finished es' /\ inv E V hist' es' /\ settled hist' es'.
Proof.
  induction n as [|n IH]; intros fuel i hist es HI Hw Hf; [lia|]. destruct fuel as [|fuel]; [lia|]. cbn [split_loop].
  assert (N := inv_nodup _ _ _ _ HI).
  assert (N' : NoDup (ord i es)) by (eapply Permutation_NoDup; [symmetry; apply ord_perm|exact N]).
  destruct (subst_spec hist (ord i es) N') as (W & G & _).
  destruct (subst_of hist (ord i es)) as [|r s] eqn:Es.
  - exists hist, es. split; [reflexivity|]. split; [exact HI|]. eapply settled_of; eauto.
  - assert (Hg : forall e rs, In (e, rs) (r :: s) -> In e es /\ good_repl V e rs).
    { intros e rs H. destruct (G _ _ H) as (A & -> & C). split; [eapply Permutation_in; [apply ord_perm|exact A]|]. eapply repl_good; eauto. }
    destruct (round_ok E V (r :: s) hist es HI W Hg) as (h' & es' & -> & HI' & M).
    apply IH; [exact HI'| |lia].
    assert (Hne : r :: s <> []) by discriminate.
    assert (D := round_decreases _ _ _ _ _ _ _ HI HI' Hne W Hg M). cbn zeta in D. lia.
Qed.

(** ** a settled set and chains that run back *)
Lemma settled_first hist es c d a b z : (forall e, In e es -> In e hist) -> settled hist es ->
  In (a, b) es -> same_direction c d a b -> In (z, a) es -> same_direction d c z a -> z = b.
Proof.
  intros HH HS H1 D1 H2 D2. apply dir_rev in D2.
  pose proof (proj2 (al_dir _ _ _ _) D1) as A1. pose proof (proj2 (al_dir _ _ _ _) D2) as A2.
  destruct (Z.lt_trichotomy (sq (psub z a)) (sq (psub b a))) as [L|[L|L]].
  - assert (C : cuts (a, b) (z, a) = true) by (apply cut1; split; [eapply al_shared; eauto|exact L]).
    rewrite (HS (a, b) (z, a)) in C; auto. discriminate.
  - apply (al_same_length _ _ _ A2 A1) in L. unfold psub in L. destruct a, b, z. cbn in L. injection L as L1 L2 L3. f_equal; lia.
  - assert (C : cuts (z, a) (a, b) = true).
    { apply cut2. unfold vec. cbn [fst snd]. rewrite (sq_neg a z), (sq_neg a b). split; [|exact L].
      apply al_dir, dir_rev, al_dir. eapply al_shared; eauto. }
    rewrite (HS (z, a) (a, b)) in C; auto. discriminate.
Qed.
Lemma settled_match hist es c d p q b : (forall e, In e es -> In e hist) -> settled hist es ->
  In (p, q) es -> same_direction c d p q -> chain es c d q b ->
  forall a, chain es c d a p -> chain es d c b a -> In (q, p) es.
Proof.
  intros HH HS Hpq Dpq Hqb a Hap. induction Hap as [p|a x p H1 D1 H2 IH]; intros Hba.
  - destruct (chain_last _ _ _ _ _ Hba) as [->|(z & Z1 & Z2 & Z3)].
    + exfalso. apply chain_reaches in Hqb. destruct Hqb as [->|D2]; [now destruct Dpq|].
      assert (X := dir_add _ _ _ _ _ Dpq D2). now destruct X.
    + now rewrite (settled_first _ _ _ _ _ _ _ HH HS Hpq Dpq Z2 Z3) in Z2.
  - destruct (chain_last _ _ _ _ _ Hba) as [->|(z & Z1 & Z2 & Z3)].
    + exfalso. assert (R1 := chain_reaches _ _ _ _ _ H2). assert (R2 := chain_reaches _ _ _ _ _ Hqb).
      assert (X : same_direction c d a q) by (destruct R1 as [->|R1]; [eapply dir_add; eauto|eapply dir_add; [|exact Dpq]; eapply dir_add; eauto]).
      destruct R2 as [->|R2]; [now destruct X|]. assert (Y := dir_add _ _ _ _ _ X R2). now destruct Y.
    + rewrite (settled_first _ _ _ _ _ _ _ HH HS H1 D1 Z2 Z3) in Z1. now apply IH.
Qed.
(** chains of original edges become chains of pieces *)
Lemma chain_lift E V hist es c d a b : inv E V hist es -> chain E c d a b -> chain es c d a b.
Proof.
  intros HI. induction 1 as [a|a x b H1 D1 H2 IH]; [constructor|]. eapply chain_app; [|exact IH].
  apply (chain_dir es a x c d); [exact D1|]. apply (inv_chain _ _ _ _ HI); [exact H1|now destruct D1].
Qed.
Lemma closed_settled E V hist es : inv E V hist es -> settled hist es -> closed_up_to_T E ->
  forall e, In e es -> In (erev e) es.
Proof.
  intros HI HS HC [p q] He. destruct (eq_dec p q) as [->|N]; [exact He|].
  destruct (inv_sub _ _ _ _ HI _ _ He N) as (u & v & Hf & Df & C1 & C2).
  assert (Nf : u <> v) by (eapply dir_ne; exact Df).
  destruct (HC u v Hf Nf) as (a & b & K1 & K2 & K3).
  apply (chain_lift _ _ _ _ _ _ _ _ HI) in K1, K2, K3.
  unfold erev. cbn [fst snd].
  apply (settled_match hist es u v p q b (inv_hist _ _ _ _ HI) HS He Df) with (a := a); auto.
  - eapply chain_app; eauto.
  - eapply chain_app; eauto.
Qed.
End Loop.

(** ** the whole check *)
Lemma collect_edges_spec l : forall s n, NoDup s ->
  let r := fold_left (fun s e => if existsb (eqb e) (fst s) then (fst s, S (snd s)) else (sadd (fst s) e, snd s)) l (s, n) in
  NoDup (fst r) /\ (forall e, In e (fst r) <-> In e s \/ In e l) /\ (n <= snd r)%nat /\ (snd r = n <-> NoDup (l ++ s)).
Proof.
  induction l as [|e l IH]; intros s n N; cbn [fold_left].
  - cbn. split; [exact N|]. split; [tauto|]. split; [lia|]. tauto.
  - cbn [fst snd]. destruct (existsb (eqb e) s) eqn:Em.
    + apply mem_true in Em. destruct (IH s (S n) N) as (A & B & C & D). split; [exact A|]. split.
      { intros x. rewrite B. cbn. split; [tauto|]. intros [H|[<-|H]]; auto. }
      split; [lia|]. split; [lia|]. intros H. exfalso. inversion H as [|? ? H1 H2]; subst. apply H1, in_or_app. now right.
    + apply mem_false in Em. destruct (IH (sadd s e) n (sadd_NoDup _ _ N)) as (A & B & C & D). split; [exact A|]. split.
      { intros x. rewrite B, sadd_In. cbn. split; intuition. }
      split; [exact C|]. rewrite D. unfold sadd. apply mem_false in Em. rewrite Em. cbn [app].
      split; intros H; (eapply Permutation_NoDup; [|exact H]).
      * rewrite app_assoc. symmetry. apply (Permutation_cons_append (l ++ s) e).
      * rewrite app_assoc. apply (Permutation_cons_append (l ++ s) e).
Qed.
Lemma chain_self es p q : In (p, q) es -> p <> q -> chain es p q p q.
Proof. intros H N. apply chain_one; [exact H|now apply dir_refl]. Qed.
Lemma inv_init E es hist : NoDup es -> (forall e, In e es <-> In e E) -> Permutation hist es ->
  inv E (map fst es ++ map snd es) hist es.
Proof.
  intros N HE HP. constructor; [exact N| | | | |].
  - intros e. apply Permutation_in. now symmetry.
  - intros e He. apply (Permutation_in _ HP) in He. rewrite !in_app_iff. split; [left|right]; now apply in_map.
  - intros p q H Hn. apply chain_self; [now apply HE|exact Hn].
  - intros p q H Hn. exists p, q. split; [now apply HE|]. split; [now apply dir_refl|]. split; constructor.
  - intros p. apply HE.
Qed.

Section Check.
Variable ord : nat -> list edge -> list edge.
Hypothesis ord_perm : forall i l, Permutation (ord i l) l.
(** the check ends without an exception *)
Lemma check_ends edges : exists N, forall fuel, (N <= fuel)%nat -> exists es hist V,
  NoDup es /\ inv edges V hist es /\ settled hist es /\
  check_edges ord fuel edges = Some (snd (collect_edges edges) + length (filter (fun e => negb (existsb (eqb (erev e)) es)) es))%nat.
Proof.
  unfold check_edges. destruct (collect_edges edges) as [es dups] eqn:E.
  destruct (collect_edges_spec edges [] 0 (NoDup_nil _)) as (A & B & _). unfold collect_edges in E. rewrite E in A, B. cbn [fst snd] in *.
  assert (HI : inv edges (map fst es ++ map snd es) (ord 0%nat es) es).
  { apply inv_init; [exact A| |apply ord_perm]. intros e. rewrite B. cbn. tauto. }
  exists (S (weight (S (length (map fst es ++ map snd es) * length (map fst es ++ map snd es))) es)). intros fuel Hf.
  destruct (@loop_ok ord ord_perm edges (map fst es ++ map snd es) _ fuel 1%nat (ord 0%nat es) es HI (Nat.lt_succ_diag_r _) Hf) as (h & es' & F & HI' & HS).
  exists es', h, (map fst es ++ map snd es). split; [apply (inv_nodup _ _ _ _ HI')|]. split; [exact HI'|]. split; [exact HS|].
  unfold split_edges. now rewrite F.
Qed.
End Check.
