From Coq Require Import String Sorted.
From Verif Require Import PyBase PyLib RL_Model RL_Spec RL_Proofs RC_Model RC_Spec.
Local Open Scope string_scope.
Local Open Scope list_scope.

Section Runs.
Variable stamp : nat -> string.
Hypothesis st : stamps stamp.
Variable base : list string.
Notation P := (P base).
Notation L := (L base).
Notation B := (B stamp base).
Notation lp := (log_path stamp base).

Lemma lp_P k : lp k (P k). Proof. apply (log_path_cases stamp). now left. Qed.
Lemma lp_L id k : lp k (L id k). Proof. apply (log_path_cases stamp). right; left. now exists id. Qed.
Lemma lp_B id k t : lp k (B id k t). Proof. apply (log_path_cases stamp). right; right. now exists id, t. Qed.
Lemma lp_kind k k' p : In k kinds -> In k' kinds -> lp k p -> lp k' p -> k = k'.
Proof.
  intros I I' H H'. apply (log_path_cases stamp) in H, H'. destruct H as [->|[(id & ->)|(id & t & ->)]], H' as [E|[(id' & E)|(id' & t' & E)]].
  - exact (P_inj base _ _ E).
  - destruct (P_L base _ _ _ E).
  - destruct (P_B stamp base _ _ _ _ E).
  - symmetry in E. destruct (P_L base _ _ _ E).
  - now apply L_inj in E.
  - symmetry in E. destruct (B_L stamp st base _ _ _ _ _ I' I E).
  - symmetry in E. destruct (P_B stamp base _ _ _ _ E).
  - destruct (B_L stamp st base _ _ _ _ _ I I' E).
  - now apply (B_inj stamp st base) in E.
Qed.

(** ** The phases of one log *)
Inductive phase := PNew | PBase | PChecked | PTimed | PBacked | PMoved | PRun.
Definition trans (o : op) (p : phase) : option phase :=
  match o, p with
  | Open _ _, PNew => Some PBase
  | Write _ _ _, PBase => Some PBase
  | Write _ _ _, PRun => Some PRun
  | Exists _, PBase => Some PChecked
  | Ctime _, PChecked => Some PTimed
  | Backup _ _, PTimed => Some PBacked
  | Move _ _, PBacked => Some PMoved
  | Reopen _ _, PMoved => Some PRun
  | _, _ => None
  end.
Definition kind_of (o : op) : string :=
  match o with Open k _ => k | Write k _ _ => k | Exists k => k | Ctime k => k | Backup k _ => k | Move k _ => k | Reopen k _ => k end.
Definition in_time (T E : nat) (o : op) : Prop :=
  match o with Open _ t | Write _ t _ | Backup _ t | Move _ t | Reopen _ t => (T < t <= E)%nat | _ => True end.
Definition adds_to (o : op) : list string := match o with Write _ _ m => [m] | _ => [] end.

Definition frame (k : string) (d d1 : disk) : Prop :=
  forall q, ~ lp k q -> view d1 q = view d q /\ forall i, dget (names d) q = Some i -> dget (names d1) q = Some i.
Definition grow (k : string) (d d1 : disk) : Prop :=
  forall p n, lp k p -> view d p = Some n -> exists p' n' z, lp k p' /\ view d1 p' = Some n' /\ text n' = text n ++ z.
Lemma grow_refl k d : grow k d d.
Proof. intros p n H V. exists p, n, []. now rewrite app_nil_r. Qed.
Lemma grow_trans k d d1 d2 : grow k d d1 -> grow k d1 d2 -> grow k d d2.
Proof.
  intros G1 G2 p n H V. destruct (G1 p n H V) as (p1 & n1 & z1 & H1 & V1 & E1). destruct (G2 p1 n1 H1 V1) as (p2 & n2 & z2 & H2 & V2 & E2).
  exists p2, n2, (z1 ++ z2). split; [exact H2|]. split; [exact V2|]. rewrite E2, E1, app_assoc. reflexivity.
Qed.
Lemma frame_grow k k' d d1 : In k kinds -> In k' kinds -> k <> k' -> frame k d d1 -> grow k' d d1.
Proof.
  intros I I' N F p n H V. exists p, n, []. split; [exact H|]. rewrite app_nil_r. split; [|reflexivity].
  destruct (F p) as [E _]; [intros H'; exact (N (lp_kind _ _ _ I I' H' H))|]. now rewrite E.
Qed.

Section Run.
Variables (id : string) (T E : nat).
Definition current (k : string) (ph : phase) (W : list string) (d : disk) (s : state) : Prop :=
  match ph with
  | PNew => W = []
  | PBase => exists i n x, handler s = Some i /\ dget (names d) (P k) = Some i /\ view d (P k) = Some n /\ text n = x ++ W
  | PChecked => exists n x, view d (P k) = Some n /\ text n = x ++ W /\ (there s = true <-> view d (L id k) <> None)
  | PTimed => exists n x, view d (P k) = Some n /\ text n = x ++ W /\
      match view d (L id k) with Some o => there s = true /\ since s = changed o | None => there s = false end
  | PBacked => exists n x, view d (P k) = Some n /\ text n = x ++ W /\ view d (L id k) = None
  | PMoved => exists n x, view d (L id k) = Some n /\ text n = x ++ W /\ (T < changed n <= E)%nat
  | PRun => exists i n x, handler s = Some i /\ dget (names d) (L id k) = Some i /\ view d (L id k) = Some n /\ text n = x ++ W /\ (T < changed n <= E)%nat
  end.
Definition moved (ph : phase) : bool := match ph with PMoved | PRun => true | _ => false end.
Definition inv_k (k : string) (ph : phase) (W : list string) (d : disk) (s : state) : Prop :=
  (forall id' n, view d (L id' k) = Some n -> (changed n <= T)%nat \/ (id' = id /\ moved ph = true /\ (T < changed n <= E)%nat)) /\
  (forall id' t, view d (B id' k t) <> None -> (t <= T)%nat /\ forall n, view d (L id' k) = Some n -> (t < changed n)%nat) /\
  current k ph W d s.

Lemma inv_frame k k' ph W d d1 s : In k kinds -> In k' kinds -> k <> k' -> frame k d d1 -> inv_k k' ph W d s -> inv_k k' ph W d1 s.
Proof.
  intros I I' N F. assert (X : forall q, lp k' q -> view d1 q = view d q /\ forall i, dget (names d) q = Some i -> dget (names d1) q = Some i).
  { intros q H. apply F. intros H'. exact (N (lp_kind _ _ _ I I' H' H)). }
  assert (VL : forall id', view d1 (L id' k') = view d (L id' k')) by (intros; apply X, lp_L).
  assert (VB : forall id' t, view d1 (B id' k' t) = view d (B id' k' t)) by (intros; apply X, lp_B).
  assert (VP : view d1 (P k') = view d (P k')) by apply X, lp_P.
  intros (A & Bk & C). split; [|split].
  - intros id' n. rewrite VL. apply A.
  - intros id' t. rewrite VB, VL. apply Bk.
  - unfold current in *. rewrite VP, VL. destruct ph; try exact C.
    + destruct C as (i & n & x & C1 & C2 & C3). exists i, n, x. split; [exact C1|]. split; [apply X; [apply lp_P|exact C2]|exact C3].
    + destruct C as (i & n & x & C1 & C2 & C3). exists i, n, x. split; [exact C1|]. split; [apply X; [apply lp_L|exact C2]|exact C3].
Qed.

Lemma named_view d q : sound d -> (exists i, dget (names d) q = Some i) <-> view d q <> None.
Proof.
  intros S. split.
  - intros (i & H). destruct (view_named d q i S H) as (n & V & _). congruence.
  - intros H. destruct (dget (names d) q) as [i|] eqn:Q; [now exists i|]. exfalso. apply H. unfold view. now rewrite Q.
Qed.
Lemma update_same l k s : update l k s k = s.
Proof. unfold update. now rewrite String.eqb_refl. Qed.
Lemma update_other l k k' s : k' <> k -> update l k s k' = l k'.
Proof. intros N. unfold update. now apply String.eqb_neq in N as ->. Qed.

(** Each operation in its phase succeeds and keeps everything *)
Lemma one_step o ph ph1 W d (l : locals) : In (kind_of o) kinds -> in_time T E o -> trans o ph = Some ph1 -> sound d -> inv_k (kind_of o) ph W d (l (kind_of o)) ->
  exists d1 (l1 : locals), step stamp base id o (d, l) = Some (d1, l1) /\ sound d1 /\ frame (kind_of o) d d1 /\ grow (kind_of o) d d1 /\
    (forall k', k' <> kind_of o -> l1 k' = l k') /\ inv_k (kind_of o) ph1 (W ++ adds_to o) d1 (l1 (kind_of o)).
Proof.
  assert (LB : forall k id' k' t, In k kinds -> In k' kinds -> L id' k <> B id k' t) by (intros k id' k' t Hk Hk' Q; symmetry in Q; exact (B_L stamp st base _ _ _ _ _ Hk' Hk Q)).
  assert (LP' : forall k id' k', L id' k <> P k') by (intros k id' k' Q; symmetry in Q; exact (P_L base _ _ _ Q)).
  assert (BP' : forall k id' t k', B id' k t <> P k') by (intros k id' t k' Q; symmetry in Q; exact (P_B stamp base _ _ _ _ Q)).
  intros Ik It Tr S I. destruct o as [k now|k now msg|k|k|k now|k now|k now]; cbn [kind_of in_time adds_to] in *; destruct ph; try discriminate Tr; injection Tr as <-;
    cbn [step]; fold (P k) (L id k); destruct I as (A & Bk & C); cbn [current] in C.
  - (* Open *)
    assert (O := open_spec (P k) now d S). destruct (open_append (P k) now d) as [d1 i]. destruct O as (S1 & N1 & V1 & K1).
    eexists d1, _. split; [reflexivity|]. split; [exact S1|]. split; [|split; [|split; [|split; [|split]]]].
    + intros q H. split; [|intros; now apply K1]. rewrite V1. destruct (eq_dec q (P k)) as [->|]; [destruct (H (lp_P k))|reflexivity].
    + intros p n H V. exists p, n, []. split; [exact H|]. rewrite app_nil_r. split; [|reflexivity]. rewrite V1. destruct (eq_dec p (P k)) as [->|]; [|exact V]. now rewrite V.
    + intros k' N. now rewrite update_other.
    + intros id' n. rewrite V1. destruct (eq_dec (L id' k) (P k)) as [Q|]; [destruct (LP' _ _ _ Q)|]. intros V. destruct (A id' n V) as [H|(_ & H & _)]; [now left|discriminate].
    + intros id' t. rewrite !V1. destruct (eq_dec (B id' k t) (P k)) as [Q|]; [destruct (BP' _ _ _ _ Q)|]. destruct (eq_dec (L id' k) (P k)) as [Q|]; [destruct (LP' _ _ _ Q)|]. apply Bk.
    + cbn [current]. rewrite update_same. subst W. exists i. eexists. exists (text (or_new (view d (P k)) now)). cbn [handler]. split; [reflexivity|]. split; [exact N1|].
      split; [rewrite V1; destruct (eq_dec (P k) (P k)); [reflexivity|contradiction]|]. now rewrite app_nil_r.
  - (* Write before *)
    destruct C as (i & n & x & Hh & Hn & Hv & Ht). rewrite Hh. set (f := fun n => Node (text n ++ [msg]) now).
    assert (V1 := fun q => on_node_view i f d (P k) q S Hn). set (d1 := on_node i f d) in *.
    exists d1, l. split; [reflexivity|]. split; [now apply on_node_sound|]. split; [|split; [|split; [|split; [|split]]]].
    + intros q H. split; [|intros; unfold d1; now rewrite on_node_names]. rewrite V1. destruct (eq_dec q (P k)) as [->|]; [destruct (H (lp_P k))|reflexivity].
    + intros p m H V. destruct (eq_dec p (P k)) as [->|N].
      * exists (P k), (f m), [msg]. split; [exact H|]. rewrite V1. destruct (eq_dec (P k) (P k)); [|contradiction]. rewrite V. split; reflexivity.
      * exists p, m, []. split; [exact H|]. rewrite app_nil_r. split; [|reflexivity]. rewrite V1. destruct (eq_dec p (P k)); [contradiction|exact V].
    + reflexivity.
    + intros id' m. rewrite V1. destruct (eq_dec (L id' k) (P k)) as [Q|]; [destruct (LP' _ _ _ Q)|]. intros V. destruct (A id' m V) as [H|(_ & H & _)]; [now left|discriminate].
    + intros id' t. rewrite !V1. destruct (eq_dec (B id' k t) (P k)) as [Q|]; [destruct (BP' _ _ _ _ Q)|]. destruct (eq_dec (L id' k) (P k)) as [Q|]; [destruct (LP' _ _ _ Q)|]. apply Bk.
    + exists i, (f n), x. split; [exact Hh|]. split; [unfold d1; now rewrite on_node_names|]. split; [rewrite V1; destruct (eq_dec (P k) (P k)); [now rewrite Hv|contradiction]|].
      cbn. rewrite Ht, <- app_assoc. reflexivity.
  - (* Write in the run directory *)
    destruct C as (i & n & x & Hh & Hn & Hv & Ht & Hc). rewrite Hh. set (f := fun n => Node (text n ++ [msg]) now).
    assert (V1 := fun q => on_node_view i f d (L id k) q S Hn). set (d1 := on_node i f d) in *.
    exists d1, l. split; [reflexivity|]. split; [now apply on_node_sound|]. split; [|split; [|split; [|split; [|split]]]].
    + intros q H. split; [|intros; unfold d1; now rewrite on_node_names]. rewrite V1. destruct (eq_dec q (L id k)) as [->|]; [destruct (H (lp_L id k))|reflexivity].
    + intros p m H V. destruct (eq_dec p (L id k)) as [->|N].
      * exists (L id k), (f m), [msg]. split; [exact H|]. rewrite V1. destruct (eq_dec (L id k) (L id k)); [|contradiction]. rewrite V. split; reflexivity.
      * exists p, m, []. split; [exact H|]. rewrite app_nil_r. split; [|reflexivity]. rewrite V1. destruct (eq_dec p (L id k)); [contradiction|exact V].
    + reflexivity.
    + intros id' m. rewrite V1. destruct (eq_dec (L id' k) (L id k)) as [Q|]; [|apply A]. apply L_inj in Q as [-> _]. rewrite Hv. cbn. intros V. injection V as <-. right.
      split; [reflexivity|]. split; [reflexivity|]. cbn. lia.
    + intros id' t. rewrite !V1. destruct (eq_dec (B id' k t) (L id k)) as [Q|]; [destruct (B_L stamp st base _ _ _ _ _ Ik Ik Q)|]. intros V. destruct (Bk id' t V) as [Bt Bl].
      split; [exact Bt|]. intros m. destruct (eq_dec (L id' k) (L id k)) as [Q|]; [|apply Bl]. rewrite Hv. cbn. intros V'. injection V' as <-. cbn. lia.
    + exists i, (f n), x. split; [exact Hh|]. split; [unfold d1; now rewrite on_node_names|]. split; [rewrite V1; destruct (eq_dec (L id k) (L id k)); [now rewrite Hv|contradiction]|].
      cbn. rewrite Ht, <- app_assoc. split; [reflexivity|lia].
  - (* Exists *)
    destruct C as (i & n & x & Hh & Hn & Hv & Ht). eexists d, _. split; [reflexivity|]. split; [exact S|]. split; [now split|]. split; [apply grow_refl|].
    split; [intros k' N; now rewrite update_other|]. split; [intros id' m V; destruct (A id' m V) as [H|(_ & H & _)]; [now left|discriminate]|]. split; [exact Bk|].
    rewrite app_nil_r. cbn [current]. rewrite update_same. exists n, x. split; [exact Hv|]. split; [exact Ht|]. cbn [there]. rewrite <- (named_view d _ S).
    destruct (dget (names d) (L id k)) as [a|]; split; [intros _; now exists a|reflexivity|discriminate|intros (a & H); discriminate].
  - (* Ctime *)
    destruct C as (n & x & Hv & Ht & Hh). rewrite app_nil_r. destruct (there (l k)) eqn:TH.
    + assert (V := proj1 Hh eq_refl). apply (named_view d _ S) in V. destruct V as (a & Na). rewrite Na. destruct (view_named d _ a S Na) as (o & Vo & No). rewrite No.
      eexists d, _. split; [reflexivity|]. split; [exact S|]. split; [now split|]. split; [apply grow_refl|]. split; [intros k' N; now rewrite update_other|].
      split; [exact A|]. split; [exact Bk|]. cbn [current]. rewrite update_same. exists n, x. split; [exact Hv|]. split; [exact Ht|]. rewrite Vo. split; reflexivity.
    + eexists d, _. split; [reflexivity|]. split; [exact S|]. split; [now split|]. split; [apply grow_refl|]. split; [reflexivity|].
      split; [exact A|]. split; [exact Bk|]. cbn [current]. exists n, x. split; [exact Hv|]. split; [exact Ht|]. destruct (view d (L id k)) eqn:V; [|exact TH].
      exfalso. assert (Y : false = true) by (apply Hh; discriminate). discriminate.
  - (* Backup *)
    destruct C as (n & x & Hv & Ht & Hh). rewrite app_nil_r. destruct (view d (L id k)) as [o|] eqn:Vo.
    + destruct Hh as [Hth Hs]. rewrite Hth, Hs. fold (B id k (changed o)).
      destruct (proj2 (named_view d (L id k) S)) as (a & Na); [congruence|]. rewrite Na.
      assert (NLB : L id k <> B id k (changed o)) by (apply LB; assumption).
      destruct (move_spec (L id k) (B id k (changed o)) now d S NLB ltac:(congruence)) as (S1 & V1 & K1). set (d1 := move _ _ now d) in *.
      assert (FREE : view d (B id k (changed o)) = None).
      { destruct (view d (B id k (changed o))) eqn:Q; [|reflexivity]. exfalso. destruct (Bk id (changed o)) as [_ H]; [congruence|]. specialize (H o Vo). lia. }
      assert (OLD : (changed o <= T)%nat) by (destruct (A id o Vo) as [H|(_ & H & _)]; [exact H|discriminate]).
      exists d1, l. split; [reflexivity|]. split; [exact S1|]. split; [|split; [|split; [|split; [|split]]]].
      * intros q H. assert (Q1 : q <> L id k) by (intros ->; exact (H (lp_L id k))). assert (Q2 : q <> B id k (changed o)) by (intros ->; exact (H (lp_B id k _))).
        split; [|intros; now apply K1]. rewrite V1. destruct (eq_dec q _); [contradiction|]. destruct (eq_dec q _); [contradiction|reflexivity].
      * intros p m H V. destruct (eq_dec p (L id k)) as [->|N].
        -- exists (B id k (changed o)), (touch now m), []. split; [apply lp_B|]. rewrite V1. destruct (eq_dec _ _); [|contradiction]. rewrite V. split; [reflexivity|]. now rewrite app_nil_r.
        -- exists p, m, []. split; [exact H|]. rewrite app_nil_r. split; [|reflexivity]. rewrite V1. destruct (eq_dec p _) as [->|]; [congruence|]. destruct (eq_dec p _); [contradiction|exact V].
      * reflexivity.
      * intros id' m. rewrite V1. destruct (eq_dec (L id' k) _) as [Q|]; [destruct (LB _ _ _ _ Ik Ik Q)|]. destruct (eq_dec _ _); [discriminate|]. intros V.
        destruct (A id' m V) as [H|(_ & H & _)]; [now left|discriminate].
      * intros id' t. rewrite !V1. destruct (eq_dec (L id' k) (B id k (changed o))) as [Q|]; [destruct (LB _ _ _ _ Ik Ik Q)|].
        destruct (eq_dec (B id' k t) (B id k (changed o))) as [Q|NQ].
        -- apply (B_inj stamp st base) in Q as (-> & _ & ->); try assumption. intros _. split; [exact OLD|]. intros m. destruct (eq_dec _ _); [discriminate|contradiction].
        -- destruct (eq_dec (B id' k t) (L id k)) as [Q|]; [destruct (B_L stamp st base _ _ _ _ _ Ik Ik Q)|]. intros V. destruct (Bk id' t V) as [X Y]. split; [exact X|].
           intros m. destruct (eq_dec _ _); [discriminate|apply Y].
      * cbn [current]. exists n, x. split; [|split; [exact Ht|]].
        -- rewrite V1. destruct (eq_dec (P k) _) as [Q|]; [symmetry in Q; destruct (BP' _ _ _ _ Q)|]. destruct (eq_dec (P k) _) as [Q|]; [symmetry in Q; destruct (LP' _ _ _ Q)|exact Hv].
        -- rewrite V1. destruct (eq_dec (L id k) _) as [Q|]; [contradiction|]. destruct (eq_dec _ _); [reflexivity|contradiction].
    + rewrite Hh. eexists d, _. split; [reflexivity|]. split; [exact S|]. split; [now split|]. split; [apply grow_refl|]. split; [reflexivity|].
      split; [intros id' m V; destruct (A id' m V) as [H|(_ & H & _)]; [now left|discriminate]|]. split; [exact Bk|]. exists n, x. split; [exact Hv|]. split; [exact Ht|exact Vo].
  - (* Move *)
    destruct C as (n & x & Hv & Ht & Vo). rewrite app_nil_r. destruct (proj2 (named_view d (P k) S)) as (a & Na); [congruence|]. rewrite Na.
    destruct (move_spec (P k) (L id k) now d S (P_L base _ _ _) ltac:(congruence)) as (S1 & V1 & K1). set (d1 := move _ _ now d) in *.
    exists d1, l. split; [reflexivity|]. split; [exact S1|]. split; [|split; [|split; [|split; [|split]]]].
    + intros q H. assert (Q1 : q <> L id k) by (intros ->; exact (H (lp_L id k))). assert (Q2 : q <> P k) by (intros ->; exact (H (lp_P k))).
      split; [|intros; now apply K1]. rewrite V1. destruct (eq_dec q _); [contradiction|]. destruct (eq_dec q _); [contradiction|reflexivity].
    + intros p m H V. destruct (eq_dec p (P k)) as [->|N].
      * exists (L id k), (touch now m), []. split; [apply lp_L|]. rewrite V1. destruct (eq_dec _ _); [|contradiction]. rewrite V. split; [reflexivity|]. now rewrite app_nil_r.
      * exists p, m, []. split; [exact H|]. rewrite app_nil_r. split; [|reflexivity]. rewrite V1. destruct (eq_dec p _) as [->|]; [congruence|]. destruct (eq_dec p _); [contradiction|exact V].
    + reflexivity.
    + intros id' m. rewrite V1. destruct (eq_dec (L id' k) (L id k)) as [Q|].
      * apply L_inj in Q as [-> _]. rewrite Hv. cbn. intros V. injection V as <-. right. split; [reflexivity|]. split; [reflexivity|]. cbn. exact It.
      * destruct (eq_dec _ _); [discriminate|]. intros V. destruct (A id' m V) as [H|(_ & H & _)]; [now left|discriminate].
    + intros id' t. rewrite !V1. destruct (eq_dec (B id' k t) (L id k)) as [Q|]; [destruct (B_L stamp st base _ _ _ _ _ Ik Ik Q)|].
      destruct (eq_dec (B id' k t) (P k)) as [Q|]; [destruct (BP' _ _ _ _ Q)|]. intros V. destruct (Bk id' t V) as [X Y]. split; [exact X|]. intros m.
      destruct (eq_dec _ _); [rewrite Hv; cbn; intros V'; injection V' as <-; cbn; lia|]. destruct (eq_dec _ _); [discriminate|apply Y].
    + cbn [current]. exists (touch now n), x. split; [|split; [exact Ht|exact It]]. rewrite V1. destruct (eq_dec _ _); [now rewrite Hv|contradiction].
  - (* Reopen *)
    destruct C as (n & x & Hv & Ht & Hc). rewrite app_nil_r. assert (O := open_spec (L id k) now d S). destruct (open_append (L id k) now d) as [d1 i]. destruct O as (S1 & N1 & V1 & K1).
    assert (V2 : forall q, view d1 q = view d q) by (intros q; rewrite V1; destruct (eq_dec q (L id k)) as [->|]; [now rewrite Hv|reflexivity]).
    eexists d1, _. split; [reflexivity|]. split; [exact S1|]. split; [|split; [|split; [|split; [|split]]]].
    + intros q H. split; [apply V2|intros; now apply K1].
    + intros p m H V. exists p, m, []. split; [exact H|]. rewrite app_nil_r, V2. now split.
    + intros k' N. now rewrite update_other.
    + intros id' m. rewrite V2. apply A.
    + intros id' t. rewrite !V2. apply Bk.
    + cbn [current]. rewrite update_same. exists i, n, x. split; [reflexivity|]. split; [exact N1|]. rewrite V2. split; [exact Hv|]. now split.
Qed.

Definition inv (ph : string -> phase) (W : string -> list string) (d : disk) (l : locals) : Prop :=
  sound d /\ forall k, In k kinds -> inv_k k (ph k) (W k) d (l k).
Definition set_phase (ph : string -> phase) (k : string) (p : phase) : string -> phase := fun k' => if String.eqb k' k then p else ph k'.
Fixpoint typed (ph : string -> phase) (l : list op) : Prop :=
  match l with
  | [] => True
  | o :: t => In (kind_of o) kinds /\ in_time T E o /\ exists p, trans o (ph (kind_of o)) = Some p /\ typed (set_phase ph (kind_of o) p) t
  end.
Lemma typed_ext ph ph' l : (forall k, ph k = ph' k) -> typed ph l -> typed ph' l.
Proof.
  revert ph ph'. induction l as [|o l IH]; intros ph ph' X H; [exact H|]. destruct H as (A & C & p & Tr & H). split; [exact A|]. split; [exact C|]. exists p.
  rewrite <- X. split; [exact Tr|]. eapply IH; [|exact H]. intros k. unfold set_phase. destruct (String.eqb k (kind_of o)); [reflexivity|apply X].
Qed.
Lemma typed_firstn n : forall ph l, typed ph l -> typed ph (firstn n l).
Proof.
  induction n as [|n IH]; intros ph l H; [exact I|]. destruct l as [|o l]; [exact I|]. destruct H as (A & C & p & Tr & H). cbn. split; [exact A|]. split; [exact C|].
  exists p. split; [exact Tr|apply IH, H].
Qed.
Lemma written_app k a b : written k (a ++ b) = written k a ++ written k b. Proof. apply flat_map_app. Qed.
Lemma inv_k_words k ph W W' d s : W = W' -> inv_k k ph W d s -> inv_k k ph W' d s. Proof. now intros ->. Qed.
Lemma performs : forall l ph W d (ls : locals), inv ph W d ls -> typed ph l ->
  exists d1 l1 ph1, perform stamp base id l (d, ls) = Some (d1, l1) /\ inv ph1 (fun k => W k ++ written k l) d1 l1 /\ forall k, In k kinds -> grow k d d1.
Proof.
  induction l as [|o l IH]; intros ph W d ls IV Ty.
  - exists d, ls, ph. split; [reflexivity|]. split; [|intros; apply grow_refl]. destruct IV as [S IV]. split; [exact S|]. intros k Ik. cbn. rewrite app_nil_r. now apply IV.
  - destruct Ty as (Ik & It & p & Tr & Ty). destruct IV as [S IV].
    destruct (one_step o _ p _ d ls Ik It Tr S (IV _ Ik)) as (d1 & l1 & Es & S1 & F & G & Lo & I1).
    assert (IV1 : inv (set_phase ph (kind_of o) p) (fun k => W k ++ written k [o]) d1 l1).
    { split; [exact S1|]. intros k Ik'. unfold set_phase. destruct (String.eqb_spec k (kind_of o)) as [->|N].
      - eapply inv_k_words; [|exact I1]. f_equal. destruct o; cbn; try reflexivity. now rewrite String.eqb_refl.
      - rewrite Lo by exact N. apply (inv_frame (kind_of o) k _ _ d); [exact Ik|exact Ik'|congruence|exact F|]. eapply inv_k_words; [|now apply IV].
        destruct o; cbn; try now rewrite app_nil_r. cbn in N. destruct (String.eqb_spec k0 k); [congruence|now rewrite app_nil_r]. }
    destruct (IH _ _ d1 l1 IV1 Ty) as (d2 & l2 & ph2 & Ep & IV2 & G2). exists d2, l2, ph2. cbn [perform]. rewrite Es. split; [exact Ep|]. split.
    + destruct IV2 as [S2 IV2]. split; [exact S2|]. intros k Ik'. eapply inv_k_words; [|now apply IV2]. cbn beta. rewrite <- app_assoc, <- written_app. reflexivity.
    + intros k Ik'. apply grow_trans with d1; [|now apply G2]. destruct (eq_dec (kind_of o) k) as [<-|N]; [exact G|]. now apply frame_grow with (kind_of o).
Qed.

(** the messages written so far are in a log *)
Lemma current_holds k ph W d s : W <> [] -> current k ph W d s -> holds stamp base k d W.
Proof.
  intros NE C. assert (G : forall p n x, lp k p -> view d p = Some n -> text n = x ++ W -> holds stamp base k d W).
  { intros p n x H V Q. exists p, x, []. split; [exact H|]. rewrite contents_view, V, app_nil_r. cbn. now rewrite Q. }
  destruct ph; cbn [current] in C.
  - contradiction.
  - destruct C as (i & n & x & _ & _ & V & Q). exact (G _ _ _ (lp_P k) V Q).
  - destruct C as (n & x & V & Q & _). exact (G _ _ _ (lp_P k) V Q).
  - destruct C as (n & x & V & Q & _). exact (G _ _ _ (lp_P k) V Q).
  - destruct C as (n & x & V & Q & _). exact (G _ _ _ (lp_P k) V Q).
  - destruct C as (n & x & V & Q & _). exact (G _ _ _ (lp_L id k) V Q).
  - destruct C as (i & n & x & _ & _ & V & Q & _). exact (G _ _ _ (lp_L id k) V Q).
Qed.
End Run.
End Runs.
