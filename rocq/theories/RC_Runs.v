(** Histories of interrupted runs, and whole runs against RL_Model. *)
From Coq Require Import String Sorted.
From Verif Require Import PyBase PyLib RL_Model RL_Spec RL_Proofs RC_Model RC_Spec RC_Proofs.
Local Open Scope string_scope.
Local Open Scope list_scope.

Section Runs.
Variable stamp : nat -> string.
Hypothesis st : stamps stamp.
Variable base : list string.
Notation P := (P base).
Notation L := (L base).
Notation B := (B stamp base).

(** ** The operations of a run come in the order of the phases *)
Definition ready (ph : string -> phase) : Prop := forall k, In k kinds -> ph k = PBase \/ ph k = PRun.
Lemma set_same ph k k' : set_phase ph k (ph k) k' = ph k'.
Proof. unfold set_phase. now destruct (String.eqb_spec k' k) as [->|]. Qed.
Lemma typed_say T E ph msgs rest : ready ph -> (forall t m, In (t, m) msgs -> (T < t <= E)%nat) -> typed T E ph rest -> typed T E ph (flat_map say msgs ++ rest).
Proof.
  intros R. induction msgs as [|[t m] ms IH]; intros H Ty; [exact Ty|]. cbn.
  assert (K1 : In "kpex_plain" kinds) by now left. assert (K2 : In "kpex" kinds) by (right; now left).
  assert (W : forall k, In k kinds -> trans (Write k t m) (ph k) = Some (ph k)) by (intros k Ik; destruct (R k Ik) as [->| ->]; reflexivity).
  split; [exact K1|]. split; [apply (H t m); now left|]. exists (ph "kpex_plain"). split; [exact (W _ K1)|].
  split; [exact K2|]. split; [apply (H t m); now left|]. exists (ph "kpex").  split; [exact (W _ K2)|].
  eapply typed_ext; [|apply IH; [intros; eapply H; right; eassumption|exact Ty]]. intros k. unfold set_phase. destruct (String.eqb_spec k "kpex") as [->|]; [reflexivity|].
  now destruct (String.eqb_spec k "kpex_plain") as [->|].
Qed.
Lemma typed_rereg T E ph k now rest : In k kinds -> (T < now <= E)%nat -> ph k = PBase -> typed T E (set_phase ph k PRun) rest -> typed T E ph (reregister_ops now k ++ rest).
Proof.
  intros Ik H Q Ty. cbn [reregister_ops app typed kind_of in_time]. assert (X : forall f p, set_phase f k p k = p) by (intros; unfold set_phase; now rewrite String.eqb_refl).
  split; [exact Ik|]. split; [exact I|]. exists PChecked. rewrite Q. split; [reflexivity|].
  split; [exact Ik|]. split; [exact I|]. exists PTimed. rewrite X. split; [reflexivity|].
  split; [exact Ik|]. split; [exact H|]. exists PBacked. rewrite X. split; [reflexivity|].
  split; [exact Ik|]. split; [exact H|]. exists PMoved. rewrite X. split; [reflexivity|].
  split; [exact Ik|]. split; [exact H|]. exists PRun. rewrite X. split; [reflexivity|].
  eapply typed_ext; [|exact Ty]. intros k'. unfold set_phase. now destruct (String.eqb k' k).
Qed.
Lemma last_max l : StronglySorted le l -> forall t, In t l -> (t <= last l 0)%nat.
Proof.
  induction l as [|x l IH]; intros H t []; [subst; now apply sorted_last|]. inversion H as [|? ? H' F]; subst. destruct l as [|y l]; [contradiction|]. rewrite last_cons2. now apply IH.
Qed.
Lemma in_times T j : (T < opened_at j)%nat -> StronglySorted le (times j) -> forall t, In t (times j) -> (T < t <= ended j)%nat.
Proof.
  intros H S t It. split; [|now apply last_max]. inversion S as [|? ? _ F]; subst. destruct It as [<-|It]; [exact H|]. rewrite Forall_forall in F. specialize (F t It). lia.
Qed.
Lemma typed_ops T j : (T < opened_at j)%nat -> StronglySorted le (times j) -> typed T (ended j) (fun _ => PNew) (ops j).
Proof.
  intros H S. assert (IT := in_times T j H S). assert (K1 : In "kpex_plain" kinds) by now left. assert (K2 : In "kpex" kinds) by (right; now left).
  assert (H0 : (T < opened_at j <= ended j)%nat) by (apply IT; now left).
  unfold ops. cbn [app]. split; [exact K1|]. split; [exact H0|]. exists PBase. split; [reflexivity|]. split; [exact K2|]. split; [exact H0|]. exists PBase. split; [reflexivity|].
  assert (Hb : forall t m, In (t, m) (before j) -> (T < t <= ended j)%nat).
  { intros t m Q. apply IT. right. apply in_or_app. left. exact (in_map fst _ _ Q). }
  apply typed_say; [|exact Hb|]. { intros k [<-|[<-|[]]]; left; reflexivity. }
  destruct (run_id j); [|exact I].
  assert (Hm : (T < moved_at j <= ended j)%nat) by (apply IT; right; apply in_or_app; right; now left).
  apply typed_rereg; [exact K1|exact Hm|reflexivity|]. apply typed_rereg; [exact K2|exact Hm|reflexivity|].
  rewrite <- (app_nil_r (flat_map say (after j))). apply typed_say; [|intros t m Q; apply IT; right; apply in_or_app; right; right; exact (in_map fst _ _ Q)|exact I].
  intros k [<-|[<-|[]]]; right; reflexivity.
Qed.

(** ** Between runs *)
Definition rest (T : nat) (d : disk) : Prop :=
  sound d /\ forall k, In k kinds ->
    (forall id n, view d (L id k) = Some n -> (changed n <= T)%nat) /\
    (forall id t, view d (B id k t) <> None -> (t <= T)%nat /\ forall n, view d (L id k) = Some n -> (t < changed n)%nat).
Lemma rest_inv T E id d : rest T d -> inv stamp base id T E (fun _ => PNew) (fun _ => []) d start.
Proof.
  intros [S R]. split; [exact S|]. intros k Ik. destruct (R k Ik) as [A C]. split; [|split]; [|exact C|reflexivity]. intros id' n V. left. exact (A id' n V).
Qed.
Lemma inv_rest T E id ph W d l : (T <= E)%nat -> inv stamp base id T E ph W d l -> rest E d.
Proof.
  intros H [S I]. split; [exact S|]. intros k Ik. destruct (I k Ik) as (A & C & _). split.
  - intros id' n V. destruct (A id' n V) as [Q|(_ & _ & Q)]; lia.
  - intros id' t V. destruct (C id' t V) as [Q R]. split; [lia|exact R].
Qed.
Lemma no_logs_rest T d : sound d -> no_logs stamp base d -> rest T d.
Proof.
  intros S N. assert (V : forall k p, In k kinds -> log_path stamp base k p -> view d p = None).
  { intros k p I H. specialize (N k p I H). rewrite contents_view in N. destruct (view d p); [discriminate|reflexivity]. }
  split; [exact S|]. intros k Ik. split.
  - intros id n H. rewrite (V k _ Ik (lp_L stamp base id k)) in H. discriminate.
  - intros id t H. exfalso. apply H. exact (V k _ Ik (lp_B stamp base id k t)).
Qed.
Lemma crash_one T j n d : rest T d -> (T < opened_at j)%nat -> StronglySorted le (times j) ->
  exists d1 l, perform stamp base (dir j) (firstn n (ops j)) (d, start) = Some (d1, l) /\ rest (ended j) d1 /\
    (forall k, In k kinds -> grow stamp base k d d1) /\
    (forall k, In k kinds -> written k (firstn n (ops j)) <> [] -> holds stamp base k d1 (written k (firstn n (ops j)))).
Proof.
  intros R H S. destruct (performs stamp st base (dir j) T (ended j) (firstn n (ops j)) _ _ d start (rest_inv T (ended j) (dir j) d R) (typed_firstn _ _ n _ _ (typed_ops T j H S)))
    as (d1 & l1 & ph1 & E & I & G).
  exists d1, l1. split; [exact E|]. split; [|split; [exact G|]].
  - eapply inv_rest; [|exact I]. destruct (ended_bounds j S) as [Q _]. lia.
  - intros k Ik NE. destruct I as [_ I]. destruct (I k Ik) as (_ & _ & C). exact (current_holds stamp base (dir j) T (ended j) k (ph1 k) _ d1 (l1 k) NE C).
Qed.
Lemma holds_grow k d d1 m : grow stamp base k d d1 -> holds stamp base k d m -> holds stamp base k d1 m.
Proof.
  intros G (p & x & y & H & C). rewrite contents_view in C. destruct (view d p) as [n|] eqn:V; [|discriminate]. injection C as C.
  destruct (G p n H V) as (p' & n' & z & H' & V' & Q). exists p', x, (y ++ z). split; [exact H'|]. rewrite contents_view, V'. cbn. rewrite Q, C, !app_assoc. reflexivity.
Qed.
Lemma crash_history : forall runs T d, rest T d -> one_by_one T (map fst runs) ->
  exists d1 T1, crash_all stamp base runs d = Some d1 /\ rest T1 d1 /\ (T <= T1)%nat /\ (forall j n, In (j, n) runs -> (ended j <= T1)%nat) /\
    (forall k m, In k kinds -> holds stamp base k d m -> holds stamp base k d1 m) /\
    (forall k j n, In k kinds -> In (j, n) runs -> written k (firstn n (ops j)) <> [] -> holds stamp base k d1 (written k (firstn n (ops j)))).
Proof.
  induction runs as [|[j n] rs IH]; intros T d R O.
  - exists d, T. split; [reflexivity|]. split; [exact R|]. split; [lia|]. split; [intros ? ? []|]. split; [auto|intros ? ? ? _ []].
  - cbn [map fst one_by_one] in O. destruct O as (H & S & O). destruct (crash_one T j n d R H S) as (d1 & l1 & E & R1 & G & W). destruct (ended_bounds j S) as [Q _].
    destruct (IH (ended j) d1 R1 O) as (d2 & T2 & E2 & R2 & L2 & LE & K2 & W2). exists d2, T2. cbn [crash_all]. rewrite E.
    split; [exact E2|]. split; [exact R2|]. split; [lia|]. split; [|split].
    + intros j' n' [X|X]; [injection X as <- <-; exact L2|exact (LE j' n' X)].
    + intros k m Ik Hm. apply K2; [exact Ik|]. exact (holds_grow k d d1 m (G k Ik) Hm).
    + intros k j' n' Ik [X|X] NE; [injection X as <- <-; apply K2; [exact Ik|exact (W k Ik NE)]|exact (W2 k j' n' Ik X NE)].
Qed.

(** ** A run that is not interrupted does what RL_Model says *)
Lemma perform_cons id o t s s1 : step stamp base id o s = Some s1 -> perform stamp base id (o :: t) s = perform stamp base id t s1.
Proof. intros H. cbn [perform]. now rewrite H. Qed.
Lemma say_perform id a b msgs : forall d (l : locals) more, handler (l "kpex_plain") = Some a -> handler (l "kpex") = Some b ->
  perform stamp base id (flat_map say msgs ++ more) (d, l) = perform stamp base id more (log_all [a; b] msgs d, l).
Proof.
  induction msgs as [|tm ms IH]; intros d l more Ha Hb; [reflexivity|]. cbn [flat_map app say perform]. cbn [step]. rewrite Ha. cbn [step]. rewrite Hb.
  exact (IH _ l more Ha Hb).
Qed.
Lemma rereg_perform id k now d (l : locals) i n hs more : In k kinds -> sound d -> dget (names d) (P k) = Some i -> view d (P k) = Some n ->
  exists d1 i1 (l1 : locals), reregister stamp base (base ++ [id]) k i now (d, hs) = (d1, remove_handler i hs ++ [i1]) /\ handler (l1 k) = Some i1 /\ (forall k', k' <> k -> l1 k' = l k') /\
    perform stamp base id (reregister_ops now k ++ more) (d, l) = perform stamp base id more (d1, l1).
Proof.
  intros Ik S Hi Hv. unfold reregister, reregister_ops. cbn [app]. fold (P k) (L id k).
  destruct (dget (names d) (L id k)) as [a|] eqn:Na.
  - destruct (view_named d _ a S Na) as (o & Vo & No). rewrite No. fold (B id k (changed o)).
    assert (NLB : L id k <> B id k (changed o)) by (intros Q; symmetry in Q; exact (B_L stamp st base _ _ _ _ _ Ik Ik Q)).
    destruct (move_spec (L id k) (B id k (changed o)) now d S NLB ltac:(congruence)) as (S1 & V1 & K1). 
    assert (Np : dget (names (move (L id k) (B id k (changed o)) now d)) (P k) = Some i) by (apply K1; [exact Hi|apply P_L|apply P_B]).
    set (d1 := move (L id k) (B id k (changed o)) now d) in *.
    destruct (open_append (L id k) now (move (P k) (L id k) now d1)) as [d2 i2] eqn:O.
    exists d2, i2, (update (update (update l k (State None true 0)) k (State None true (changed o))) k (State (Some i2) false 0)). split; [reflexivity|]. split; [now rewrite update_same|]. split; [|].
    2:{ erewrite perform_cons by (cbn [step]; fold (L id k); rewrite Na; reflexivity).
        erewrite perform_cons by (cbn [step]; rewrite update_same; cbn [there]; fold (L id k); rewrite Na, No; reflexivity).
        erewrite perform_cons by (cbn [step]; rewrite update_same; cbn [there since]; fold (L id k) (B id k (changed o)); rewrite Na; reflexivity).
        fold d1. erewrite perform_cons by (cbn [step]; fold (P k) (L id k); rewrite Np; reflexivity).
        erewrite perform_cons by (cbn [step]; fold (L id k); rewrite O; reflexivity). reflexivity. }
    intros k' N. now rewrite !update_other.
  - destruct (open_append (L id k) now (move (P k) (L id k) now d)) as [d2 i2] eqn:O.
    exists d2, i2, (update (update l k (State None false 0)) k (State (Some i2) false 0)). split; [reflexivity|]. split; [now rewrite update_same|]. split; [|].
    2:{ erewrite perform_cons by (cbn [step]; fold (L id k); rewrite Na; reflexivity).
        erewrite perform_cons by (cbn [step]; rewrite update_same; reflexivity).
        erewrite perform_cons by (cbn [step]; rewrite update_same; reflexivity).
        erewrite perform_cons by (cbn [step]; fold (P k) (L id k); rewrite Hi; reflexivity).
        erewrite perform_cons by (cbn [step]; fold (L id k); rewrite O; reflexivity). reflexivity. }
    intros k' N. now rewrite !update_other.
Qed.
Lemma whole_run j d : sound d -> exists l, perform stamp base (dir j) (ops j) (d, start) = Some (fst (run_job stamp base j (d, [])), l).
Proof.
  intros S. destruct (pre_run base j d S) as (d0 & i1 & i2 & E & S0 & E1 & E2 & Ne & V0 & O0).
  unfold ops, run_job. fold (P "kpex_plain") (P "kpex"). cbn [app perform step]. fold (P "kpex_plain").
  destruct (open_append (P "kpex_plain") _ d) as [da ia]. cbn [perform step]. fold (P "kpex"). destruct (open_append (P "kpex") _ da) as [db ib].
  cbn [app] in *. injection E as E -> ->. set (l0 := update _ "kpex" _).
  rewrite (say_perform _ i1 i2 _ db l0 _ eq_refl eq_refl), E. unfold dir. destruct (run_id j) as [id|]; [|exists l0; reflexivity].
  assert (K1 : In "kpex_plain" kinds) by now left. assert (K2 : In "kpex" kinds) by (right; now left).
  set (tl := reregister_ops (moved_at j) "kpex" ++ flat_map say (after j)).
  destruct (rereg_perform id "kpex_plain" (moved_at j) d0 l0 i1 _ [i1; i2] tl K1 S0 E1 (V0 _ K1)) as (d1 & a & l1 & R1 & H1 & F1 & Q1).
  rewrite Q1, R1. clear Q1.
  destruct (rereg stamp st base id "kpex_plain" i1 (moved_at j) d0 [i1; i2] _ K1 S0 E1 (V0 _ K1)) as (d1' & a' & R1' & S1 & N1 & _ & _ & _ & Oth).
  rewrite R1 in R1'. injection R1' as <- Ea. apply app_inj_tail in Ea as [_ <-].
  destruct (Oth (P "kpex")) as [VP NP]. { apply P_L. } { intros H. apply P_inj in H. discriminate. } { intros o _. apply P_B. } rewrite (V0 _ K2) in VP.
  replace (remove_handler i1 [i1; i2]) with [i2] by (cbn; rewrite Nat.eqb_refl; reflexivity).
  destruct (rereg_perform id "kpex" (moved_at j) d1 l1 i2 _ ([i2] ++ [a]) (flat_map say (after j)) K2 S1 (NP _ E2) VP) as (d2 & b & l2 & R2 & H2 & F2 & Q2).
  unfold tl. rewrite Q2, R2. replace (remove_handler i2 ([i2] ++ [a])) with [a] by (cbn; rewrite Nat.eqb_refl; reflexivity).
  exists l2. rewrite <- (app_nil_r (flat_map say (after j))). rewrite (say_perform id a b); [reflexivity| |exact H2]. rewrite F2 by discriminate. exact H1.
Qed.
End Runs.
