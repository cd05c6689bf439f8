(** Proofs about the log files. *)
From Coq Require Import String Ascii Sorted.
From Verif Require CL_Proofs.
From Verif Require Import PyBase PyLib RL_Model RL_Spec.
Local Open Scope string_scope.
Local Open Scope list_scope.

(** * Files by path *)
Definition view (d : disk) (p : list string) : option node :=
  match dget (names d) p with Some i => dget (nodes d) i | None => None end.

Lemma contents_view d p : contents d p = option_map text (view d p).
Proof. unfold contents, view. destruct (dget (names d) p) as [i|]; [|reflexivity]. destruct (dget (nodes d) i); reflexivity. Qed.

Lemma view_named d p i : sound d -> dget (names d) p = Some i -> exists n, view d p = Some n /\ dget (nodes d) i = Some n.
Proof. intros (_ & H & _) E. destruct (H p i E) as [_ [n En]]. exists n. unfold view. rewrite E. split; exact En. Qed.

Lemma view_none d p : sound d -> view d p = None -> dget (names d) p = None.
Proof.
  intros S V. destruct (dget (names d) p) as [i|] eqn:E; [|reflexivity]. destruct (view_named d p i S E) as (n & Vn & _). congruence.
Qed.

(** writing to a file by number *)
Lemma on_node_names i f d : names (on_node i f d) = names d.
Proof. unfold on_node. destruct (dget (nodes d) i); reflexivity. Qed.
Lemma on_node_sound i f d : sound d -> sound (on_node i f d).
Proof.
  unfold on_node. destruct (dget (nodes d) i) as [m|] eqn:E; [|tauto]. intros (W & H & J). split; [exact W|]. split; [|exact J].
  cbn. intros p k Hk. destruct (H p k Hk) as [L [n En]]. split; [exact L|]. rewrite dget_dset. destruct (eq_dec k i); eauto.
Qed.
Lemma on_node_view i f d p q : sound d -> dget (names d) p = Some i ->
  view (on_node i f d) q = if eq_dec q p then option_map f (view d p) else view d q.
Proof.
  intros S E. destruct (view_named d p i S E) as (n & V & N). unfold on_node. rewrite N, V. unfold view. cbn [names nodes option_map].
  destruct (eq_dec q p) as [->|Q].
  - rewrite E, dget_dset_same. reflexivity.
  - destruct (dget (names d) q) as [k|] eqn:K; [|reflexivity]. rewrite dget_dset_other; [reflexivity|]. intros ->.
    destruct S as (_ & _ & J). exact (Q (J q p i K E)).
Qed.

(** opening *)
Definition or_new (o : option node) (now : nat) : node := match o with Some n => n | None => Node [] now end.
Lemma open_spec p now d : sound d ->
  let (d1, i) := open_append p now d in
  sound d1 /\ dget (names d1) p = Some i /\ (forall q, view d1 q = if eq_dec q p then Some (or_new (view d p) now) else view d q) /\
  (forall q k, dget (names d) q = Some k -> dget (names d1) q = Some k).
Proof.
  intros S. unfold open_append. destruct (dget (names d) p) as [i|] eqn:E.
  - split; [exact S|]. split; [exact E|]. split; [|tauto]. intros q. destruct (eq_dec q p) as [->|]; [|reflexivity].
    destruct (view_named d p i S E) as (n & V & _). rewrite V. reflexivity.
  - destruct S as (W & H & J). split; [split; [|split]|split; [|split]]; cbn.
    + apply dwf_dset, W.
    + intros q k. rewrite dget_dset. destruct (eq_dec q p).
      * intros K. injection K as <-. split; [lia|]. rewrite dget_dset_same. eauto.
      * intros K. destruct (H q k K) as [L [n1 Hn]]. split; [lia|]. exists n1. rewrite dget_dset_other; [exact Hn|]. lia.
    + intros q r k. rewrite !dget_dset. destruct (eq_dec q p), (eq_dec r p); intros K1 K2; subst; try reflexivity.
      * injection K1 as <-. destruct (H r _ K2). lia.
      * injection K2 as <-. destruct (H q _ K1). lia.
      * exact (J q r k K1 K2).
    + apply dget_dset_same.
    + intros q. unfold view. cbn. rewrite dget_dset. destruct (eq_dec q p) as [->|Q].
      * rewrite dget_dset_same, E. reflexivity.
      * destruct (dget (names d) q) as [k|] eqn:K; [|reflexivity]. destruct (H q k K). rewrite dget_dset_other; [reflexivity|lia].
    + intros q k K. rewrite dget_dset_other; [exact K|]. congruence.
Qed.

(** renaming *)
Definition touch (now : nat) (n : node) : node := Node (text n) now.
Lemma move_spec src dst now d : sound d -> src <> dst -> view d src <> None ->
  sound (move src dst now d) /\
  (forall q, view (move src dst now d) q =
     if eq_dec q dst then option_map (touch now) (view d src) else if eq_dec q src then None else view d q) /\
  (forall q k, dget (names d) q = Some k -> q <> src -> q <> dst -> dget (names (move src dst now d)) q = Some k).
Proof.
  intros S Ne V. unfold move. destruct (dget (names d) src) as [i|] eqn:E; [|unfold view in V; rewrite E in V; destruct (V eq_refl)].
  set (d1 := Disk (dset (dremove (names d) src) dst i) (nodes d) (fresh d)).
  assert (N1 : forall q, dget (names d1) q = if eq_dec q dst then Some i else if eq_dec q src then None else dget (names d) q).
  { intros q. subst d1. cbn. rewrite dget_dset. destruct (eq_dec q dst); [reflexivity|]. apply dget_dremove. apply S. }
  assert (S1 : sound d1).
  { destruct S as (W & H & J). split; [apply dwf_dset, dwf_dremove, W|]. split.
    - intros q k. rewrite N1. destruct (eq_dec q dst); [intros K; injection K as <-; exact (H src i E)|].
      destruct (eq_dec q src); [discriminate|]. intros K. exact (H q k K).
    - intros q r k. rewrite !N1. destruct (eq_dec q dst), (eq_dec r dst), (eq_dec q src), (eq_dec r src); intros K1 K2; try congruence.
      + injection K1 as <-. pose proof (J _ _ _ K2 E). contradiction.
      + injection K2 as <-. pose proof (J _ _ _ K1 E). contradiction.
      + exact (J _ _ _ K1 K2). }
  assert (Nd : dget (names d1) dst = Some i) by (rewrite N1; destruct (eq_dec dst dst); [reflexivity|congruence]).
  split; [apply on_node_sound, S1|]. split.
  - intros q. rewrite (on_node_view i _ d1 dst q S1 Nd). destruct (eq_dec q dst) as [->|Q].
    + unfold view at 1. rewrite Nd. unfold view. rewrite E. reflexivity.
    + unfold view at 1. rewrite N1. destruct (eq_dec q dst); [contradiction|]. destruct (eq_dec q src); reflexivity.
  - intros q k K Q1 Q2. rewrite on_node_names, N1. destruct (eq_dec q dst); [contradiction|]. destruct (eq_dec q src); [contradiction|exact K].
Qed.

(** logging to two files *)
Definition adds (msgs : list (nat * string)) (n : node) : node :=
  fold_left (fun n tm => Node (text n ++ [snd tm]) (fst tm)) msgs n.

Lemma log_two i1 i2 p1 p2 msgs d : sound d -> dget (names d) p1 = Some i1 -> dget (names d) p2 = Some i2 -> p1 <> p2 ->
  sound (log_all [i1; i2] msgs d) /\ names (log_all [i1; i2] msgs d) = names d /\
  forall q, view (log_all [i1; i2] msgs d) q =
    if eq_dec q p1 then option_map (adds msgs) (view d p1) else if eq_dec q p2 then option_map (adds msgs) (view d p2) else view d q.
Proof.
  revert d. induction msgs as [|tm msgs IH]; intros d S E1 E2 Ne.
  - cbn. split; [exact S|]. split; [reflexivity|]. intros q. destruct (eq_dec q p1) as [->|]; [destruct (view d p1); reflexivity|].
    destruct (eq_dec q p2) as [->|]; [destruct (view d p2); reflexivity|reflexivity].
  - cbn [log_all fold_left]. fold (log_all [i1; i2] msgs (log1 [i1; i2] tm d)). cbn [log1 fold_left].
    set (f := fun n => Node (text n ++ [snd tm]) (fst tm)). set (da := on_node i1 f d). set (db := on_node i2 f da).
    assert (Sa : sound da) by (apply on_node_sound, S). assert (Sb : sound db) by (apply on_node_sound, Sa).
    assert (Na : names da = names d) by apply on_node_names. assert (Nb : names db = names d) by (unfold db; rewrite on_node_names; exact Na).
    assert (Va := fun q => on_node_view i1 f d p1 q S E1). fold da in Va.
    assert (Vb := fun q => on_node_view i2 f da p2 q Sa ltac:(rewrite Na; exact E2)). fold db in Vb.
    destruct (IH db Sb ltac:(rewrite Nb; exact E1) ltac:(rewrite Nb; exact E2) Ne) as (S' & N' & V').
    split; [exact S'|]. split; [rewrite N'; exact Nb|]. intros q. rewrite V', !Vb, !Va.
    destruct (eq_dec p1 p2); [contradiction|]. destruct (eq_dec p2 p1); [congruence|].
    destruct (eq_dec p1 p1); [|congruence]. destruct (eq_dec p2 p2); [|congruence].
    destruct (eq_dec q p1) as [->|]; [destruct (view d p1); reflexivity|].
    destruct (eq_dec q p2) as [->|]; [destruct (view d p2); reflexivity|reflexivity].
Qed.

Lemma adds_text msgs n : text (adds msgs n) = text n ++ map snd msgs.
Proof.
  revert n. induction msgs as [|tm msgs IH]; intros n; cbn; [symmetry; apply app_nil_r|]. fold (adds msgs (Node (text n ++ [snd tm]) (fst tm))).
  rewrite IH. cbn. rewrite <- app_assoc. reflexivity.
Qed.
Lemma adds_changed msgs n : changed (adds msgs n) = last (changed n :: map fst msgs) 0%nat.
Proof.
  revert n. induction msgs as [|tm msgs IH]; intros n; cbn [adds fold_left map]; [reflexivity|].
  fold (adds msgs (Node (text n ++ [snd tm]) (fst tm))). rewrite IH. cbn [changed]. reflexivity.
Qed.

(** * One run *)
Section Runs.
Variable stamp : nat -> string.
Hypothesis st : stamps stamp.
Variable base : list string.

Definition P (k : string) : list string := base ++ [log_file k].
Definition L (id k : string) : list string := (base ++ [id]) ++ [log_file k].
Definition B (id k : string) (t : nat) : list string := (base ++ [id]) ++ [backup_file stamp k t].

Lemma file_inj k k' : log_file k = log_file k' -> k = k'.
Proof. apply CL_Proofs.append_inj_l. Qed.
Lemma stamp_not_p t s : stamp t <> String "p" s.
Proof. destruct st as [D _]. destruct (D t) as (c & r & E & C). rewrite E. intros H. injection H as -> _. cbn in C. lia. Qed.
Lemma stamp_app_not_p t x s : (stamp t ++ x)%string <> String "p" s.
Proof. destruct st as [D _]. destruct (D t) as (c & r & E & C). rewrite E. cbn. intros H. injection H as -> _. cbn in C. lia. Qed.
Lemma backup_not_log k k' t : In k kinds -> In k' kinds -> backup_file stamp k t <> log_file k'.
Proof.
  unfold backup_file, log_file. intros [<-|[<-|[]]] [<-|[<-|[]]]; cbn [append]; intros H; try discriminate.
  injection H as H. exact (stamp_app_not_p _ _ _ H).
Qed.
Lemma backup_inj k k' t u : In k kinds -> In k' kinds -> backup_file stamp k t = backup_file stamp k' u -> k = k' /\ t = u.
Proof.
  unfold backup_file. intros [<-|[<-|[]]] [<-|[<-|[]]]; cbn [append]; intros H; injection H as H.
  1, 4: split; [reflexivity|]; apply CL_Proofs.append_inj_l in H; apply st, H.
  - symmetry in H. destruct (stamp_app_not_p _ _ _ H).
  - destruct (stamp_app_not_p _ _ _ H).
Qed.

Lemma P_inj k k' : P k = P k' -> k = k'.
Proof. unfold P. intros H. apply app_inj_tail in H as [_ H]. exact (file_inj _ _ H). Qed.
Lemma L_inj id k id' k' : L id k = L id' k' -> id = id' /\ k = k'.
Proof. unfold L. intros H. apply app_inj_tail in H as [H1 H]. apply app_inj_tail in H1 as [_ H1]. split; [exact H1|exact (file_inj _ _ H)]. Qed.
Lemma P_L id k k' : P k <> L id k'.
Proof. intros H. apply (f_equal (@List.length string)) in H. unfold P, L in H. rewrite !app_length in H. cbn in H. lia. Qed.
Lemma P_B id k k' t : P k <> B id k' t.
Proof. intros H. apply (f_equal (@List.length string)) in H. unfold P, B in H. rewrite !app_length in H. cbn in H. lia. Qed.
Lemma B_L id id' k k' t : In k kinds -> In k' kinds -> B id k t <> L id' k'.
Proof. unfold B, L. intros I I' H. apply app_inj_tail in H as [_ H]. exact (backup_not_log _ _ _ I I' H). Qed.
Lemma B_inj id id' k k' t u : In k kinds -> In k' kinds -> B id k t = B id' k' u -> id = id' /\ k = k' /\ t = u.
Proof.
  unfold B. intros I I' H. apply app_inj_tail in H as [H1 H]. apply app_inj_tail in H1 as [_ H1]. split; [exact H1|].
  apply backup_inj; assumption.
Qed.

Lemma rereg id k i now d hs n :
  In k kinds -> sound d -> dget (names d) (P k) = Some i -> view d (P k) = Some n ->
  exists d1 i1,
    reregister stamp base (base ++ [id]) k i now (d, hs) = (d1, remove_handler i hs ++ [i1]) /\
    sound d1 /\ dget (names d1) (L id k) = Some i1 /\ view d1 (L id k) = Some (touch now n) /\ view d1 (P k) = None /\
    (forall o, view d (L id k) = Some o -> view d1 (B id k (changed o)) = Some (touch now o)) /\
    (forall q, q <> L id k -> q <> P k -> (forall o, view d (L id k) = Some o -> q <> B id k (changed o)) ->
       view d1 q = view d q /\ (forall x, dget (names d) q = Some x -> dget (names d1) q = Some x)).
Proof.
  intros Ik S Ei Vn. unfold reregister. fold (P k) (L id k).
  set (d' := match dget (names d) (L id k) with Some _ => _ | None => d end).
  assert (X : sound d' /\ view d' (P k) = Some n /\
    (forall o, view d (L id k) = Some o -> view d' (B id k (changed o)) = Some (touch now o)) /\
    (forall q, q <> L id k -> q <> P k -> (forall o, view d (L id k) = Some o -> q <> B id k (changed o)) ->
       view d' q = view d q /\ (forall x, dget (names d) q = Some x -> dget (names d') q = Some x))).
  { unfold d'. destruct (dget (names d) (L id k)) as [il|] eqn:El.
    - destruct (view_named d _ _ S El) as (o & Vo & No). rewrite No. fold (B id k (changed o)).
      assert (NLB : L id k <> B id k (changed o)) by (intros H; symmetry in H; exact (B_L _ _ _ _ _ Ik Ik H)).
      destruct (move_spec (L id k) (B id k (changed o)) now d S NLB ltac:(congruence)) as (S' & V' & N').
      split; [exact S'|]. split; [|split].
      + rewrite V'. destruct (eq_dec (P k) (B id k (changed o))) as [H|_]; [destruct (P_B _ _ _ _ H)|].
        destruct (eq_dec (P k) (L id k)) as [H|_]; [destruct (P_L _ _ _ H)|exact Vn].
      + intros o' Ho'. assert (o' = o) by congruence. subst o'. rewrite V'. destruct (eq_dec _ _); [|contradiction]. rewrite Vo. reflexivity.
      + intros q Q1 Q2 Q3. specialize (Q3 o Vo). split.
        * rewrite V'. destruct (eq_dec q _); [contradiction|]. destruct (eq_dec q _); [contradiction|reflexivity].
        * intros x Hx. apply N'; assumption.
    - split; [exact S|]. split; [exact Vn|]. split; [|tauto]. intros o Vo. unfold view in Vo. rewrite El in Vo. discriminate. }
  destruct X as (S' & Vn' & Vb & Vo).
  destruct (move_spec (P k) (L id k) now d' S' (P_L _ _ _) ltac:(congruence)) as (S2 & V2 & N2).
  set (d2 := move (P k) (L id k) now d') in *.
  assert (O := open_spec (L id k) now d2 S2). destruct (open_append (L id k) now d2) as [d3 i3]. destruct O as (S3 & E3 & V3 & N3).
  exists d3, i3. split; [reflexivity|]. split; [exact S3|]. split; [exact E3|]. split; [|split; [|split]].
  - rewrite V3. destruct (eq_dec _ _); [|contradiction]. rewrite V2. destruct (eq_dec _ _); [|contradiction]. rewrite Vn'. reflexivity.
  - rewrite V3. destruct (eq_dec (P k) (L id k)) as [H|_]; [destruct (P_L _ _ _ H)|]. rewrite V2.
    destruct (eq_dec (P k) (L id k)) as [H|_]; [destruct (P_L _ _ _ H)|]. destruct (eq_dec _ _); [reflexivity|contradiction].
  - intros o Ho. rewrite V3. destruct (eq_dec (B id k (changed o)) (L id k)) as [H|_]; [destruct (B_L _ _ _ _ _ Ik Ik H)|].
    rewrite V2. destruct (eq_dec (B id k (changed o)) (L id k)) as [H|_]; [destruct (B_L _ _ _ _ _ Ik Ik H)|].
    destruct (eq_dec (B id k (changed o)) (P k)) as [H|_]; [symmetry in H; destruct (P_B _ _ _ _ H)|]. exact (Vb o Ho).
  - intros q Q1 Q2 Q3. destruct (Vo q Q1 Q2 Q3) as [W1 W2]. split.
    + rewrite V3. destruct (eq_dec q _); [contradiction|]. rewrite V2. destruct (eq_dec q _); [contradiction|]. destruct (eq_dec q _); [contradiction|].
      exact W1.
    + intros x Hx. apply N3, N2; [apply W2, Hx|assumption|assumption].
Qed.

(** before the move *)
Lemma pre_run j d : sound d ->
  exists d1 i1 i2,
    (let (d, plain) := open_append (P "kpex_plain") (opened_at j) d in
     let (d, formatted) := open_append (P "kpex") (opened_at j) d in
     (log_all ([] ++ [plain; formatted]) (before j) d, plain, formatted)) = (d1, i1, i2) /\
    sound d1 /\ dget (names d1) (P "kpex_plain") = Some i1 /\ dget (names d1) (P "kpex") = Some i2 /\ i1 <> i2 /\
    (forall k, In k kinds -> view d1 (P k) = Some (adds (before j) (or_new (view d (P k)) (opened_at j)))) /\
    (forall q, (forall k, In k kinds -> q <> P k) -> view d1 q = view d q).
Proof.
  intros S. assert (Ne : P "kpex_plain" <> P "kpex") by (intros H; apply P_inj in H; discriminate).
  assert (Oa := open_spec (P "kpex_plain") (opened_at j) d S). destruct (open_append (P "kpex_plain") _ d) as [da i1]. destruct Oa as (Sa & Ea & Va & Na).
  assert (Ob := open_spec (P "kpex") (opened_at j) da Sa). destruct (open_append (P "kpex") _ da) as [db i2]. destruct Ob as (Sb & Eb & Vb & Nb).
  assert (Ea' : dget (names db) (P "kpex_plain") = Some i1) by (apply Nb, Ea).
  destruct (log_two i1 i2 _ _ (before j) db Sb Ea' Eb Ne) as (S1 & N1 & V1).
  exists (log_all [i1; i2] (before j) db), i1, i2. split; [reflexivity|]. split; [exact S1|]. rewrite N1.
  split; [exact Ea'|]. split; [exact Eb|]. split; [intros <-; destruct Sb as (_ & _ & J); exact (Ne (J _ _ _ Ea' Eb))|]. split.
  - intros k [<-|[<-|[]]]; rewrite V1.
    + destruct (eq_dec _ _); [|contradiction]. rewrite Vb. destruct (eq_dec _ _) as [H|_]; [destruct (Ne H)|]. rewrite Va.
      destruct (eq_dec _ _); [reflexivity|contradiction].
    + destruct (eq_dec (P "kpex") (P "kpex_plain")) as [H|_]; [symmetry in H; contradiction|]. destruct (eq_dec _ _); [|contradiction].
      rewrite Vb. destruct (eq_dec _ _); [|contradiction]. rewrite Va.
      destruct (eq_dec (P "kpex") (P "kpex_plain")) as [H|_]; [symmetry in H; contradiction|reflexivity].
  - intros q Q. rewrite V1. pose proof (Q "kpex_plain" ltac:(left; reflexivity)). pose proof (Q "kpex" ltac:(right; left; reflexivity)).
    destruct (eq_dec q _); [contradiction|]. destruct (eq_dec q _); [contradiction|]. rewrite Vb. destruct (eq_dec q _); [contradiction|].
    rewrite Va. destruct (eq_dec q _); [contradiction|reflexivity].
Qed.

Lemma run_none j d : sound d -> run_id j = None ->
  let d1 := fst (run_job stamp base j (d, [])) in
  sound d1 /\ (forall k, In k kinds -> view d1 (P k) = Some (adds (before j) (or_new (view d (P k)) (opened_at j)))) /\
  (forall q, (forall k, In k kinds -> q <> P k) -> view d1 q = view d q).
Proof.
  intros S R. destruct (pre_run j d S) as (d1 & i1 & i2 & E & S1 & E1 & E2 & Ne & V & O).
  unfold run_job. fold (P "kpex_plain") (P "kpex"). destruct (open_append (P "kpex_plain") _ d) as [da ia]. destruct (open_append (P "kpex") _ da) as [db ib].
  rewrite R. cbn [fst app] in *. injection E as E -> ->. rewrite E. tauto.
Qed.

Lemma run_some j id d : sound d -> run_id j = Some id ->
  let d1 := fst (run_job stamp base j (d, [])) in
  sound d1 /\
  (forall k, In k kinds -> view d1 (L id k) =
     Some (adds (after j) (touch (moved_at j) (adds (before j) (or_new (view d (P k)) (opened_at j)))))) /\
  (forall k, In k kinds -> view d1 (P k) = None) /\
  (forall k o, In k kinds -> view d (L id k) = Some o -> view d1 (B id k (changed o)) = Some (touch (moved_at j) o)) /\
  (forall q, (forall k, In k kinds -> q <> P k /\ q <> L id k /\ (forall o, view d (L id k) = Some o -> q <> B id k (changed o))) ->
     view d1 q = view d q).
Proof.
  intros S R. destruct (pre_run j d S) as (d0 & i1 & i2 & E & S0 & E1 & E2 & Ne & V0 & O0).
  unfold run_job. fold (P "kpex_plain") (P "kpex"). destruct (open_append (P "kpex_plain") _ d) as [da ia]. destruct (open_append (P "kpex") _ da) as [db ib].
  rewrite R. cbn [app] in *. injection E as E -> ->. rewrite E. clear E da db.
  set (k1 := "kpex_plain") in *. set (k2 := "kpex") in *.
  assert (I1 : In k1 kinds) by (left; reflexivity). assert (I2 : In k2 kinds) by (right; left; reflexivity).
  assert (K : k1 <> k2) by discriminate.
  (* the logs of the run directory have not changed so far *)
  assert (VL : forall k, view d0 (L id k) = view d (L id k)).
  { intros k. apply O0. intros k' _ H. symmetry in H. exact (P_L _ _ _ H). }
  destruct (rereg id k1 i1 (moved_at j) d0 [i1; i2] _ I1 S0 E1 (V0 k1 I1)) as (da & ia & Ra & Sa & Ea & Va & Pa & Ba & Oa). rewrite Ra.
  replace (remove_handler i1 [i1; i2]) with [i2] by (cbn; rewrite Nat.eqb_refl; reflexivity).
  assert (Hq2 : forall q, q <> L id k1 -> q <> P k1 -> (forall o, view d (L id k1) = Some o -> q <> B id k1 (changed o)) ->
      view da q = view d0 q /\ (forall x, dget (names d0) q = Some x -> dget (names da) q = Some x)).
  { intros q Q1 Q2 Q3. apply Oa; [exact Q1|exact Q2|]. intros o Ho. rewrite VL in Ho. exact (Q3 o Ho). }
  destruct (Hq2 (P k2)) as [VP2 NP2]. { apply P_L. } { intros H. apply P_inj in H. congruence. } { intros o _. apply P_B. }
  destruct (Hq2 (L id k2)) as [VL2 NL2].
  { intros H. apply L_inj in H as [_ H]. congruence. } { intros H. symmetry in H. exact (P_L _ _ _ H). }
  { intros o _ H. symmetry in H. exact (B_L _ _ _ _ _ I1 I2 H). }
  rewrite VL in VL2. rewrite (V0 k2 I2) in VP2.
  destruct (rereg id k2 i2 (moved_at j) da ([i2] ++ [ia]) _ I2 Sa (NP2 _ E2) VP2) as (db & ib & Rb & Sb & Eb & Vb & Pb & Bb & Ob). rewrite Rb.
  replace (remove_handler i2 ([i2] ++ [ia])) with [ia] by (cbn; rewrite Nat.eqb_refl; reflexivity).
  assert (Hq3 : forall q, q <> L id k2 -> q <> P k2 -> (forall o, view d (L id k2) = Some o -> q <> B id k2 (changed o)) ->
      view db q = view da q /\ (forall x, dget (names da) q = Some x -> dget (names db) q = Some x)).
  { intros q Q1 Q2 Q3. apply Ob; [exact Q1|exact Q2|]. intros o Ho. rewrite VL2 in Ho. exact (Q3 o Ho). }
  destruct (Hq3 (L id k1)) as [VL1 NL1].
  { intros H. apply L_inj in H as [_ H]. congruence. } { intros H. symmetry in H. exact (P_L _ _ _ H). }
  { intros o _ H. symmetry in H. exact (B_L _ _ _ _ _ I2 I1 H). }
  destruct (Hq3 (P k1)) as [VP1 _]. { apply P_L. } { intros H. apply P_inj in H. congruence. } { intros o _. apply P_B. }
  assert (NeL : L id k1 <> L id k2) by (intros H; apply L_inj in H as [_ H]; congruence).
  destruct (log_two ia ib _ _ (after j) db Sb (NL1 _ Ea) Eb NeL) as (Sc & _ & Vc). cbn [fst app].
  split; [exact Sc|]. split; [|split; [|split]].
  - intros k [<-|[<-|[]]]; fold k1 k2; rewrite Vc.
    + destruct (eq_dec _ _); [|contradiction]. rewrite VL1, Va. reflexivity.
    + destruct (eq_dec (L id k2) (L id k1)) as [H|_]; [symmetry in H; contradiction|]. destruct (eq_dec _ _); [|contradiction]. rewrite Vb. reflexivity.
  - intros k Ik. rewrite Vc. destruct (eq_dec (P k) _) as [H|_]; [destruct (P_L _ _ _ H)|]. destruct (eq_dec (P k) _) as [H|_]; [destruct (P_L _ _ _ H)|].
    destruct Ik as [<-|[<-|[]]]; fold k1 k2; [rewrite VP1; exact Pa|exact Pb].
  - intros k o Ik Ho. rewrite Vc.
    destruct (eq_dec (B id k (changed o)) (L id k1)) as [H|_]; [destruct (B_L _ _ _ _ _ Ik I1 H)|].
    destruct (eq_dec (B id k (changed o)) (L id k2)) as [H|_]; [destruct (B_L _ _ _ _ _ Ik I2 H)|].
    destruct Ik as [<-|[<-|[]]]; fold k1 k2 in Ho |- *.
    + destruct (Hq3 (B id k1 (changed o))) as [W _].
      { apply B_L; assumption. } { intros H. symmetry in H. exact (P_B _ _ _ _ H). }
      { intros o' _ H. apply (B_inj _ _ _ _ _ _ I1 I2) in H as (_ & H & _). congruence. }
      rewrite W. apply Ba. rewrite VL. exact Ho.
    + apply Bb. rewrite VL2. exact Ho.
  - intros q Q. destruct (Q k1 I1) as (Q1 & Q2 & Q3). destruct (Q k2 I2) as (Q4 & Q5 & Q6). rewrite Vc.
    destruct (eq_dec q _); [contradiction|]. destruct (eq_dec q _); [contradiction|].
    rewrite (proj1 (Hq3 q Q5 Q4 Q6)), (proj1 (Hq2 q Q2 Q1 Q3)). apply O0. intros k Ik. exact (proj1 (Q k Ik)).
Qed.

(** * A history of runs *)
Definition inv (T : nat) (d : disk) : Prop :=
  sound d /\
  (forall id k n, In k kinds -> view d (L id k) = Some n -> (changed n <= T)%nat) /\
  (forall id k t, In k kinds -> view d (B id k t) <> None -> exists n, view d (L id k) = Some n /\ (t < changed n)%nat).

Lemma last_cons2 (x y : nat) l : last (x :: y :: l) 0%nat = last (y :: l) 0%nat.
Proof. reflexivity. Qed.
Lemma last_after (a : list nat) x b : last (a ++ x :: b) 0%nat = last (x :: b) 0%nat.
Proof. induction a as [|y a IH]; [reflexivity|]. cbn [app]. rewrite <- IH. destruct (a ++ x :: b) eqn:E; [destruct a; discriminate|reflexivity]. Qed.
Lemma sorted_last l x : StronglySorted le (x :: l) -> (x <= last (x :: l) 0)%nat.
Proof.
  intros H. inversion H as [|? ? _ F]; subst. destruct l as [|y l]; [cbn; lia|].
  rewrite last_cons2. apply (proj1 (Forall_forall _ _) F). clear. revert y. induction l as [|z l IH]; intros y; [left; reflexivity|].
  rewrite last_cons2. right. apply IH.
Qed.
Lemma sorted_tail (a b : list nat) : StronglySorted le (a ++ b) -> StronglySorted le b.
Proof. induction a as [|x a IH]; [tauto|]. cbn. intros H. inversion H; subst. apply IH. assumption. Qed.
Lemma ended_bounds j : StronglySorted le (times j) ->
  (opened_at j <= ended j)%nat /\ ended j = last (moved_at j :: map fst (after j)) 0%nat.
Proof.
  intros H. split; [exact (sorted_last _ _ H)|]. unfold ended, times. exact (last_after (opened_at j :: map fst (before j)) (moved_at j) _).
Qed.

Lemma log_path_cases k p : log_path stamp base k p <-> p = P k \/ (exists id, p = L id k) \/ (exists id t, p = B id k t).
Proof.
  unfold P, L, B. split.
  - intros [|id|id t]; [left; reflexivity| |]; right; [left; exists id|right; exists id, t]; rewrite <- app_assoc; reflexivity.
  - intros [->|[[id ->]|(id & t & ->)]]; [constructor| |]; rewrite <- app_assoc; [apply in_run_dir|apply backup].
Qed.

Lemma other_dir id id' k o : id' <> id -> forall k', In k' kinds -> In k kinds ->
  L id' k <> P k' /\ L id' k <> L id k' /\ L id' k <> B id k' o.
Proof.
  intros Ne k' I' I. split; [intros H; symmetry in H; exact (P_L _ _ _ H)|]. split; [intros H; apply L_inj in H as [H _]; contradiction|].
  intros H. symmetry in H. exact (B_L _ _ _ _ _ I' I H).
Qed.

Lemma inv_step T j d : inv T d -> (T < opened_at j)%nat -> StronglySorted le (times j) -> inv (ended j) (fst (run_job stamp base j (d, []))).
Proof.
  intros (S & V2 & V3) Lt So. destruct (ended_bounds j So) as [Oe El]. destruct (run_id j) as [id|] eqn:R.
  - destruct (run_some j id d S R) as (S1 & VL & VP & VB & VO). split; [exact S1|]. split.
    + intros id' k n Ik Hn. destruct (eq_dec id' id) as [->|Ne].
      * rewrite (VL k Ik) in Hn. injection Hn as <-. rewrite adds_changed. cbn [changed touch]. rewrite <- El. lia.
      * rewrite VO in Hn; [specialize (V2 id' k n Ik Hn); lia|]. intros k' Ik'.
        split; [apply (other_dir id id' k 0 Ne k' Ik' Ik)|]. split; [apply (other_dir id id' k 0 Ne k' Ik' Ik)|].
        intros o _. apply (other_dir id id' k (changed o) Ne k' Ik' Ik).
    + intros id' k t Ik Hn. destruct (eq_dec id' id) as [->|Ne].
      * eexists. split; [apply (VL k Ik)|]. rewrite adds_changed. cbn [changed touch]. rewrite <- El.
        destruct (view d (L id k)) as [o|] eqn:Vo.
        -- specialize (V2 id k o Ik Vo). destruct (Nat.eq_dec t (changed o)) as [->|Nt]; [lia|].
           rewrite VO in Hn.
           ++ destruct (V3 id k t Ik Hn) as (n & Hn' & Lt'). assert (n = o) by congruence. subst n. lia.
           ++ intros k' Ik'. split; [intros H; symmetry in H; exact (P_B _ _ _ _ H)|]. split; [apply B_L; assumption|].
              intros o' Ho' H. apply (B_inj _ _ _ _ _ _ Ik Ik') in H as (_ & <- & H). assert (o' = o) by congruence. subst o'. contradiction.
        -- rewrite VO in Hn.
           ++ destruct (V3 id k t Ik Hn) as (n & Hn' & _). congruence.
           ++ intros k' Ik'. split; [intros H; symmetry in H; exact (P_B _ _ _ _ H)|]. split; [apply B_L; assumption|].
              intros o' Ho' H. apply (B_inj _ _ _ _ _ _ Ik Ik') in H as (_ & <- & H). congruence.
      * rewrite VO in Hn.
        -- destruct (V3 id' k t Ik Hn) as (n & Hn' & Lt'). exists n. split; [|exact Lt']. rewrite VO; [exact Hn'|]. intros k' Ik'.
           split; [apply (other_dir id id' k 0 Ne k' Ik' Ik)|]. split; [apply (other_dir id id' k 0 Ne k' Ik' Ik)|].
           intros o _. apply (other_dir id id' k (changed o) Ne k' Ik' Ik).
        -- intros k' Ik'. split; [intros H; symmetry in H; exact (P_B _ _ _ _ H)|]. split; [apply B_L; assumption|].
           intros o' _ H. apply (B_inj _ _ _ _ _ _ Ik Ik') in H as (H & _). contradiction.
  - destruct (run_none j d S R) as (S1 & VP & VO). split; [exact S1|]. split.
    + intros id k n Ik Hn. rewrite VO in Hn; [specialize (V2 id k n Ik Hn); lia|]. intros k' _ H. symmetry in H. exact (P_L _ _ _ H).
    + intros id k t Ik Hn. rewrite VO in Hn; [|intros k' _ H; symmetry in H; exact (P_B _ _ _ _ H)].
      destruct (V3 id k t Ik Hn) as (n & Hn' & Lt'). exists n. split; [|exact Lt'].
      rewrite VO; [exact Hn'|]. intros k' _ H. symmetry in H. exact (P_L _ _ _ H).
Qed.

Lemma kept_new T j d k : inv T d -> In k kinds -> kept stamp base k (fst (run_job stamp base j (d, []))) j.
Proof.
  intros (S & V2 & V3) Ik. unfold kept, messages. destruct (run_id j) as [id|] eqn:R.
  - destruct (run_some j id d S R) as (S1 & VL & VP & VB & VO).
    exists (L id k), (text (or_new (view d (P k)) (opened_at j))), []. split; [apply log_path_cases; right; left; exists id; reflexivity|].
    rewrite contents_view, (VL k Ik). cbn [option_map]. rewrite adds_text. cbn [text touch]. rewrite adds_text, app_nil_r, <- app_assoc. reflexivity.
  - destruct (run_none j d S R) as (S1 & VP & VO).
    exists (P k), (text (or_new (view d (P k)) (opened_at j))), []. split; [apply log_path_cases; left; reflexivity|].
    rewrite contents_view, (VP k Ik). cbn [option_map]. rewrite adds_text, !app_nil_r. reflexivity.
Qed.

Lemma kept_step T j j0 d k : inv T d -> In k kinds -> kept stamp base k d j0 -> kept stamp base k (fst (run_job stamp base j (d, []))) j0.
Proof.
  intros (S & V2 & V3) Ik (p & x & y & Hp & C). rewrite contents_view in C.
  assert (Vp : exists n, view d p = Some n /\ text n = x ++ messages j0 ++ y).
  { destruct (view d p) as [n|]; [|discriminate]. exists n. split; [reflexivity|]. cbn in C. congruence. }
  destruct Vp as (n & Vn & Tn). clear C.
  assert (Same : forall q, log_path stamp base k q -> forall d1, view d1 q = Some n -> kept stamp base k d1 j0).
  { intros q Hq d1 Hd. exists q, x, y. split; [exact Hq|]. rewrite contents_view, Hd. cbn. congruence. }
  destruct (run_id j) as [id|] eqn:R.
  - destruct (run_some j id d S R) as (S1 & VL & VP & VB & VO).
    apply log_path_cases in Hp as [->|[[id' ->]|(id' & t & ->)]].
    + exists (L id k), x, (y ++ map snd (before j) ++ map snd (after j)). split; [apply log_path_cases; right; left; exists id; reflexivity|].
      rewrite contents_view, (VL k Ik), Vn. cbn [option_map or_new]. rewrite adds_text. cbn [text touch]. rewrite adds_text, Tn, <- !app_assoc. reflexivity.
    + destruct (eq_dec id' id) as [->|Ne].
      * exists (B id k (changed n)), x, y. split; [apply log_path_cases; right; right; eauto|].
        rewrite contents_view, (VB k n Ik Vn). cbn. congruence.
      * apply (Same (L id' k)); [apply log_path_cases; eauto|]. rewrite VO; [exact Vn|]. intros k' Ik'.
        split; [apply (other_dir id id' k 0 Ne k' Ik' Ik)|]. split; [apply (other_dir id id' k 0 Ne k' Ik' Ik)|].
        intros o _. apply (other_dir id id' k (changed o) Ne k' Ik' Ik).
    + apply (Same (B id' k t)); [apply log_path_cases; eauto|]. rewrite VO; [exact Vn|]. intros k' Ik'.
      split; [intros H; symmetry in H; exact (P_B _ _ _ _ H)|]. split; [apply B_L; assumption|].
      intros o' Ho' H. apply (B_inj _ _ _ _ _ _ Ik Ik') in H as (-> & <- & H).
      destruct (V3 id k t Ik ltac:(congruence)) as (m & Hm & Lt). assert (m = o') by congruence. subst m. lia.
  - destruct (run_none j d S R) as (S1 & VP & VO).
    apply log_path_cases in Hp as [->|[[id' ->]|(id' & t & ->)]].
    + exists (P k), x, (y ++ map snd (before j)). split; [apply log_path_cases; left; reflexivity|].
      rewrite contents_view, (VP k Ik), Vn. cbn [option_map or_new]. rewrite adds_text, Tn, <- !app_assoc. reflexivity.
    + apply (Same (L id' k)); [apply log_path_cases; eauto|]. rewrite VO; [exact Vn|]. intros k' _ H. symmetry in H. exact (P_L _ _ _ H).
    + apply (Same (B id' k t)); [apply log_path_cases; eauto|]. rewrite VO; [exact Vn|]. intros k' _ H. symmetry in H. exact (P_B _ _ _ _ H).
Qed.

Lemma history T jobs d : inv T d -> one_by_one T jobs ->
  forall k, In k kinds ->
  (forall j, In j jobs -> kept stamp base k (run_all stamp base jobs d) j) /\
  (forall j0, kept stamp base k d j0 -> kept stamp base k (run_all stamp base jobs d) j0).
Proof.
  intros I O k Ik. revert T d I O. induction jobs as [|j js IH]; intros T d I O; [split; [intros j []|tauto]|].
  destruct O as (Lt & So & O). cbn [run_all]. assert (I1 := inv_step T j d I Lt So).
  destruct (IH _ _ I1 O) as [H1 H2]. split.
  - intros j' [<-|H]; [|apply H1, H]. apply H2. exact (kept_new T j d k I Ik).
  - intros j0 K. apply H2. exact (kept_step T j j0 d k I Ik K).
Qed.

Lemma outside j d q : sound d -> (forall k, In k kinds -> ~ log_path stamp base k q) ->
  view (fst (run_job stamp base j (d, []))) q = view d q.
Proof.
  intros S N. destruct (run_id j) as [id|] eqn:R.
  - destruct (run_some j id d S R) as (S1 & VL & VP & VB & VO). apply VO. intros k Ik. specialize (N k Ik).
    split; [intros ->; apply N, log_path_cases; left; reflexivity|].
    split; [intros ->; apply N, log_path_cases; right; left; eauto|].
    intros o _ ->. apply N, log_path_cases. right. right. eauto.
  - destruct (run_none j d S R) as (S1 & VP & VO). apply VO. intros k Ik ->. apply (N k Ik), log_path_cases. left. reflexivity.
Qed.

Lemma run_sound j d : sound d -> sound (fst (run_job stamp base j (d, []))).
Proof.
  intros S. destruct (run_id j) as [id|] eqn:R; [exact (proj1 (run_some j id d S R))|exact (proj1 (run_none j d S R))].
Qed.
End Runs.
