(** Theorems about the FasterCap input of the shipped PDKs, for every layout. *)
From Coq Require Import String ZArith Lia Lqa.
From Verif Require Import PyBase PyLib QcLra SW_Model TI_Model TI_Spec TI_Proofs TI_Props PD_Model PD_Sky130A PD_Ihp PD_Spec.
From Verif Require PD_Proofs.
Local Open Scope string_scope.
Local Open Scope list_scope.

(** ** checks on a stack *)
Section Stack.
Variable stack : list slayer.
Definition refs : list (string * slayer) := flat_map (fun l => match reference_of l with Some r => [(r, l)] | None => [] end) stack.
Fixpoint index_of (n : string) (l : list string) : nat := match l with [] => O | x :: r => if eqb x n then S (List.length r) else index_of n r end.
(** a dielectric comes later than what it refers to *)
Definition rank (n : string) : nat := index_of n (rev (map s_name (filter is_dielectric stack))).
Definition ranked : bool := forallb (fun e => (rank (fst e) <? rank (s_name (snd e)))%nat) refs.
Lemma in_refs r l : In (r, l) refs <-> In l stack /\ reference_of l = Some r.
Proof.
  unfold refs. rewrite in_flat_map. split.
  - intros (x & I & J). destruct (reference_of x) eqn:E; [|destruct J]. destruct J as [J|[]]. injection J as <- <-. auto.
  - intros [I E]. exists l. split; [exact I|]. rewrite E. left. reflexivity.
Qed.
Lemma ranked_acyclic included : ranked = true -> acyclic stack included.
Proof.
  intros R. exists rank. intros n l (I & _ & E). unfold ranked in R. rewrite forallb_forall in R.
  specialize (R (n, l) (proj2 (in_refs n l) (conj I E))). apply Nat.ltb_lt in R. exact R.
Qed.
Lemma NoDup_filter_le1 {A} (key : A -> option string) (n : string) : forall l : list A,
  NoDup (flat_map (fun x => match key x with Some r => [r] | None => [] end) l) ->
  forall P, (forall x, P x = true -> key x = Some n) -> (List.length (filter P l) <= 1)%nat.
Proof.
  induction l as [|x l IH]; intros D P K; [simpl; lia|]. simpl in *. destruct (P x) eqn:E.
  - rewrite (K x E) in D. simpl in D. apply NoDup_cons_iff in D. destruct D as [N D].
    assert (Z : filter P l = []).
    { clear IH D. induction l as [|y l IH]; [reflexivity|]. simpl in *. destruct (P y) eqn:F; [|apply IH; intros J; apply N, in_or_app; auto].
      exfalso. apply N, in_or_app. left. rewrite (K y F). left. reflexivity. }
    rewrite Z. simpl. lia.
  - apply IH; [|exact K]. destruct (key x); simpl in D; [apply NoDup_cons_iff in D; apply D|exact D].
Qed.
(** no two dielectrics refer to the same layer *)
Definition unique_refs : bool := PD_Proofs.nodup_b (map fst refs).
Lemma refs_names : map fst refs = flat_map (fun x => match reference_of x with Some r => [r] | None => [] end) stack.
Proof. unfold refs. induction stack as [|x l IH]; [reflexivity|]. simpl. rewrite map_app, IH. destruct (reference_of x); reflexivity. Qed.
Lemma filter_filter {A} (f g : A -> bool) l : filter f (filter g l) = filter (fun x => g x && f x) l.
Proof. induction l as [|x l IH]; [reflexivity|]. simpl. destruct (g x); simpl; rewrite IH; reflexivity. Qed.
Lemma not_ambiguous included n : NoDup (map fst refs) -> sidewall_lookup stack included n <> Ambiguous.
Proof.
  intros D E. rewrite refs_names in D. unfold sidewall_lookup, filtered_dielectrics in E. rewrite filter_filter in E.
  assert (L : (List.length (filter (fun x => (is_dielectric x && included (s_name x)) && references n x) stack) <= 1)%nat).
  { apply (NoDup_filter_le1 reference_of n stack D). intros x K. apply andb_prop in K. destruct K as [_ K]. unfold references, reference_of in *.
    destruct (s_type x); try discriminate; apply eqb_eq in K; subst; reflexivity. }
  destruct (filter _ stack) as [|a [|b r]]; simpl in L; try discriminate E. lia.
Qed.
Lemma same_ref n l l' included included' : NoDup (map fst refs) -> refers stack included n l -> refers stack included' n l' -> l = l'.
Proof.
  intros D (I & _ & E) (I' & _ & E'). assert (A := proj2 (in_refs n l) (conj I E)). assert (B := proj2 (in_refs n l') (conj I' E')).
  clear -A B D. induction refs as [|[r x] k IH]; [destruct A|]. simpl in *. apply NoDup_cons_iff in D. destruct D as [N D].
  destruct A as [A|A], B as [B|B].
  - congruence.
  - exfalso. apply N. injection A as -> ->. apply in_map_iff. exists (n, l'). auto.
  - exfalso. apply N. injection B as -> ->. apply in_map_iff. exists (n, l). auto.
  - apply IH; assumption.
Qed.
(** the dielectrics around a layer, if none is left out *)
Fixpoint full_chain (fuel : nat) (n : string) : list slayer :=
  match fuel with
  | O => []
  | S fuel => match find (fun e => eqb (fst e) n) refs with Some (_, l) => l :: full_chain fuel (s_name l) | None => [] end
  end.
Lemma chain_prefix included : NoDup (map fst refs) -> forall n ls, uchain stack included n ls -> forall fuel, (List.length ls <= fuel)%nat ->
  exists rest, full_chain fuel n = ls ++ rest.
Proof.
  intros D n ls U. induction U as [n _|n l ls E U IH]; intros fuel L; [eexists; reflexivity|]. destruct fuel as [|fuel]; [inversion L|].
  apply lookup_found in E. destruct E as [R _]. cbn [full_chain].
  destruct (find (fun e => eqb (fst e) n) refs) as [[r x]|] eqn:F.
  - apply find_some in F. destruct F as [F Er]. simpl in Er. apply eqb_eq in Er. subst r. apply in_refs in F. destruct F as [I Ex].
    assert (X : x = l) by (apply (same_ref n x l (fun _ => true) included D); [split; auto|exact R]). subst x.
    destruct (IH fuel (le_S_n _ _ L)) as [rest ->]. exists rest. reflexivity.
  - exfalso. destruct R as (I & _ & Ex). pose proof (find_none _ _ F (n, l) (proj2 (in_refs n l) (conj I Ex))) as Y. simpl in Y. rewrite eqb_refl in Y. discriminate.
Qed.
(** the dielectric above a metal does not depend on the filter, unless it is left out *)
Lemma sdam_filter included name : forall ls found d, (forall x, d = Some x -> included (s_name x) = true) ->
  fst (sdam included name found d ls) = None \/ sdam included name found d ls = sdam (fun _ => true) name found d ls.
Proof.
  induction ls as [|l ls IH]; intros found d K; cbn [sdam]; [auto|]. destruct (eqb (s_name l) name); [apply IH, K|].
  destruct found as [f|]; [|apply IH, K]. destruct (match d with None => is_simple l | Some _ => false end).
  - destruct (included (s_name l)) eqn:E; [|auto]. apply IH. intros x J. injection J as <-. exact E.
  - destruct (is_metal l); [auto|apply IH, K].
Qed.
Lemma sdam_included included name : forall ls found d x h, (forall x, d = Some x -> included (s_name x) = true) ->
  sdam included name found d ls = (Some x, h) -> included (s_name x) = true.
Proof.
  induction ls as [|l ls IH]; intros found d x h K E; cbn [sdam] in E; [injection E as -> _; auto|].
  destruct (eqb (s_name l) name); [eapply IH; eauto|]. destruct found as [f|]; [|eapply IH; eauto].
  destruct (match d with None => is_simple l | Some _ => false end).
  - destruct (included (s_name l)) eqn:F; [|discriminate]. eapply IH; [|exact E]. intros y J. injection J as <-. exact F.
  - destruct (is_metal l); [injection E as -> _; auto|eapply IH; eauto].
Qed.

Lemma sdam_keeps included name : forall ls found x, fst (sdam included name found (Some x) ls) = Some x.
Proof. induction ls as [|l ls IH]; intros found x; cbn [sdam]; [reflexivity|]. destruct (eqb (s_name l) name); [apply IH|]. destruct found; [|apply IH]. destruct (is_metal l); [reflexivity|apply IH]. Qed.
Lemma sdam_found included name : forall ls found d x h, sdam (fun _ => true) name found d ls = (Some x, h) -> included (s_name x) = true ->
  sdam included name found d ls = (Some x, h).
Proof.
  induction ls as [|l ls IH]; intros found d x h E K; cbn [sdam] in *; [exact E|]. destruct (eqb (s_name l) name); [apply IH; assumption|].
  destruct found as [f|]; [|apply IH; assumption]. destruct (match d with None => is_simple l | Some _ => false end).
  - assert (X : x = l) by (pose proof (sdam_keeps (fun _ => true) name ls (Some f) l) as X; rewrite E in X; simpl in X; congruence). subst l. rewrite K. apply IH; assumption.
  - destruct (is_metal l); [exact E|apply IH; assumption].
Qed.

Definition nonneg_b (l : slayer) : bool :=
  match s_type l with
  | ConformalDiel _ over nm side _ => qleb 0 over && qleb 0 nm && qleb 0 side
  | SidewallDiel _ above width _ => qleb 0 above && qleb 0 width
  | Metal _ t _ => qleb 0 t
  | _ => true
  end.
Lemma nonneg_b_ok l : nonneg_b l = true -> nonneg_layer l.
Proof.
  unfold nonneg_b, nonneg_layer. destruct (s_type l); intros K; try exact I; repeat (apply andb_prop in K; destruct K as [K ?]);
    repeat match goal with H : qleb _ _ = true |- _ => apply qleb_true in H end; auto.
Qed.
(** the dielectric above the metal starts above the chain around the metal, for each prefix of the chain without [stop] *)
Fixpoint prefixes {A} (l : list A) : list (list A) := [] :: match l with [] => [] | x :: r => map (cons x) (prefixes r) end.
Lemma prefixes_In {A} (a b : list A) : In a (prefixes (a ++ b)).
Proof. induction a as [|x a IH]; simpl; [destruct b; left; reflexivity|]. right. apply in_map, IH. Qed.
Definition flat_ok (h : Qc) (l : slayer) : bool := match s_type l with ConformalDiel _ _ nm _ _ => qleb nm h | _ => true end.
Definition room (stop : list string) (l : slayer) : bool :=
  match s_type l with
  | Metal _ t _ =>
      match simple_dielectric_above_metal stack (fun _ => true) (s_name l) with
      | (Some _, h) => qleb 0 h && forallb (fun p => existsb (fun x => existsb (eqb (s_name x)) stop) p || (qleb (risen t p) h && forallb (flat_ok h) p))
                                           (prefixes (full_chain (List.length stack) (s_name l)))
      | (None, _) => true
      end
  | _ => true
  end.

Lemma chain_rank included : ranked = true -> forall n ls, uchain stack included n ls ->
  NoDup ls /\ forall x, In x ls -> In x stack /\ included (s_name x) = true /\ (rank n < rank (s_name x))%nat.
Proof.
  intros R n ls U. induction U as [n _|n l ls E U [D IH]]; [split; [constructor|intros x []]|]. apply lookup_found in E. destruct E as [(I & Inc & Er) _].
  assert (L : (rank n < rank (s_name l))%nat).
  { unfold ranked in R. rewrite forallb_forall in R. specialize (R (n, l) (proj2 (in_refs n l) (conj I Er))). apply Nat.ltb_lt in R. exact R. }
  split.
  - constructor; [|exact D]. intros J. apply IH in J. lia.
  - intros x [<-|J]; [auto|]. apply IH in J. destruct J as (A & B & C). repeat split; auto. lia.
Qed.
Lemma chain_length included n ls : ranked = true -> uchain stack included n ls -> (List.length ls <= List.length stack)%nat.
Proof. intros R U. destruct (chain_rank included R n ls U) as [D I]. apply NoDup_incl_length; [exact D|]. intros x J. apply I, J. Qed.

Lemma room_ok stop included l z t c ls d h : NoDup (map fst refs) -> ranked = true -> (forall x, In x stop -> included x = false) -> room stop l = true ->
  s_type l = Metal z t c -> uchain stack included (s_name l) ls -> simple_dielectric_above_metal stack included (s_name l) = (Some d, h) ->
  (0 <= h)%Qc /\ (risen t ls <= h)%Qc /\ forall x nm, In x ls -> flat_part x = Some nm -> (nm <= h)%Qc.
Proof.
  intros D R St K T U E. unfold room in K. rewrite T in K.
  assert (F : simple_dielectric_above_metal stack (fun _ => true) (s_name l) = (Some d, h)).
  { unfold simple_dielectric_above_metal in *. destruct (sdam_filter included (s_name l) stack None None ltac:(discriminate)) as [X|X]; rewrite E in X; [discriminate|congruence]. }
  rewrite F in K. apply andb_prop in K. destruct K as [K0 K]. apply qleb_true in K0. split; [exact K0|].
  destruct (chain_prefix included D _ _ U (List.length stack) (chain_length included _ _ R U)) as [rest X]. rewrite X, forallb_forall in K.
  specialize (K ls (prefixes_In ls rest)). apply Bool.orb_prop in K. destruct K as [K|K].
  - exfalso. apply existsb_exists in K. destruct K as (x & J & K). apply existsb_exists in K. destruct K as (y & Iy & Ey). apply eqb_eq in Ey. subst y.
    apply St in Iy. apply (chain_rank included R _ _ U) in J. destruct J as (_ & J & _). congruence.
  - apply andb_prop in K. destruct K as [K1 K2]. apply qleb_true in K1. split; [exact K1|]. intros x nm J Fx. rewrite forallb_forall in K2. specialize (K2 x J).
    unfold flat_ok in K2. unfold flat_part in Fx. destruct (s_type x); try discriminate. destruct (Qclt_le_dec 0 _); [|discriminate]. injection Fx as <-. apply qleb_true in K2. exact K2.
Qed.

Section Layout.
Context {face : Type} {EF : EqDec face}.
Variables (included : string -> bool) (dbu : Qc) (layer_shapes : string -> option (list face)) (bbox : list face) (sized : Z -> list face -> list face) (et : bool).
Hypothesis U : NoDup (map fst refs).
Hypothesis R : ranked = true.
Hypothesis N : forallb nonneg_b stack = true.
Lemma stack_nonneg l : In l stack -> nonneg_layer l.
Proof. intros I. apply nonneg_b_ok. rewrite forallb_forall in N. apply N, I. Qed.
Definition level (x : @call face) : Prop := match x with AddDielectric _ _ _ h => (0 <= h)%Qc | _ => False end.
Lemma last_flat_In sz db bb : forall ls r nm x, last_flat (face := face) db bb sz r nm ls = Some x ->
  (exists l, In l ls /\ flat_part l = Some (snd x)) \/ nm = Some x.
Proof.
  induction ls as [|l ls IH]; intros r nm x E; [auto|]. cbn [last_flat] in E. apply IH in E. destruct E as [(y & J & F)|E]; [left; exists y; split; [right; exact J|exact F]|].
  destruct (flat_part l) eqn:F; [|auto]. injection E as <-. left. exists l. split; [left; reflexivity|exact F].
Qed.
Lemma walk_level z t ls : (0 <= t)%Qc -> (forall l, In l ls -> In l stack) -> forall r, Forall level (walk (face := face) dbu bbox sized r z t 0%Qc ls).
Proof.
  intros T I r. rewrite walk_links. apply Forall_forall. intros x J. apply in_flat_map in J. destruct J as (i & _ & J).
  destruct (nth_error ls i) as [l|] eqn:E; [|destruct J]. destruct J as [<-|J].
  - cbn [level]. rewrite Qcplus_0_l. apply (risen_nonneg included); [exact T|]. intros y Y. apply stack_nonneg, I. apply firstn_In in Y. exact Y.
  - destruct (flat_part l) eqn:F; [|destruct J]. destruct J as [<-|[]]. simpl. unfold flat_part in F. destruct (s_type l); try discriminate.
    destruct (Qclt_le_dec 0 _) as [P|]; [|discriminate]. injection F as <-. apply Qclt_le_weak, P.
Qed.
(** the dielectrics around and above one metal *)
Definition above_ok (l : slayer) (t : Qc) : Prop := forall d h, simple_dielectric_above_metal stack included (s_name l) = (Some d, h) ->
  (0 <= h)%Qc /\ (layer_shapes (s_name l) <> None -> forall ls, uchain stack included (s_name l) ls ->
                 (risen t ls <= h)%Qc /\ forall x nm, In x ls -> flat_part x = Some nm -> (nm <= h)%Qc).
Lemma minus_nonneg a b : (a <= b)%Qc -> (0 <= b - a)%Qc.
Proof. intros L. qclra. Qed.
Lemma metal_level fuel l : In l stack ->
  match metal_dielectrics stack included dbu layer_shapes bbox sized et fuel l with
  | BCalls cs => (forall z t c, s_type l = Metal z t c -> above_ok l t) -> Forall level cs | BRaised => False | BFuel => True end.
Proof.
  intros I. unfold metal_dielectrics. destruct (s_type l) as [| | | | | | |z t c] eqn:T; try constructor.
  assert (T0 : (0 <= t)%Qc) by (pose proof (stack_nonneg l I) as X; unfold nonneg_layer in X; rewrite T in X; exact X).
  assert (S0 : match simple_calls stack included bbox et l None None with Some cs => (forall z0 t0 c0, Metal z t c = Metal z0 t0 c0 -> above_ok l t0) -> Forall level cs | None => False end).
  { unfold simple_calls. destruct (simple_dielectric_above_metal _ _ _) as [[d|] h] eqn:E; [|constructor]. intros A. destruct (A _ _ _ eq_refl d h E) as [A0 _].
    simpl. repeat constructor. exact A0. }
  destruct (layer_shapes (s_name l)) as [shapes|] eqn:Es; [|destruct (simple_calls _ _ _ _ _ _ _); exact S0].
  destruct (negb (truthy et shapes)); [destruct (simple_calls _ _ _ _ _ _ _); exact S0|]. clear S0.
  destruct (sidewalls _ _ _ _ _ fuel _ _ _ _ _ _ _) as [cs r h nm| |] eqn:F.
  2:{ exfalso. revert F. generalize (s_name l), shapes, 0%Qc, (@None (list face * Qc)), (@nil (@call face)). clear -U.
      induction fuel as [|fuel IH]; intros n r h nm acc E; [discriminate|]. cbn [sidewalls] in E.
      destruct (sidewall_lookup stack included n) as [|x|] eqn:L; [discriminate| |exact (not_ambiguous included n U L)].
      destruct (s_type x); try (destruct (qltb _ _)); eapply IH; exact E. }
  2:{ constructor. }
  apply sidewalls_done in F. destruct F as (ls & Ch & -> & -> & Eh & ->). rewrite Qcplus_0_l in Eh. subst h.
  destruct (chain_rank included R _ _ Ch) as [_ Ic].
  assert (W : Forall level (walk dbu bbox sized shapes z t 0%Qc ls)) by (apply walk_level; [exact T0|intros x J; apply Ic, J]).
  assert (P : (0 <= risen t ls)%Qc) by (apply (risen_nonneg included); [exact T0|]; intros x J; apply stack_nonneg, Ic, J).
  assert (S : match simple_calls stack included bbox et l (Some (grown sized dbu shapes ls, risen t ls)) (last_flat dbu bbox sized shapes None ls) with
              | Some cs => above_ok l t -> Forall level cs | None => False end).
  { unfold simple_calls. destruct (simple_dielectric_above_metal _ _ _) as [[d|] h] eqn:E; [|constructor].
    rewrite (proj2 (qleb_true _ _) P).
    assert (Q : above_ok l t -> (0 <= h)%Qc /\ (0 <= h - risen t ls)%Qc /\ forall nr nh, last_flat dbu bbox sized shapes None ls = Some (nr, nh) -> (0 <= h - nh)%Qc).
    { intros A. destruct (A d h E) as [A0 A1]. rewrite Es in A1. destruct (A1 ltac:(discriminate) ls Ch) as [A2 A3]. split; [exact A0|]. split; [apply minus_nonneg, A2|].
      intros nr nh L. apply last_flat_In in L. destruct L as [(x & J & Fx)|L]; [|discriminate]. apply minus_nonneg. exact (A3 x nh J Fx). }
    destruct (negb (truthy et (grown sized dbu shapes ls))); simpl; destruct (last_flat dbu bbox sized shapes None ls) as [[nr nh]|]; try destruct (truthy et nr);
      intros A; destruct (Q A) as (Q0 & Q1 & Q2); repeat constructor; simpl; eauto. }
  destruct (simple_calls _ _ _ _ _ _ _) as [cs2|]; [|exact S]. intros A. rewrite app_nil_l. apply Forall_app. eauto.
Qed.
Lemma all_level fuel ls : (forall l, In l ls -> In l stack) ->
  match all_dielectrics stack included dbu layer_shapes bbox sized et fuel ls with
  | BCalls cs => (forall l z t c, In l ls -> s_type l = Metal z t c -> above_ok l t) -> Forall level cs | BRaised => False | BFuel => True end.
Proof.
  intros I. induction ls as [|l ls IH]; [constructor|]. cbn [all_dielectrics].
  pose proof (metal_level fuel l (I l (or_introl eq_refl))) as M. specialize (IH (fun x J => I x (or_intror J))).
  destruct (metal_dielectrics _ _ _ _ _ _ _ _ l) as [a| |]; [|exact M|exact M].
  destruct (all_dielectrics _ _ _ _ _ _ _ _ ls) as [b| |]; [|exact IH|exact IH]. intros A. apply Forall_app. split.
  - apply M. intros z t c. apply A. left. reflexivity.
  - apply IH. intros x z t c J. apply A. right. exact J.
Qed.
(** the substrate, field oxide and metals *)
Definition base_ok : bool :=
  match find (fun l => match s_type l with FieldOxide _ => true | _ => false end) stack,
        find (fun l => match s_type l with Substrate _ _ => true | _ => false end) stack,
        find is_metal stack with
  | Some _, Some (SLayer _ (Substrate sh st)), Some gate => qltb 0 st && qleb 0 (metal_z gate)
  | _, _, _ => false
  end.
Definition solid_b (l : slayer) : bool :=
  match s_type l with
  | Metal _ t c => qltb 0 t && match c with Some c => qltb 0 (c_thickness c) | None => true end
  | Diffusion c => qltb 0 (c_thickness c)
  | _ => true
  end.
Variable nets : list (string * (string -> option (list face))).
Lemma build_total : base_ok = true -> exists cs, build_calls stack included dbu nets layer_shapes bbox sized et (S (List.length stack)) = BCalls cs.
Proof.
  intros B. pose proof (C38_terminates face EF stack included dbu nets layer_shapes bbox sized et (ranked_acyclic included R)) as T.
  pose proof (all_level (S (List.length stack)) stack (fun _ x => x)) as L. unfold build_calls in *. unfold base_ok in B.
  destruct (find _ stack) as [fox|]; [|discriminate]. destruct (find _ stack) as [[sn [sh st| | | | | | |]]|]; try discriminate.
  destruct (find is_metal stack) as [gate|]; [|discriminate]. destruct (all_dielectrics _ _ _ _ _ _ _ _ stack) as [ds| |]; [eauto|destruct L|congruence].
Qed.
Lemma cond_upright nm s z h : (0 < h)%Qc -> Forall upright (cond_call (face := face) nm s z h).
Proof. intros P. unfold cond_call. destruct s as [[|x r]|]; repeat constructor. exact P. Qed.
Lemma build_upright cs fuel : base_ok = true -> forallb solid_b stack = true -> (forall l z t c, In l stack -> s_type l = Metal z t c -> above_ok l t) ->
  build_calls stack included dbu nets layer_shapes bbox sized et fuel = BCalls cs -> Forall upright cs.
Proof.
  intros B So A E. pose proof (all_level fuel stack (fun _ x => x)) as L. unfold build_calls in *. unfold base_ok in B.
  destruct (find _ stack) as [fox|]; [|discriminate]. destruct (find _ stack) as [[sn [sh st| | | | | | |]]|]; try discriminate.
  destruct (find is_metal stack) as [gate|]; [|discriminate]. destruct (all_dielectrics _ _ _ _ _ _ _ _ stack) as [ds| |]; [|discriminate|discriminate].
  apply andb_prop in B. destruct B as [B1 B2]. apply qltb_true in B1. apply qleb_true in B2. injection E as <-. specialize (L A).
  constructor; [exact I|]. repeat (apply Forall_app; split).
  - apply Forall_forall. intros x J. apply in_map_iff in J. destruct J as (m & <- & _). exact I.
  - apply Forall_forall. intros x J. apply in_flat_map in J. destruct J as (n & _ & J). revert x J. apply Forall_forall. rewrite forallb_forall in So.
    apply Forall_app. split; apply Forall_forall; intros x J; apply in_flat_map in J; destruct J as (l & Il & J); specialize (So l Il); unfold solid_b in So; revert x J; apply Forall_forall.
    + unfold metal_calls. destruct (s_type l) as [| | | | | | |z t [c|]]; try constructor; apply andb_prop in So; destruct So as [S1 S2]; apply qltb_true in S1; apply Forall_app; split; try constructor;
        apply cond_upright; auto. apply qltb_true, S2.
    + unfold diffusion_calls. destruct (s_type l) as [| |c| | | | |]; try constructor. apply qltb_true in So. apply Forall_app. split; apply cond_upright; [|exact So].
      apply qltb_true. vm_compute. reflexivity.
  - constructor; [exact B1|]. constructor; [simpl; replace (metal_z gate - 0)%Qc with (metal_z gate) by ring; exact B2|].
    revert L. apply Forall_impl. intros [m|m r z h|m r z h]; simpl; tauto.
Qed.
End Layout.
End Stack.

Lemma all_incl {face} {EF : EqDec face} stack included dbu shapes bbox sized et fuel : forall ls l cs, In l ls ->
  all_dielectrics (face := face) stack included dbu shapes bbox sized et fuel ls = BCalls cs ->
  exists a, metal_dielectrics stack included dbu shapes bbox sized et fuel l = BCalls a /\ incl a cs.
Proof.
  induction ls as [|x ls IH]; intros l cs I E; [destruct I|]. cbn [all_dielectrics] in E. destruct (metal_dielectrics _ _ _ _ _ _ _ _ x) as [a| |] eqn:F; try discriminate.
  destruct (all_dielectrics _ _ _ _ _ _ _ _ ls) as [b| |] eqn:G; try discriminate. injection E as <-. destruct I as [<-|I].
  - exists a. split; [exact F|apply incl_appl, incl_refl].
  - destruct (IH l b I eq_refl) as (a' & A & B). exists a'. split; [exact A|apply incl_appr, B].
Qed.

(** ** the shipped stacks *)
Lemma sky_ranked : ranked (stack_of sky130A) = true. Proof. vm_compute. reflexivity. Qed.
Lemma ihp_ranked : ranked (stack_of ihp) = true. Proof. vm_compute. reflexivity. Qed.
Lemma sky_unique : unique_refs (stack_of sky130A) = true. Proof. vm_compute. reflexivity. Qed.
Lemma ihp_unique : unique_refs (stack_of ihp) = true. Proof. vm_compute. reflexivity. Qed.
Lemma sky_nonneg : forallb nonneg_b (stack_of sky130A) = true. Proof. vm_compute. reflexivity. Qed.
Lemma ihp_nonneg : forallb nonneg_b (stack_of ihp) = true. Proof. vm_compute. reflexivity. Qed.
Lemma sky_base : base_ok (stack_of sky130A) = true. Proof. vm_compute. reflexivity. Qed.
Lemma ihp_base : base_ok (stack_of ihp) = true. Proof. vm_compute. reflexivity. Qed.
Lemma sky_solid : forallb solid_b (stack_of sky130A) = true. Proof. vm_compute. reflexivity. Qed.
Lemma ihp_solid : forallb solid_b (stack_of ihp) = true. Proof. vm_compute. reflexivity. Qed.
Lemma sky_room : forallb (room (stack_of sky130A) []) (stack_of sky130A) = true. Proof. vm_compute. reflexivity. Qed.
Lemma ihp_room : forallb (fun l => eqb (s_name l) "TopMetal2" || room (stack_of ihp) [] l) (stack_of ihp) = true. Proof. vm_compute. reflexivity. Qed.
Lemma ihp_room2 : forallb (room (stack_of ihp) ["pass2"]) (stack_of ihp) = true. Proof. vm_compute. reflexivity. Qed.

(** C75: the FasterCap input of both PDKs can be built for every layout and every selection of dielectrics *)
Theorem C75_total : forall (face : Type) (EF : EqDec face) (T : technology) (included : string -> bool) (dbu : Qc)
    (nets : list (string * (string -> option (list face)))) (layer_shapes : string -> option (list face))
    (bbox : list face) (sized : Z -> list face -> list face) (empty_truthy : bool),
  shipped T ->
  exists cs, build_calls (stack_of T) included dbu nets layer_shapes bbox sized empty_truthy (S (List.length (stack_of T))) = BCalls cs.
Proof.
  intros face EF T included dbu nets ls bbox sized et [->| ->]; apply build_total.
  - apply PD_Proofs.nodup_b_ok, sky_unique.
  - exact sky_ranked.
  - exact sky_nonneg.
  - exact sky_base.
  - apply PD_Proofs.nodup_b_ok, ihp_unique.
  - exact ihp_ranked.
  - exact ihp_nonneg.
  - exact ihp_base.
Qed.
Lemma room_above {face} stack included (layer_shapes : string -> option (list face)) stop l z t c : NoDup (map fst (refs stack)) -> ranked stack = true ->
  (forall x, In x stop -> included x = false) -> room stack stop l = true -> s_type l = Metal z t c -> above_ok stack included layer_shapes l t.
Proof.
  intros D R St K T d h E. split.
  - unfold room in K. rewrite T in K. unfold simple_dielectric_above_metal in *.
    destruct (sdam_filter included (s_name l) stack None None ltac:(discriminate)) as [X|X]; rewrite E in X; [discriminate|]. rewrite <- X in K.
    apply andb_prop in K. apply qleb_true, K.
  - intros _ ls U. eapply room_ok; eauto.
Qed.
(** sky130A: nothing is upside down *)
Theorem C75_sky130A : forall (face : Type) (EF : EqDec face) (included : string -> bool) (dbu : Qc)
    (nets : list (string * (string -> option (list face)))) (layer_shapes : string -> option (list face))
    (bbox : list face) (sized : Z -> list face -> list face) (empty_truthy : bool) (fuel : nat) (cs : list (@call face)),
  build_calls (stack_of sky130A) included dbu nets layer_shapes bbox sized empty_truthy fuel = BCalls cs -> Forall upright cs.
Proof.
  intros face EF included dbu nets ls bbox sized et fuel cs E.
  eapply build_upright; [apply PD_Proofs.nodup_b_ok, sky_unique|exact sky_ranked|exact sky_nonneg|exact sky_base|exact sky_solid| |exact E].
  intros l z t c I T. pose proof sky_room as K. rewrite forallb_forall in K. eapply (room_above _ _ _ []); eauto using sky_ranked.
  - apply PD_Proofs.nodup_b_ok, sky_unique.
  - intros x [].
Qed.
Lemma ihp_air_name : match fst (simple_dielectric_above_metal (stack_of ihp) (fun _ => true) "TopMetal2") with Some d => s_name d | None => "" end = "air".
Proof. vm_compute. reflexivity. Qed.
Lemma partial_upright stack : unique_refs stack = true -> ranked stack = true -> forallb nonneg_b stack = true -> base_ok stack = true -> forallb solid_b stack = true ->
  forallb (fun l => eqb (s_name l) "TopMetal2" || room stack [] l) stack = true -> forallb (room stack ["pass2"]) stack = true ->
  match fst (simple_dielectric_above_metal stack (fun _ => true) "TopMetal2") with Some d => s_name d | None => "" end = "air" ->
  forall (face : Type) (EF : EqDec face) (included : string -> bool) (dbu : Qc)
    (nets : list (string * (string -> option (list face)))) (layer_shapes : string -> option (list face))
    (bbox : list face) (sized : Z -> list face -> list face) (empty_truthy : bool) (fuel : nat) (cs : list (@call face)),
  layer_shapes "TopMetal2" = None \/ included "pass2" = false \/ included "air" = false ->
  build_calls stack included dbu nets layer_shapes bbox sized empty_truthy fuel = BCalls cs -> Forall upright cs.
Proof.
  intros Uq Rk Ng Bs Sl K0 K20 An face EF included dbu nets ls bbox sized et fuel cs H E.
  eapply build_upright; [apply PD_Proofs.nodup_b_ok, Uq|exact Rk|exact Ng|exact Bs|exact Sl| |exact E].
  intros l z t c I T. rewrite forallb_forall in K0, K20. pose proof (K0 l I) as K. pose proof (K20 l I) as K2.
  apply Bool.orb_prop in K. destruct K as [K|K].
  2:{ eapply (room_above _ _ _ []); eauto; [apply PD_Proofs.nodup_b_ok, Uq|intros x []]. }
  apply eqb_eq in K. destruct H as [H|[H|H]].
  - intros d h Ed. split; [|rewrite K, H; congruence]. unfold room in K2. rewrite T in K2. unfold simple_dielectric_above_metal in *.
    destruct (sdam_filter included (s_name l) stack None None ltac:(discriminate)) as [X|X]; rewrite Ed in X; [discriminate|]. rewrite <- X in K2.
    apply andb_prop in K2. apply qleb_true, K2.
  - eapply (room_above _ _ _ ["pass2"]); eauto; [apply PD_Proofs.nodup_b_ok, Uq|]. intros x [<-|[]]. exact H.
  - intros d h Ed. exfalso. assert (X : included (s_name d) = true) by (eapply sdam_included; [|exact Ed]; discriminate).
    assert (Y : fst (simple_dielectric_above_metal stack (fun _ => true) "TopMetal2") = Some d).
    { unfold simple_dielectric_above_metal in *. destruct (sdam_filter included (s_name l) stack None None ltac:(discriminate)) as [Z|Z]; rewrite Ed in Z; [discriminate|].
      rewrite <- K, <- Z. reflexivity. }
    rewrite Y in An. congruence.
Qed.
(** IHP: nothing is upside down if there is no TopMetal2, or if pass2 or the air above it is left out *)
Theorem C75_ihp_partial : forall (face : Type) (EF : EqDec face) (included : string -> bool) (dbu : Qc)
    (nets : list (string * (string -> option (list face)))) (layer_shapes : string -> option (list face))
    (bbox : list face) (sized : Z -> list face -> list face) (empty_truthy : bool) (fuel : nat) (cs : list (@call face)),
  layer_shapes "TopMetal2" = None \/ included "pass2" = false \/ included "air" = false ->
  build_calls (stack_of ihp) included dbu nets layer_shapes bbox sized empty_truthy fuel = BCalls cs -> Forall upright cs.
Proof. exact (partial_upright (stack_of ihp) ihp_unique ihp_ranked ihp_nonneg ihp_base ihp_solid ihp_room ihp_room2 ihp_air_name). Qed.
(** IHP: over every TopMetal2 shape the air has a negative height, as the passivation is taken to be thicker than the room
    above the metal: the metal's thickness is counted for both of its layers *)
Definition ihp_at (i : nat) : slayer := nth i (stack_of ihp) (SLayer "" (FieldOxide 0)).
Lemma ihp_at_In i : (i <? List.length (stack_of ihp))%nat = true -> In (ihp_at i) (stack_of ihp).
Proof. intros L. apply nth_In, Nat.ltb_lt, L. Qed.
Lemma ihp_top : s_name (ihp_at 25) = "TopMetal2" /\ s_name (ihp_at 26) = "pass1" /\ s_name (ihp_at 27) = "pass2" /\
  reference_of (ihp_at 26) = Some "TopMetal2" /\ reference_of (ihp_at 27) = Some "pass1" /\ existsb (fun e => eqb (fst e) "pass2") (refs (stack_of ihp)) = false.
Proof. repeat split; vm_compute; reflexivity. Qed.
Lemma ihp_top_type : match s_type (ihp_at 25) with Metal z t None => qltb (Q2Qc 5) (risen t [ihp_at 26; ihp_at 27]) | _ => false end = true.
Proof. vm_compute. reflexivity. Qed.
Lemma ihp_top_air : match simple_dielectric_above_metal (stack_of ihp) (fun _ => true) "TopMetal2" with (Some d, h) => eqb (s_name d) "air" && qeqb h (Q2Qc 5) | _ => false end = true.
Proof. vm_compute. reflexivity. Qed.
Lemma uchain_next stack included n l ls : NoDup (map fst (refs stack)) -> refers stack included n l -> uchain stack included n ls -> exists k, ls = l :: k /\ uchain stack included (s_name l) k.
Proof.
  intros D R U. inversion U as [? E|? x k E V]; subst; [exfalso; exact (lookup_none _ _ _ E _ R)|]. apply lookup_found in E. destruct E as [_ E].
  rewrite <- (E l R) in *. eauto.
Qed.
Lemma uchain_last stack included n ls : existsb (fun e => eqb (fst e) n) (refs stack) = false -> uchain stack included n ls -> ls = [].
Proof.
  intros D U. inversion U as [? E|? x k E V]; subst; [reflexivity|]. exfalso. apply lookup_found in E. destruct E as [(I & _ & E) _].
  assert (X : existsb (fun e => eqb (fst e) n) (refs stack) = true); [|congruence]. apply existsb_exists. exists (n, x). split; [apply in_refs; auto|apply eqb_refl].
Qed.
Theorem C75_ihp_refuted : forall (face : Type) (EF : EqDec face) (included : string -> bool) (dbu : Qc)
    (nets : list (string * (string -> option (list face)))) (layer_shapes : string -> option (list face))
    (bbox : list face) (sized : Z -> list face -> list face) (empty_truthy : bool) (fuel : nat) (cs : list (@call face)) x r,
  (0 < dbu)%Qc -> (forall d r, (0 <= d)%Z -> incl r (sized d r)) ->
  included "pass1" = true -> included "pass2" = true -> included "air" = true -> layer_shapes "TopMetal2" = Some (x :: r) ->
  build_calls (stack_of ihp) included dbu nets layer_shapes bbox sized empty_truthy fuel = BCalls cs ->
  exists reg z h, In (AddDielectric "air" reg z h) cs /\ In x reg /\ (h < 0)%Qc.
Proof.
  intros face EF included dbu nets shapes bbox sized et fuel cs x r Db Sx I1 I2 I3 Hs E.
  destruct ihp_top as (N25 & N26 & N27 & R26 & R27 & Last). pose proof ihp_top_type as Ty. pose proof ihp_top_air as Ta.
  assert (D : NoDup (map fst (refs (stack_of ihp)))) by (apply PD_Proofs.nodup_b_ok, ihp_unique).
  assert (J25 := ihp_at_In 25 ltac:(vm_compute; reflexivity)). assert (J26 := ihp_at_In 26 ltac:(vm_compute; reflexivity)). assert (J27 := ihp_at_In 27 ltac:(vm_compute; reflexivity)).
  assert (Nn : forall l, In l [ihp_at 26; ihp_at 27] -> nonneg_layer l).
  { intros l [<-|[<-|[]]]; apply nonneg_b_ok; pose proof ihp_nonneg as K; rewrite forallb_forall in K; apply K; assumption. }
  revert N25 N26 N27 R26 R27 Ty Ta J25 J26 J27 Nn Last D E. generalize (ihp_at 25) (ihp_at 26) (ihp_at 27) (stack_of ihp). clear -Db Sx I1 I2 I3 Hs.
  intros m p1 p2 stack N25 N26 N27 R26 R27 Ty Ta J25 J26 J27 Nn Last D E.
  unfold build_calls in E. destruct (find _ stack) as [fox|]; [|discriminate]. destruct (find _ stack) as [[sn [sh st| | | | | | |]]|]; try discriminate.
  destruct (find is_metal stack) as [gate|]; [|discriminate]. destruct (all_dielectrics _ _ _ _ _ _ _ _ stack) as [ds| |] eqn:A; try discriminate. injection E as <-.
  destruct (all_incl _ _ _ _ _ _ _ _ _ _ _ J25 A) as (a & M & Inc).
  destruct (s_type m) as [| | | | | | |z t [c|]] eqn:T; try discriminate Ty. apply qltb_true in Ty.
  unfold metal_dielectrics in M. rewrite T, N25, Hs in M. cbn [truthy negb] in M.
  destruct (sidewalls _ _ _ _ _ fuel _ _ _ _ _ _ _) as [cs1 rg h nm| |] eqn:F; try discriminate.
  apply sidewalls_done in F. destruct F as (ls & Ch & -> & -> & Eh & ->). rewrite Qcplus_0_l in Eh. subst h.
  assert (X1 : refers stack included "TopMetal2" p1) by (split; [exact J26|]; rewrite N26; auto).
  destruct (uchain_next _ _ _ _ _ D X1 Ch) as (k1 & -> & Ch1). rewrite N26 in Ch1.
  assert (X2 : refers stack included "pass1" p2) by (split; [exact J27|]; rewrite N27; auto).
  destruct (uchain_next _ _ _ _ _ D X2 Ch1) as (k2 & -> & Ch2). rewrite N27 in Ch2. apply (uchain_last _ _ _ _ Last) in Ch2. subst k2.
  destruct (simple_dielectric_above_metal stack (fun _ => true) "TopMetal2") as [[d|] h] eqn:Sd; [|discriminate]. apply andb_prop in Ta. destruct Ta as [Ta Th].
  apply eqb_eq in Ta. apply qeqb_true in Th.
  assert (Sd' : simple_dielectric_above_metal stack included "TopMetal2" = (Some d, h)) by (unfold simple_dielectric_above_metal in *; apply sdam_found; [exact Sd|rewrite Ta; exact I3]).
  assert (Gx : In x (grown sized dbu (x :: r) [p1; p2])).
  { apply (grown_incl included dbu sized Sx Db [p1; p2] Nn (x :: r)). left. reflexivity. }
  unfold simple_calls in M. rewrite N25, Sd' in M.
  destruct (grown sized dbu (x :: r) [p1; p2]) as [|y g] eqn:G; [destruct Gx|]. rewrite <- G in *. assert (Tr : truthy et (grown sized dbu (x :: r) [p1; p2]) = true) by (rewrite G; reflexivity).
  rewrite Tr in M. cbn [negb] in M.
  assert (P : qleb 0 (risen t [p1; p2]) = true).
  { apply qleb_true. apply Qclt_le_weak. eapply Qclt_trans; [|exact Ty]. apply qltb_true. vm_compute. reflexivity. }
  rewrite P in M. match type of M with BCalls ?u = BCalls a => assert (M' : u = a) by congruence end. clear M. rename M' into M.
  exists (grown sized dbu (x :: r) [p1; p2]), (metal_z m + risen t [p1; p2])%Qc, (h - risen t [p1; p2])%Qc. split; [|split].
  - right. apply in_or_app. right. apply in_or_app. right. right. right. apply Inc. rewrite <- M. rewrite <- Ta. apply in_or_app. right. left. reflexivity.
  - exact Gx.
  - rewrite Th. qclra.
Qed.
(** dielectric constants: sky130A has one below that of vacuum *)
Definition permittivity (l : slayer) : option Qc :=
  match s_type l with FieldOxide k | SimpleDiel k | ConformalDiel k _ _ _ _ | SidewallDiel k _ _ _ => Some k | _ => None end.
Definition below_vacuum (l : slayer) : bool := match permittivity l with Some k => qltb k 1 | None => false end.
Theorem C75_permittivity : (forall l k, In l (stack_of ihp) -> permittivity l = Some k -> (1 <= k)%Qc) /\
  (forall l k, In l (stack_of sky130A) -> s_name l <> "iox" -> permittivity l = Some k -> (1 <= k)%Qc).
Proof.
  assert (A : forallb (fun l => negb (below_vacuum l)) (stack_of ihp) = true) by (vm_compute; reflexivity).
  assert (B : forallb (fun l => eqb (s_name l) "iox" || negb (below_vacuum l)) (stack_of sky130A) = true) by (vm_compute; reflexivity).
  rewrite forallb_forall in A, B. unfold below_vacuum in *. split.
  - intros l k I E. specialize (A l I). rewrite E in A. unfold qltb in A. destruct (Qclt_le_dec k 1) as [|L]; [discriminate|exact L].
  - intros l k I N E. specialize (B l I). rewrite E in B. apply (proj2 (eqb_false _ _)) in N. rewrite N in B. unfold qltb in B. destruct (Qclt_le_dec k 1) as [|L]; [discriminate|exact L].
Qed.
Theorem C75_permittivity_refuted : exists l k, In l (stack_of sky130A) /\ s_name l = "iox" /\ permittivity l = Some k /\ (k < 1)%Qc.
Proof.
  assert (A : existsb (fun l => eqb (s_name l) "iox" && below_vacuum l) (stack_of sky130A) = true) by (vm_compute; reflexivity).
  apply existsb_exists in A. destruct A as (l & I & A). apply andb_prop in A. destruct A as [A B]. apply eqb_eq in A. unfold below_vacuum in B.
  destruct (permittivity l) as [k|] eqn:E; [|discriminate]. exists l, k. repeat split; auto. apply qltb_true, B.
Qed.

(** a concrete layout of three faces: TopMetal2 over face 1 in IHP, met5 over face 1 in sky130A, everything included *)
Definition sizes (d : Z) (r : list nat) : list nat := r.
Definition heights {face} (b : @bres face) : list (string * bool) :=
  match b with BCalls cs => flat_map (fun c => match c with AddDielectric m _ _ h => [(m, qleb 0 h)] | _ => [] end) cs | _ => [] end.
Definition on (n : string) (m : string) : option (list nat) := if eqb m n then Some [1%nat] else None.
Example C75_case :
  existsb (fun e => eqb e ("air", false)) (heights (build_calls (stack_of ihp) (fun _ => true) (Q2Qc (1 # 1000)) [] (on "TopMetal2") [0; 1; 2]%nat sizes true 40)) = true /\
  List.length (heights (build_calls (stack_of sky130A) (fun _ => true) (Q2Qc (1 # 1000)) [] (on "met5") [0; 1; 2]%nat sizes true 40)) = 14%nat /\
  forallb snd (heights (build_calls (stack_of sky130A) (fun _ => true) (Q2Qc (1 # 1000)) [] (on "met5") [0; 1; 2]%nat sizes true 40)) = true.
Proof. split; [|split]; vm_compute; reflexivity. Qed.
(** the passivation of IHP covers TopMetal2 with 1.5 um and its flanks with 0.3 um; the spacer of sky130A is 0.0431 um wide and 0.121 um high *)
Definition dims (st : list slayer) (n : string) : list Qc :=
  match find (fun l => eqb (s_name l) n) st with
  | Some l => match s_type l with ConformalDiel k o nm sd _ => [k; o; nm; sd] | SidewallDiel k h w _ => [k; h; w] | _ => [] end
  | None => []
  end.
Example C75_dims :
  eqb (dims (stack_of ihp) "pass1") [Q2Qc (41 # 10); Q2Qc (15 # 10); Q2Qc (15 # 10); Q2Qc (3 # 10)] = true /\
  eqb (dims (stack_of sky130A) "spnit") [Q2Qc (75 # 10); Q2Qc (121 # 1000); Q2Qc (431 # 10000)] = true.
Proof. split; vm_compute; reflexivity. Qed.

Print Assumptions C75_total.
Print Assumptions C75_sky130A.
Print Assumptions C75_ihp_partial.
Print Assumptions C75_ihp_refuted.
Print Assumptions C75_permittivity.
Print Assumptions C75_permittivity_refuted.
