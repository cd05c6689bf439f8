(** The FasterCap input builder: sidewall chains, declared materials, coverage, conductors. *)
From Coq Require Import String QArith.Qround Lqa Lia.
From Verif Require Import PyBase QcLra PyLib SW_Model SW_Spec TI_Model TI_Spec TI_Tables.
Local Open Scope list_scope.

(** ** lookup *)
Section Lookup.
Variables (stack : list slayer) (included : string -> bool).
Notation refers := (refers stack included).
Lemma in_filtered l : In l (filtered_dielectrics stack included) <-> In l stack /\ is_dielectric l = true /\ included (s_name l) = true.
Proof. unfold filtered_dielectrics. rewrite filter_In, andb_true_iff. tauto. Qed.
Lemma refers_in n l : refers n l <-> In l (filter (references n) (filtered_dielectrics stack included)).
Proof.
  rewrite filter_In, in_filtered. unfold TI_Spec.refers, reference_of, references, is_dielectric.
  destruct (s_type l); (split; [intros (A & B & C) | intros ((A & D & B) & C)]); try discriminate;
    try (injection C as ->; rewrite eqb_refl; auto); try (apply eqb_eq in C; subst; auto).
Qed.
Lemma lookup_found n l : sidewall_lookup stack included n = Found l -> refers n l /\ forall l', refers n l' -> l' = l.
Proof.
  unfold sidewall_lookup. intros E. assert (F : filter (references n) (filtered_dielectrics stack included) = [l]).
  { destruct (filter _ _) as [|a [|b r]]; congruence. }
  split; [apply refers_in; rewrite F; left; reflexivity|]. intros l' R. apply refers_in in R. rewrite F in R. destruct R as [R|[]]; auto.
Qed.
Lemma lookup_none n : sidewall_lookup stack included n = NotFound -> forall l, ~ refers n l.
Proof.
  unfold sidewall_lookup. intros E l R. apply refers_in in R. destruct (filter _ _) as [|a [|b r]]; [destruct R | discriminate | discriminate].
Qed.
Lemma found_type n l : refers n l -> (exists k a w r, s_type l = SidewallDiel k a w r) \/ (exists k o m s r, s_type l = ConformalDiel k o m s r).
Proof. intros (_ & _ & R). unfold reference_of in R. destruct (s_type l); try discriminate; eauto 10. Qed.
Lemma refers_named n l : refers n l -> In (s_name l) (dielectric_names stack included).
Proof.
  intros R. apply refers_in in R. apply filter_In in R. apply by_key_keys. exists l. split; [apply R | reflexivity].
Qed.

(** chains with unique successors *)
Inductive uchain : string -> list slayer -> Prop :=
  | u_end n : sidewall_lookup stack included n = NotFound -> uchain n []
  | u_step n l ls : sidewall_lookup stack included n = Found l -> uchain (s_name l) ls -> uchain n (l :: ls).
Lemma uchain_chain n ls : uchain n ls -> chain stack included n ls.
Proof.
  induction 1 as [n E | n l ls E U IH]; [apply chain_end, lookup_none, E|]. apply chain_step; [apply lookup_found, E | exact IH].
Qed.
Lemma uchain_reaches n m : reaches stack included n m -> forall ls, uchain n ls -> exists ms, uchain m ms /\ (List.length ms < List.length ls)%nat.
Proof.
  induction 1 as [n l R | n l m R _ IH]; intros ls U; inversion U as [? E | ? l' ls' E U']; subst.
  - exfalso. exact (lookup_none _ E _ R).
  - assert (l = l') by (apply (lookup_found _ _ E), R). subst l'. exists ls'. split; [exact U' | cbn; lia].
  - exfalso. exact (lookup_none _ E _ R).
  - assert (l = l') by (apply (lookup_found _ _ E), R). subst l'. destruct (IH _ U') as (ms & V & L). exists ms. split; [exact V | cbn; lia].
Qed.
Lemma no_cycle m : forall ls, uchain m ls -> ~ reaches stack included m m.
Proof.
  intros ls. remember (List.length ls) as k eqn:K. revert ls K. induction k as [k IH] using lt_wf_ind. intros ls -> U R.
  destruct (uchain_reaches _ _ R _ U) as (ms & V & L). exact (IH _ L ms eq_refl V R).
Qed.
(** number of dielectrics still ahead *)
Definition ahead (rank : string -> nat) (n : string) : nat := List.length (filter (fun l => rank n <? rank (s_name l))%nat stack).
Lemma filter_lt {A} (f g : A -> bool) l x : (forall y, f y = true -> g y = true) -> In x l -> g x = true -> f x = false ->
  (List.length (filter f l) < List.length (filter g l))%nat.
Proof.
  intros I. induction l as [|y l IH]; intros J G F; [destruct J|]. cbn [filter].
  assert (LE : (List.length (filter f l) <= List.length (filter g l))%nat).
  { clear -I. induction l as [|z l IH]; cbn [filter]; [lia|]. destruct (f z) eqn:Fz; [rewrite (I _ Fz); cbn; lia|]. destruct (g z); cbn; lia. }
  destruct J as [->|J]; [rewrite F, G; cbn; lia|]. specialize (IH J G F).
  destruct (f y) eqn:Fy; [rewrite (I _ Fy); cbn; lia|]. destruct (g y); cbn; lia.
Qed.
Lemma ahead_step rank n l : (forall n l, refers n l -> (rank n < rank (s_name l))%nat) -> refers n l -> (ahead rank (s_name l) < ahead rank n)%nat.
Proof.
  intros K R. pose proof (K _ _ R) as L. unfold ahead. apply filter_lt with (x := l).
  - intros y Y. apply Nat.ltb_lt in Y. apply Nat.ltb_lt. lia.
  - apply R.
  - apply Nat.ltb_lt, L.
  - apply Nat.ltb_ge. lia.
Qed.
Lemma ahead_le rank n : (ahead rank n <= List.length stack)%nat.
Proof.
  unfold ahead. generalize (fun l => rank n <? rank (s_name l))%nat as f. intros f.
  induction stack as [|l s IH]; cbn [filter List.length]; [apply le_n|]. destruct (f l); cbn [List.length]; lia.
Qed.
End Lookup.

Section Walk.
Context {face : Type} {EF : EqDec face}.
Variables (stack : list slayer) (included : string -> bool) (dbu : Qc) (bbox : list face) (sized : Z -> list face -> list face).
Notation sidewalls := (sidewalls stack included dbu bbox sized).
Notation grown := (grown sized dbu).
Notation link_calls := (link_calls sized dbu bbox).

Lemma sidewalls_terminates rank : (forall n l, refers stack included n l -> (rank n < rank (s_name l))%nat) ->
  forall fuel z t n r h nm acc, (ahead stack rank n < fuel)%nat -> sidewalls fuel z t n r h nm acc <> SFuel.
Proof.
  intros K. induction fuel as [|fuel IH]; intros z t n r h nm acc L; [lia|]. cbn [TI_Model.sidewalls].
  destruct (sidewall_lookup stack included n) as [|l|] eqn:E; try discriminate. apply lookup_found in E. destruct E as [R _].
  pose proof (ahead_step _ _ rank n l K R) as A.
  destruct (found_type _ _ _ _ R) as [(k & a & w & f & T) | (k & o & m & s & f & T)]; rewrite T; [|destruct (qltb 0 m)]; apply IH; lia.
Qed.

(** *** distinct layer names *)
Fixpoint linked (m : slayer) (path : list slayer) : Prop :=
  match path with
  | [] => True
  | l :: rest => reference_of l = Some (s_name (hd m rest)) /\ linked m rest
  end.
Lemma name_inj (l : list slayer) a b : NoDup (map s_name l) -> In a l -> In b l -> s_name a = s_name b -> a = b.
Proof.
  induction l as [|x l IH]; intros N A B E; [destruct A|]. inversion N as [|? ? Nx N']; subst.
  destruct A as [->|A], B as [->|B]; auto; exfalso; apply Nx; [rewrite E | rewrite <- E]; apply in_map; assumption.
Qed.
Lemma linked_suffix m a : forall b, linked m (a ++ b) -> linked m b.
Proof. induction a as [|x a IH]; intros b L; [exact L|]. apply IH, L. Qed.
Lemma path_fresh m path l : NoDup (map s_name stack) -> In m stack -> reference_of m = None ->
  incl path stack -> NoDup path -> linked m path -> reference_of l = Some (s_name (hd m path)) -> ~ In l path.
Proof.
  intros N M Rm I D L R J. apply in_split in J. destruct J as (a & b & E).
  assert (Lb : linked m (l :: b)) by (apply (linked_suffix m a); rewrite <- E; exact L). destruct Lb as [Rl _].
  assert (Nm : s_name (hd m path) = s_name (hd m b)) by congruence.
  assert (Jh : In (hd m path) path) by (rewrite E; destruct a; left; reflexivity).
  assert (Rh : reference_of (hd m path) <> None).
  { rewrite E in *. destruct a as [|x a]; cbn [hd app]; [congruence|]. destruct L as [L _]. congruence. }
  destruct b as [|h' b]; cbn [hd] in Nm.
  - assert (X : hd m path = m) by (apply (name_inj stack); auto). congruence.
  - assert (X : hd m path = h').
    { apply (name_inj stack); auto. apply I. rewrite E. apply in_or_app. right. right. left. reflexivity. }
    rewrite E in D, X. destruct a as [|x a]; cbn [hd app] in X; subst.
    + inversion D as [|? ? Q _]; subst. apply Q. left. reflexivity.
    + inversion D as [|? ? Q _]; subst. apply Q. apply in_or_app. right. right. left. reflexivity.
Qed.
Lemma sidewalls_terminates_distinct m : NoDup (map s_name stack) -> In m stack -> reference_of m = None ->
  forall fuel path z t r h nm acc, incl path stack -> NoDup path -> linked m path -> (List.length stack < fuel + List.length path)%nat ->
  sidewalls fuel z t (s_name (hd m path)) r h nm acc <> SFuel.
Proof.
  intros N M Rm. induction fuel as [|fuel IH]; intros path z t r h nm acc I D L B.
  { pose proof (NoDup_incl_length D I). lia. }
  cbn [TI_Model.sidewalls]. destruct (sidewall_lookup stack included (s_name (hd m path))) as [|l|] eqn:E; try discriminate.
  apply lookup_found in E. destruct E as [R _].
  assert (Rl : reference_of l = Some (s_name (hd m path))) by apply R.
  assert (F : ~ In l path) by (eapply path_fresh; eauto).
  assert (S : forall r h nm acc, sidewalls fuel z t (s_name l) r h nm acc <> SFuel).
  { intros. apply (IH (l :: path)).
    - intros x [<-|J]; [apply R | apply I, J].
    - constructor; assumption.
    - split; assumption.
    - cbn [List.length]. lia. }
  destruct (found_type _ _ _ _ R) as [(k & a & w & f & T) | (k & o & x & s & f & T)]; rewrite T; [|destruct (qltb 0 x)]; apply S.
Qed.

(** the flat part that remains at the end of the chain *)
Definition walk (r : list face) (z t h : Qc) (ls : list slayer) : list (@call face) :=
  (fix go r h ls := match ls with
   | [] => []
   | l :: ls => let r := sized (floor_div dbu (width_of l)) r in let h := (h + rise_of t l)%Qc in
       (AddDielectric (s_name l) r z h :: match flat_part l with Some nm => [AddDielectric (s_name l) (minus bbox r) z nm] | None => [] end) ++ go r h ls
   end) r h ls.
Fixpoint last_flat (r : list face) (nm : option (list face * Qc)) (ls : list slayer) : option (list face * Qc) :=
  match ls with
  | [] => nm
  | l :: ls => let r := sized (floor_div dbu (width_of l)) r in
      last_flat r (match flat_part l with Some x => Some (minus bbox r, x) | None => nm end) ls
  end.
Lemma sidewalls_done : forall fuel z t n r h nm acc cs r' h' nm',
  sidewalls fuel z t n r h nm acc = SDone cs r' h' nm' ->
  exists ls, uchain stack included n ls /\ cs = acc ++ walk r z t h ls /\ r' = grown r ls /\ h' = (h + risen t ls)%Qc /\ nm' = last_flat r nm ls.
Proof.
  induction fuel as [|fuel IH]; intros z t n r h nm acc cs r' h' nm' E; [discriminate|]. cbn [TI_Model.sidewalls] in E.
  destruct (sidewall_lookup stack included n) as [|l|] eqn:F; [| |discriminate].
  - injection E as <- <- <- <-. exists []. repeat split.
    + constructor. exact F.
    + cbn. rewrite app_nil_r. reflexivity.
    + unfold risen. rewrite qsumf_nil. ring.
  - pose proof (lookup_found _ _ _ _ F) as [R _].
    assert (Hx : exists nm1, sidewalls fuel z t (s_name l) (sized (floor_div dbu (width_of l)) r) (h + rise_of t l)%Qc nm1
        (acc ++ (AddDielectric (s_name l) (sized (floor_div dbu (width_of l)) r) z (h + rise_of t l)%Qc ::
          match flat_part l with Some x => [AddDielectric (s_name l) (minus bbox (sized (floor_div dbu (width_of l)) r)) z x] | None => [] end))
        = SDone cs r' h' nm' /\ nm1 = match flat_part l with Some x => Some (minus bbox (sized (floor_div dbu (width_of l)) r), x) | None => nm end).
    { unfold width_of, rise_of, flat_part. destruct (found_type _ _ _ _ R) as [(k & a & w & f & T) | (k & o & m & s & f & T)]; rewrite T in *.
      - unfold qeqb in E. exists nm. split; [|reflexivity]. destruct (Qc_eq_dec a 0); exact E.
      - unfold qltb in E. destruct (Qclt_le_dec 0 m); (eexists; split; [|reflexivity]); [|exact E].
        rewrite <- app_assoc in E. exact E. }
    destruct Hx as (nm1 & E1 & ->). apply IH in E1. destruct E1 as (ls & U & -> & -> & -> & ->).
    exists (l :: ls). repeat split.
    + econstructor; eassumption.
    + rewrite <- app_assoc. reflexivity.
    + unfold risen. rewrite qsumf_cons. ring.
Qed.

Lemma flat_map_seq {A} (f : nat -> list A) n : flat_map f (seq 0 (S n)) = f 0%nat ++ flat_map (fun i => f (S i)) (seq 0 n).
Proof. cbn [seq flat_map]. rewrite <- seq_shift, !flat_map_concat_map, map_map. reflexivity. Qed.
Lemma walk_links z t : forall ls r h, walk r z t h ls =
  flat_map (fun i => match nth_error ls i with
    | None => []
    | Some l => AddDielectric (s_name l) (grown r (firstn (S i) ls)) z (h + risen t (firstn (S i) ls))%Qc ::
        match flat_part l with Some nm => [AddDielectric (s_name l) (minus bbox (grown r (firstn (S i) ls))) z nm] | None => [] end
    end) (seq 0 (List.length ls)).
Proof.
  induction ls as [|l ls IH]; intros r h; [reflexivity|]. cbn [List.length]. rewrite flat_map_seq. cbn [nth_error].
  change (walk r z t h (l :: ls)) with
    ((AddDielectric (s_name l) (sized (floor_div dbu (width_of l)) r) z (h + rise_of t l)%Qc ::
       match flat_part l with Some nm => [AddDielectric (s_name l) (minus bbox (sized (floor_div dbu (width_of l)) r)) z nm] | None => [] end) ++
     walk (sized (floor_div dbu (width_of l)) r) z t (h + rise_of t l)%Qc ls).
  rewrite IH. f_equal.
  - cbn [firstn]. unfold risen. rewrite qsumf_cons, qsumf_nil.
    replace (h + (rise_of t l + 0))%Qc with (h + rise_of t l)%Qc by ring. reflexivity.
  - apply flat_map_ext. intros i. destruct (nth_error ls i) as [l'|]; [|reflexivity].
    change (firstn (S (S i)) (l :: ls)) with (l :: firstn (S i) ls). unfold risen. rewrite qsumf_cons.
    replace (h + (rise_of t l + qsumf (rise_of t) (firstn (S i) ls)))%Qc with (h + rise_of t l + qsumf (rise_of t) (firstn (S i) ls))%Qc by ring.
    reflexivity.
Qed.
Lemma walk_spec r z t ls : walk r z t 0%Qc ls = flat_map (link_calls r z t ls) (seq 0 (List.length ls)).
Proof.
  rewrite walk_links. apply flat_map_ext. intros i. unfold TI_Spec.link_calls. destruct (nth_error ls i); [|reflexivity].
  rewrite Qcplus_0_l. reflexivity.
Qed.

(** ** growth *)
Hypothesis sized_extensive : forall d r, (0 <= d)%Z -> incl r (sized d r).
Hypothesis dbu_pos : (0 < dbu)%Qc.
Lemma floor_nonneg w : (0 <= w)%Qc -> (0 <= floor_div dbu w)%Z.
Proof.
  intros W. unfold floor_div. change 0%Z with (Qfloor 0). apply Qfloor_resp_le.
  assert (X : (0 <= w / dbu)%Qc).
  { unfold Qcdiv. rewrite <- (Qcmult_0_l (/ dbu)%Qc). apply Qcmult_le_compat_r; [exact W|].
    apply Qclt_le_weak. pose proof (Qinv_lt_0_compat _ (Qclt_this _ _ dbu_pos)) as I.
    unfold Qclt, Qcinv. eapply Qlt_le_trans; [exact I|]. rewrite this_Q2Qc. apply Qle_refl. }
  exact X.
Qed.
Lemma width_nonneg l : nonneg_layer l -> (0 <= width_of l)%Qc.
Proof. unfold nonneg_layer, width_of. destruct (s_type l); intros N; try apply Qcle_refl; tauto. Qed.
Lemma rise_nonneg t l : (0 <= t)%Qc -> nonneg_layer l -> (0 <= rise_of t l)%Qc.
Proof.
  unfold nonneg_layer, rise_of. intros T. destruct (s_type l); intros N; try apply Qcle_refl.
  - destruct N as (A & _ & _). rewrite <- (Qcplus_0_l 0). apply Qcplus_le_compat; assumption.
  - destruct (Qc_eq_dec _ _); tauto.
Qed.
Lemma grown_incl ls : (forall l, In l ls -> nonneg_layer l) -> forall r, incl r (grown r ls).
Proof.
  induction ls as [|l ls IH]; intros N r; [apply incl_refl|]. eapply incl_tran.
  - apply (sized_extensive (floor_div dbu (width_of l))). apply floor_nonneg, width_nonneg, N. left; reflexivity.
  - apply IH. intros x J. apply N. right. exact J.
Qed.
Lemma grown_app r a b : grown r (a ++ b) = grown (grown r a) b.
Proof. unfold TI_Spec.grown. apply fold_left_app. Qed.
Lemma risen_nonneg t ls : (0 <= t)%Qc -> (forall l, In l ls -> nonneg_layer l) -> (0 <= risen t ls)%Qc.
Proof.
  intros T. induction ls as [|l ls IH]; intros N; unfold risen; [rewrite qsumf_nil; apply Qcle_refl|]. rewrite qsumf_cons.
  rewrite <- (Qcplus_0_l 0). apply Qcplus_le_compat; [apply rise_nonneg; [exact T | apply N; left; reflexivity] | apply IH; intros x J; apply N; right; exact J].
Qed.
Lemma firstn_split {A} (l : list A) i j : (i <= j)%nat -> firstn j l = firstn i l ++ firstn (j - i) (skipn i l).
Proof. intros L. rewrite <- (firstn_skipn i (firstn j l)) at 1. rewrite firstn_firstn, Nat.min_l by exact L. rewrite skipn_firstn_comm. reflexivity. Qed.
Lemma firstn_In {A} (l : list A) n x : In x (firstn n l) -> In x l.
Proof. intros J. rewrite <- (firstn_skipn n l). apply in_or_app. left. exact J. Qed.
Lemma skipn_In {A} (l : list A) n x : In x (skipn n l) -> In x l.
Proof. intros J. rewrite <- (firstn_skipn n l). apply in_or_app. right. exact J. Qed.
Lemma prefix_grows r t ls i j : (0 <= t)%Qc -> (forall l, In l ls -> nonneg_layer l) -> (i <= j)%nat ->
  incl (grown r (firstn i ls)) (grown r (firstn j ls)) /\ (risen t (firstn i ls) <= risen t (firstn j ls))%Qc.
Proof.
  intros T N L. rewrite (firstn_split ls i j L). rewrite grown_app.
  assert (M : forall l, In l (firstn (j - i) (skipn i ls)) -> nonneg_layer l).
  { intros l J. apply N. eapply skipn_In, firstn_In, J. }
  split; [apply grown_incl, M|]. unfold risen. rewrite qsumf_app.
  pose proof (risen_nonneg t _ T M) as P. unfold risen in P.
  rewrite <- (Qcplus_0_r (qsumf (rise_of t) (firstn i ls))) at 1. apply Qcplus_le_compat; [apply Qcle_refl | exact P].
Qed.

(** the last element of the chain covers the whole grown region up to the full height *)
Lemma walk_last z t : forall ls r h, ls <> [] -> exists m, In (AddDielectric m (grown r ls) z (h + risen t ls)%Qc) (walk r z t h ls).
Proof.
  induction ls as [|l ls IH]; intros r h N; [congruence|]. destruct ls as [|l2 ls].
  - exists (s_name l). left. unfold risen. rewrite qsumf_cons, qsumf_nil. rewrite Qcplus_0_r. reflexivity.
  - destruct (IH (sized (floor_div dbu (width_of l)) r) (h + rise_of t l)%Qc) as [m J]; [discriminate|]. exists m.
    cbn [walk]. apply in_or_app. right. unfold risen in *. rewrite qsumf_cons. rewrite Qcplus_assoc. exact J.
Qed.
(** the remaining flat part was added, around a region that did not shrink afterwards *)
Lemma walk_flat z t : forall ls r h nm nr nh, (forall l, In l ls -> nonneg_layer l) -> last_flat r nm ls = Some (nr, nh) ->
  nm = Some (nr, nh) \/ exists m r0, nr = minus bbox r0 /\ incl r0 (grown r ls) /\ In (AddDielectric m nr z nh) (walk r z t h ls).
Proof.
  induction ls as [|l ls IH]; intros r h nm nr nh N E; [left; exact E|]. cbn [last_flat] in E.
  assert (N' : forall x, In x ls -> nonneg_layer x) by (intros x J; apply N; right; exact J).
  apply (IH _ (h + rise_of t l)%Qc) in E; [|exact N']. destruct E as [E|(m & r0 & A & B & C)].
  - destruct (flat_part l) as [x|] eqn:F; [|left; exact E]. injection E as <- <-. right.
    exists (s_name l), (sized (floor_div dbu (width_of l)) r). split; [reflexivity|]. split; [exact (grown_incl ls N' (sized (floor_div dbu (width_of l)) r))|].
    cbn [walk]. rewrite F. right. left. reflexivity.
  - right. exists m, r0. split; [exact A|]. split; [exact B|]. cbn [walk]. apply in_or_app. right. exact C.
Qed.
Lemma minus_In (a b : list face) x : In x (minus a b) <-> In x a /\ ~ In x b.
Proof.
  unfold minus. rewrite filter_In, negb_true_iff. split; intros [A B]; (split; [exact A|]).
  - intros J. assert (X : existsb (eqb x) b = true) by (apply existsb_exists; exists x; split; [exact J | apply eqb_refl]). congruence.
  - destruct (existsb (eqb x) b) eqn:E; [|reflexivity]. exfalso. apply existsb_exists in E. destruct E as (y & J & E). apply eqb_eq in E. subst. contradiction.
Qed.
End Walk.
