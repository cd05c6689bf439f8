(** Who should be credited with which part of the bottom polygon. *)
From Coq Require Import String Sorted.
From Verif Require Import PyBase PyLib ER_Model OV_Model.
Set Implicit Arguments.
Local Open Scope Qc_scope.

Section Spec.
Context {pt : Type}.
(** what one needs to know about Region.area *)
Record measure (area : region pt -> Qc) : Prop := {
  m_ext : forall a b, (forall p, a p = b p) -> area a = area b;
  m_nonneg : forall a, 0 <= area a;
  m_empty : area (fun _ => false) = 0;
  m_add : forall a b, (forall p, a p && b p = false) -> area (fun p => a p || b p) = area a + area b }.

Definition disjoint (a b : region pt) : Prop := forall p, a p = true -> b p = true -> False.
Definition subset (a b : region pt) : Prop := forall p, a p = true -> b p = true.

(** the polygons above layer [inside] whose net differs from [net_bot], lowest layer first *)
Definition candidates (layers inside : nat) (nb : dict nat (list (poly pt))) (net_bot : string) : list (nat * poly pt) :=
  filter (fun e => negb (eqb (p_net (snd e)) net_bot))
    (flat_map (fun k => match dget nb k with Some ps => map (pair k) ps | None => [] end)
              (seq (S inside) (layers - S inside))).

(** the net the bottom polygon belongs to *)
Definition bottom_net (substrate bot_name : string) (polygon : poly pt) : string :=
  if eqb bot_name substrate then substrate else p_net polygon.

(** the points of the bottom polygon for which candidate [i] is the first one covering them *)
Definition first_cover (bottom : region pt) (l : list (nat * poly pt)) (i : nat) : region pt :=
  fun p => bottom p && match nth_error l i with
                       | Some e => p_points (snd e) p && negb (existsb (fun e' => p_points (snd e') p) (firstn i l))
                       | None => false
                       end.

(** the overlap capacitance specified for a pair of layers *)
Definition specified (specs : dict string (dict string Qc)) (top bot : string) (c : Qc) : Prop :=
  exists t, dget specs top = Some t /\ dget t bot = Some c.

Section Expected.
Variables (area : region pt -> Qc) (dbu : Qc) (specs : dict string (dict string Qc)) (layer_names : list string).
Variables (bot_name net_bot : string) (bottom : region pt) (cands : list (nat * poly pt)).

(** candidate [i] has capacitance [v]: the points it covers first times the specified capacitance *)
Definition worth (i : nat) (v : Qc) : Prop :=
  exists k p c, nth_error cands i = Some (k, p)
    /\ specified specs (nth k layer_names EmptyString) bot_name c
    /\ v = area (first_cover bottom cands i) * (dbu * dbu) * c / Q2Qc 1000.

(** [e] is the report for candidate [i] *)
Definition report_for (i : nat) (e : emitted pt) : Prop :=
  exists k p v, nth_error cands i = Some (k, p) /\ worth i v /\ 0 < v
    /\ em_top e = p
    /\ (forall q, em_area e q = first_cover bottom cands i q)
    /\ em_cap e = OverlapCap (nth k layer_names EmptyString, p_net p, bot_name, net_bot) v 0 0.

(** [out] reports, in order, exactly the candidates among the first [n] which are worth something *)
Definition reports_first (n : nat) (out : list (emitted pt)) : Prop :=
  exists idx, StronglySorted lt idx
    /\ (forall i, In i idx <-> (i < n)%nat /\ exists v, worth i v /\ 0 < v)
    /\ Forall2 report_for idx out.
End Expected.

Fixpoint rsum (l : list Qc) : Qc := match l with [] => 0 | x :: t => x + rsum t end.
End Spec.
