(** C115: which of the dielectrics around a metal the field solver sees. *)
From Coq Require Import String QArith.Qround.
From Verif Require Import PyBase PyLib SW_Model SW_Spec TI_Model TI_Spec TI_Tables TI_Proofs DW_Spec DW_Proofs.
From Verif Require SW_Proofs FG_Props TI_Props.
Local Open Scope string_scope.
Local Open Scope list_scope.

Lemma listed_owner {face} {EF : EqDec face} stack included dbu nets ls bbox sized et fuel (cs : list (@call face)) a b level p :
  build_calls stack included dbu nets ls bbox sized et fuel = BCalls cs ->
  listed_before stack included a b -> not_oxide stack b -> present_above dbu cs level p (Mat a) = true ->
  owner_above dbu cs level p <> Some (Mat b).
Proof.
  intros E L O P. destruct (build_materials _ _ _ _ _ _ _ _ _ _ E) as (fox & k & ds & Jf & Tf & M & _).
  unfold owner_above, priority. rewrite SW_Proofs.find_app. destruct (find _ (map Net (nets_of cs))) as [o|] eqn:F.
  - apply find_some in F. destruct F as [F _]. apply in_map_iff in F. destruct F as (n & <- & _). discriminate.
  - apply (find_ord _ _ (Mat a)); [|exact P]. apply ord_Mat. rewrite M. apply firsts_ord; [|intros []].
    destruct (names_ord _ _ _ _ L) as (N & x & y & -> & Nb). split; [exact N|]. exists (s_name fox :: x), y. split; [reflexivity|].
    intros [J|J]; [exact (O fox k Jf Tf J) | exact (Nb J)].
Qed.
Lemma link_present {face} {EF : EqDec face} stack included dbu nets layer_shapes bbox sized et fuel (cs : list (@call face)) m z t c first rest ls i name region height level p :
  build_calls stack included dbu nets layer_shapes bbox sized et fuel = BCalls cs ->
  In m stack -> s_type m = Metal z t c -> layer_shapes (s_name m) = Some (first :: rest) ->
  chain stack included (s_name m) ls -> link_body sized dbu (first :: rest) t ls i name region height ->
  inside dbu region z height level p -> present_above dbu cs level p (Mat name) = true.
Proof.
  intros E J T S C B (P & L1 & L2). destruct (build_materials _ _ _ _ _ _ _ _ _ _ E) as (fox & k & ds & _ & _ & _ & A & I).
  destruct (all_of_metal _ _ _ _ _ _ _ _ _ _ _ A J) as (cm & Em & Im).
  apply existsb_exists. exists (AddDielectric name region z height). split; [exact (I _ (Im _ (link_added _ _ _ _ _ _ _ _ _ _ _ _ _ _ _ _ _ _ _ _ T S Em C B)))|].
  cbn [call_adds]. rewrite eqb_refl. apply Z.leb_le in L1. apply Z.ltb_lt in L2. rewrite L1, L2. cbn. apply existsb_exists. exists p. split; [exact P | apply eqb_refl].
Qed.

(** If the stack lists the inner of two dielectrics around a metal before the outer one, the model has nowhere the outer one in the
    place of the inner one. *)
Theorem C115_inner_first :
  forall (face : Type) (EF : EqDec face) (stack : list slayer) (included : string -> bool) (dbu : Qc)
    (nets : list (string * (string -> option (list face)))) (layer_shapes : string -> option (list face))
    (bbox : list face) (sized : Z -> list face -> list face) (empty_truthy : bool) (fuel : nat) (cs : list (@call face))
    (m : slayer) (z t : Qc) (c : option contact) (first : face) (rest : list face) (around : list slayer)
    (i j : nat) (inner outer : string) (ri ro : list face) (hi ho : Qc) (level : Z) (p : face),
  build_calls stack included dbu nets layer_shapes bbox sized empty_truthy fuel = BCalls cs ->
  In m stack -> s_type m = Metal z t c -> layer_shapes (s_name m) = Some (first :: rest) ->
  chain stack included (s_name m) around ->
  link_body sized dbu (first :: rest) t around i inner ri hi -> link_body sized dbu (first :: rest) t around j outer ro ho -> (i < j)%nat ->
  listed_before stack included inner outer -> not_oxide stack outer ->
  inside dbu ri z hi level p ->
  owner_above dbu cs level p <> Some (Mat outer).
Proof.
  intros face EF stack included dbu nets ls bbox sized et fuel cs m z t c first rest ar i j inner outer ri ro hi ho level p E J T S C Bi Bj _ L O P.
  apply (listed_owner _ _ _ _ _ _ _ _ _ _ _ _ _ _ E L O). exact (link_present _ _ _ _ _ _ _ _ _ _ _ _ _ _ _ _ _ _ _ _ _ _ _ E J T S C Bi P).
Qed.
Print Assumptions C115_inner_first.

(** If it lists the outer one before, the inner one is missing from all of its own place. *)
Theorem C115_outer_first :
  forall (face : Type) (EF : EqDec face) (stack : list slayer) (included : string -> bool) (dbu : Qc)
    (nets : list (string * (string -> option (list face)))) (layer_shapes : string -> option (list face))
    (bbox : list face) (sized : Z -> list face -> list face) (empty_truthy : bool) (fuel : nat) (cs : list (@call face))
    (m : slayer) (z t : Qc) (c : option contact) (first : face) (rest : list face) (around : list slayer)
    (i j : nat) (inner outer : string) (ri ro : list face) (hi ho : Qc) (level : Z) (p : face),
  (forall d r, (0 <= d)%Z -> incl r (sized d r)) -> (0 < dbu)%Qc -> (forall l, In l stack -> nonneg_layer l) ->
  build_calls stack included dbu nets layer_shapes bbox sized empty_truthy fuel = BCalls cs ->
  In m stack -> s_type m = Metal z t c -> layer_shapes (s_name m) = Some (first :: rest) ->
  chain stack included (s_name m) around ->
  link_body sized dbu (first :: rest) t around i inner ri hi -> link_body sized dbu (first :: rest) t around j outer ro ho -> (i < j)%nat ->
  listed_before stack included outer inner -> not_oxide stack inner ->
  inside dbu ri z hi level p ->
  owner_above dbu cs level p <> Some (Mat inner).
Proof.
  intros face EF stack included dbu nets ls bbox sized et fuel cs m z t c first rest ar i j inner outer ri ro hi ho level p Sx Dp Nn E J T Sh C Bi Bj Lij L O P.
  apply (listed_owner _ _ _ _ _ _ _ _ _ _ _ _ _ _ E L O).
  apply (link_present _ _ _ _ _ _ _ _ _ _ _ _ _ _ _ _ _ _ _ _ _ _ _ E J T Sh C Bj).
  destruct Bi as (li & Ni & _ & -> & ->). destruct Bj as (lj & Nj & _ & -> & ->). destruct P as (P & L1 & L2).
  assert (Tn : (0 <= t)%Qc) by (pose proof (Nn m J) as X; unfold nonneg_layer in X; rewrite T in X; exact X).
  destruct (TI_Props.C38_links_nested face sized dbu (first :: rest) t ar (S i) (S j) Sx Dp Tn) as (_ & I & H); [|lia|].
  - intros l Jl. apply Nn. destruct (link_refers _ _ _ _ C l Jl) as (k & R & _). exact R.
  - split; [exact (I _ P)|]. split; [exact L1|]. eapply Z.lt_le_trans; [exact L2|]. apply FG_Props.C37_monotone; [exact Dp|].
    apply Qcplus_le_compat; [apply Qcle_refl | exact H].
Qed.
Print Assumptions C115_outer_first.

(** Everywhere outside of the conductors and the field oxide, the model has the dielectric that is listed first among those added there. *)
Theorem C115_first_listed :
  forall (face : Type) (EF : EqDec face) (stack : list slayer) (included : string -> bool) (dbu : Qc)
    (nets : list (string * (string -> option (list face)))) (layer_shapes : string -> option (list face))
    (bbox : list face) (sized : Z -> list face -> list face) (empty_truthy : bool) (fuel : nat) (cs : list (@call face))
    (x y : list slayer) (l : slayer) (level : Z) (p : face),
  build_calls stack included dbu nets layer_shapes bbox sized empty_truthy fuel = BCalls cs ->
  stack = x ++ l :: y -> used_dielectric included l ->
  (forall n, present_above dbu cs level p (Net n) = false) ->
  (forall f k, In f stack -> s_type f = FieldOxide k -> present_above dbu cs level p (Mat (s_name f)) = false) ->
  (forall w, In w x -> used_dielectric included w -> present_above dbu cs level p (Mat (s_name w)) = false) ->
  present_above dbu cs level p (Mat (s_name l)) = true ->
  owner_above dbu cs level p = Some (Mat (s_name l)).
Proof.
  intros face EF stack included dbu nets ls bbox sized et fuel cs x y l level p E D U Nn Nf Nx P.
  destruct (build_materials _ _ _ _ _ _ _ _ _ _ E) as (fox & k & ds & Jf & Tf & M & _).
  destruct (owner_above dbu cs level p) as [[n|b]|] eqn:W.
  - exfalso. apply find_some in W. rewrite Nn in W. destruct W. discriminate.
  - destruct (eq_dec (s_name l) b) as [->|Nb]; [reflexivity|]. exfalso. pose proof W as W'. apply find_some in W'. destruct W' as [_ Pb].
    refine (listed_owner _ _ _ _ _ _ _ _ _ _ (s_name l) b _ _ E _ _ P W).
    + split; [exact Nb|]. exists x, l, y. split; [exact D|]. split; [reflexivity|]. split; [exact U|]. intros w Jw Uw Ew. rewrite <- Ew, (Nx w Jw Uw) in Pb. discriminate.
    + intros f k' Jf' Tf' Ef. rewrite <- Ef, (Nf f k' Jf' Tf') in Pb. discriminate.
  - exfalso. unfold owner_above in W. apply (find_none _ _) with (x := Mat (s_name l)) in W; [congruence|].
    unfold priority. apply in_or_app. right. apply in_map. rewrite M.
    destruct (TI_Props.In_firsts (s_name fox :: dielectric_names stack included) [] (s_name l)) as [[]|X]; [|exact X]. right.
    apply by_key_keys. exists l. split; [|reflexivity]. apply in_filtered. split; [rewrite D; apply in_or_app; right; left; reflexivity|].
    apply andb_prop. apply used_kept, U.
Qed.
Print Assumptions C115_first_listed.

(** ** a metal under two passivations, as in IHP's stack; faces 0 (metal), 1 and 2 (beside it), 3 (far away) *)
Definition ex_stack (first second : slayer) : list slayer :=
  [SLayer "subs" (Substrate 1 1); SLayer "fox" (FieldOxide (Q2Qc 4)); SLayer "poly" (Metal 1 1 None); SLayer "ild" (SimpleDiel (Q2Qc 4));
   SLayer "top" (Metal (Q2Qc 8) (Q2Qc 2) None); first; second; SLayer "air" (SimpleDiel 1)].
Definition pass1 : slayer := SLayer "pass1" (ConformalDiel (Q2Qc 4) 1 1 1 "top").
Definition pass2 : slayer := SLayer "pass2" (ConformalDiel (Q2Qc 7) 1 1 1 "pass1").
Definition ex_inc (s : string) : bool := true.
Definition ex_grow (d : Z) (r : list nat) : list nat :=
  if (0 <? d)%Z then r ++ flat_map (fun x => match x with 0 => [1] | 1 => [2] | _ => [] end)%nat r else r.
Definition ex_layers (s : string) : option (list nat) := if eqb s "top" then Some [0%nat] else None.
Definition ex_nets : list (string * (string -> option (list nat))) := [("A", ex_layers)].
Notation ex_calls a b := (match build_calls (ex_stack a b) ex_inc 1%Qc ex_nets ex_layers [0; 1; 2; 3]%nat ex_grow true 10 with BCalls cs => cs | _ => [] end).
(** who is at heights 9 to 10 at the four places *)
Notation ex_owners a b := (map (fun p => owner_above 1%Qc (ex_calls a b) 9 p) [0; 1; 2; 3]%nat).
Example C115_inner_case : ex_owners pass1 pass2 = [Some (Net "A"); Some (Mat "pass1"); Some (Mat "pass2"); Some (Mat "air")].
Proof. vm_compute. reflexivity. Qed.
(** the same two with the outer one listed first: the inner one is gone *)
Example C115_outer_case : ex_owners pass2 pass1 = [Some (Net "A"); Some (Mat "pass2"); Some (Mat "pass2"); Some (Mat "air")].
Proof. vm_compute. reflexivity. Qed.
Definition chain_of (a b : slayer) := chain (ex_stack a b) ex_inc "top" [pass1; pass2].
Lemma ex_chain a b : (a = pass1 /\ b = pass2) \/ (a = pass2 /\ b = pass1) -> chain_of a b.
Proof.
  intros D. unfold chain_of.
  assert (I : In pass1 (ex_stack a b) /\ In pass2 (ex_stack a b)) by (destruct D as [[-> ->]|[-> ->]]; cbn; tauto).
  apply chain_step; [repeat split; apply I|]. apply chain_step; [repeat split; apply I|]. apply chain_end. intros l (J & _ & R).
  destruct D as [[-> ->]|[-> ->]]; cbn in J; repeat (destruct J as [<-|J]; [cbn in R; discriminate|]); destruct J.
Qed.
Lemma ex_oxide a b : (a = pass1 /\ b = pass2) \/ (a = pass2 /\ b = pass1) -> not_oxide (ex_stack a b) "pass1" /\ not_oxide (ex_stack a b) "pass2".
Proof.
  intros D. split; intros l k J T; destruct D as [[-> ->]|[-> ->]]; cbn in J; repeat (destruct J as [<-|J]; [cbn in T; try discriminate; cbn; discriminate|]); destruct J.
Qed.
(** both theorems apply to these cases: the chain, the order, the bodies and a place inside *)
Example C115_applies :
  chain_of pass1 pass2 /\ chain_of pass2 pass1 /\
  listed_before (ex_stack pass1 pass2) ex_inc "pass1" "pass2" /\ listed_before (ex_stack pass2 pass1) ex_inc "pass2" "pass1" /\
  link_body ex_grow 1%Qc [0%nat] (Q2Qc 2) [pass1; pass2] 0 "pass1" [0; 1]%nat (risen (Q2Qc 2) [pass1]) /\
  link_body ex_grow 1%Qc [0%nat] (Q2Qc 2) [pass1; pass2] 1 "pass2" [0; 1; 1; 2]%nat (risen (Q2Qc 2) [pass1; pass2]) /\
  inside 1%Qc [0; 1]%nat (Q2Qc 8) (risen (Q2Qc 2) [pass1]) 9 1%nat.
Proof.
  split; [apply ex_chain; auto|]. split; [apply ex_chain; auto|].
  split; [|split; [|split; [|split]]].
  - split; [discriminate|]. exists (firstn 5 (ex_stack pass1 pass2)), pass1, (skipn 6 (ex_stack pass1 pass2)). split; [reflexivity|]. split; [reflexivity|]. split; [reflexivity|].
    intros w J _. cbn in J. repeat (destruct J as [<-|J]; [cbn; discriminate|]). destruct J.
  - split; [discriminate|]. exists (firstn 5 (ex_stack pass2 pass1)), pass2, (skipn 6 (ex_stack pass2 pass1)). split; [reflexivity|]. split; [reflexivity|]. split; [reflexivity|].
    intros w J _. cbn in J. repeat (destruct J as [<-|J]; [cbn; discriminate|]). destruct J.
  - exists pass1. split; [reflexivity|]. split; [reflexivity|]. split; [vm_compute; reflexivity | reflexivity].
  - exists pass2. split; [reflexivity|]. split; [reflexivity|]. split; [vm_compute; reflexivity | reflexivity].
  - split; [right; left; reflexivity|]. split; [vm_compute; discriminate | vm_compute; reflexivity].
Qed.

(** ** C116 *)
(** What is added for two dielectrics around a metal, the outer one conformal and next to the inner one: its top is its thickness over
    metal above the top of the inner one, and the thickness of the metal higher still. *)
Theorem C116_later_rise :
  forall (face : Type) (EF : EqDec face) (stack : list slayer) (included : string -> bool) (dbu : Qc)
    (nets : list (string * (string -> option (list face)))) (layer_shapes : string -> option (list face))
    (bbox : list face) (sized : Z -> list face -> list face) (empty_truthy : bool) (fuel : nat) (cs : list (@call face))
    (m : slayer) (z t : Qc) (c : option contact) (first : face) (rest : list face) (around : list slayer)
    (i : nat) (a b : slayer) (k over nm side : Qc) (r : string),
  build_calls stack included dbu nets layer_shapes bbox sized empty_truthy fuel = BCalls cs ->
  In m stack -> s_type m = Metal z t c -> layer_shapes (s_name m) = Some (first :: rest) ->
  chain stack included (s_name m) around ->
  nth_error around i = Some a -> nth_error around (S i) = Some b -> s_type b = ConformalDiel k over nm side r ->
  exists ra rb ha, In (AddDielectric (s_name a) ra z ha) cs /\ In (AddDielectric (s_name b) rb z (ha + over + t)%Qc) cs.
Proof.
  intros face EF stack included dbu nets ls bbox sized et fuel cs m z t c first rest ar i a b k over nm side r E J T Sh C Na Nb Tb.
  destruct (build_materials _ _ _ _ _ _ _ _ _ _ E) as (fox & kf & ds & _ & _ & _ & A & I).
  destruct (all_of_metal _ _ _ _ _ _ _ _ _ _ _ A J) as (cm & Em & Im).
  exists (grown sized dbu (first :: rest) (firstn (S i) ar)), (grown sized dbu (first :: rest) (firstn (S (S i)) ar)), (risen t (firstn (S i) ar)).
  split; apply I, Im.
  - apply (link_added _ _ _ _ _ _ _ _ _ _ _ _ _ _ _ _ i _ _ _ T Sh Em C). exists a. repeat split; assumption.
  - apply (link_added _ _ _ _ _ _ _ _ _ _ _ _ _ _ _ _ (S i) _ _ _ T Sh Em C). exists b. split; [exact Nb|]. split; [reflexivity|]. split; [reflexivity|].
    assert (F : firstn (S (S i)) ar = firstn (S i) ar ++ [b]).
    { clear -Nb. revert ar Nb. generalize (S i). intros n. induction n as [|n IH]; intros [|x ar] N; try discriminate; cbn in N.
      - injection N as ->. reflexivity.
      - change (x :: firstn (S n) ar = x :: (firstn n ar ++ [b])). rewrite (IH ar N). reflexivity. }
    assert (Rb : rise_of t b = (t + over)%Qc) by (unfold rise_of; rewrite Tb; reflexivity).
    rewrite F. unfold risen. rewrite qsumf_app, qsumf_cons, qsumf_nil, Rb. ring.
Qed.
Print Assumptions C116_later_rise.
(** The first one around the metal is right: its top is its thickness over metal above the top of the metal. *)
Theorem C116_first_rise :
  forall (face : Type) (EF : EqDec face) (stack : list slayer) (included : string -> bool) (dbu : Qc)
    (nets : list (string * (string -> option (list face)))) (layer_shapes : string -> option (list face))
    (bbox : list face) (sized : Z -> list face -> list face) (empty_truthy : bool) (fuel : nat) (cs : list (@call face))
    (m : slayer) (z t : Qc) (c : option contact) (first : face) (rest around : _)
    (b : slayer) (k over nm side : Qc) (r : string),
  build_calls stack included dbu nets layer_shapes bbox sized empty_truthy fuel = BCalls cs ->
  In m stack -> s_type m = Metal z t c -> layer_shapes (s_name m) = Some (first :: rest) ->
  chain stack included (s_name m) (b :: around) -> s_type b = ConformalDiel k over nm side r ->
  exists rb, In (AddDielectric (s_name b) rb z (t + over)%Qc) cs.
Proof.
  intros face EF stack included dbu nets ls bbox sized et fuel cs m z t c first rest ar b k over nm side r E J T Sh C Tb.
  destruct (build_materials _ _ _ _ _ _ _ _ _ _ E) as (fox & kf & ds & _ & _ & _ & A & I).
  destruct (all_of_metal _ _ _ _ _ _ _ _ _ _ _ A J) as (cm & Em & Im).
  exists (grown sized dbu (first :: rest) [b]). apply I, Im.
  apply (link_added _ _ _ _ _ _ _ _ _ _ _ _ _ _ _ _ 0%nat _ _ _ T Sh Em C). exists b. split; [reflexivity|]. split; [reflexivity|]. split; [reflexivity|].
  cbn [firstn]. unfold risen. rewrite qsumf_cons, qsumf_nil. unfold rise_of. rewrite Tb. ring.
Qed.
Print Assumptions C116_first_rise.
(** So it is false that the layers lie one upon the other with the thicknesses of the technology: over a metal of thickness 2 from
    height 8, with two conformal dielectrics of thickness 1, the second one should end at height 12; it ends at 14. *)
Theorem C116_thickness_refuted :
  exists cs : list (@call nat), build_calls (ex_stack pass1 pass2) ex_inc 1%Qc ex_nets ex_layers [0; 1; 2; 3]%nat ex_grow true 10 = BCalls cs /\
    map (fun z => owner_above 1%Qc cs z 0%nat) [9; 10; 11; 12; 13; 14]%Z =
    [Some (Net "A"); Some (Mat "pass1"); Some (Mat "pass2"); Some (Mat "pass2"); Some (Mat "pass2"); None].
Proof. eexists. split; [vm_compute; reflexivity | vm_compute; reflexivity]. Qed.
Print Assumptions C116_thickness_refuted.
(** C115_first_listed applies at place 2: no conductor, no field oxide, and nothing of what is listed before pass2 *)
Lemma no_conductor (dbu : Qc) (cs : list (@call nat)) level p :
  forallb (fun c => match c with
    | AddConductor _ r z h => negb ((z2norm dbu z <=? level)%Z && (level <? z2norm dbu (z + h)%Qc)%Z && existsb (eqb p) r) | _ => true end) cs = true ->
  forall n, present_above dbu cs level p (Net n) = false.
Proof.
  intros F n. unfold present_above. induction cs as [|c cs IH]; [reflexivity|]. cbn [forallb] in F. apply andb_prop in F. destruct F as [K F].
  cbn [existsb]. rewrite (IH F), orb_false_r. destruct c as [m|n' r z h|m r z h]; cbn [call_adds]; try reflexivity.
  destruct (eqb n' n); [|reflexivity]. apply negb_true_iff in K. exact K.
Qed.
Example C115_first_case :
  (forall n, present_above 1%Qc (ex_calls pass1 pass2) 9 2%nat (Net n) = false) /\
  map (fun m => present_above 1%Qc (ex_calls pass1 pass2) 9 2%nat (Mat m)) ["fox"; "ild"; "pass1"; "pass2"] = [false; false; false; true] /\
  map s_name (filter (is_dielectric) (firstn 6 (ex_stack pass1 pass2))) = ["ild"; "pass1"].
Proof.
  split; [|split].
  - apply no_conductor. vm_compute. reflexivity.
  - vm_compute. reflexivity.
  - reflexivity.
Qed.
