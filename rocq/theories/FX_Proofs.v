From Coq Require Import String Ascii Lia Lqa.
From Verif Require Import PyBase QcLra PyLib PyStr ER_Model NX_Model NX_Proofs CM_Model CM_Props FX_Model FX_Spec.
Local Open Scope Qc_scope.

(** ** axis names *)
Lemma dot_star_end_some s : all_chars (fun c => negb (Ascii.eqb c nl)) s = true -> dot_star_end s = Some s.
Proof.
  induction s as [|c s IH]; [reflexivity|]. cbn [all_chars dot_star_end]. intros H. apply andb_prop in H. destruct H as [H1 H2].
  destruct (Ascii.eqb c nl); [discriminate|]. now rewrite IH.
Qed.
Lemma axis_net_name_label nn s : axis_label nn s -> axis_net_name nn = Some s.
Proof.
  intros (ds & -> & Hne & Hd & Hs). unfold axis_net_name. rewrite drop_prefix_app.
  rewrite span_digits_app by (exact Hd || reflexivity). destruct ds as [|c ds]; [easy|].
  change (String "_" s) with ("_" ++ s)%string. rewrite (drop_prefix_app "_" s). now apply dot_star_end_some.
Qed.
Lemma find_rev_last (l : list knet) s n : last_named l s n -> find (fun n => eqb (n_name n) s) (rev l) = Some n.
Proof.
  intros (a & b & -> & Hn & Hb). rewrite rev_app_distr. cbn [rev]. rewrite <- app_assoc. cbn [app].
  assert (G : forall r, ~ In s (map n_name r) -> forall t, find (fun n => eqb (n_name n) s) (r ++ t) = find (fun n => eqb (n_name n) s) t).
  { induction r as [|x r IH]; intros Hr t; [reflexivity|]. cbn [app find map] in *.
    rewrite (proj2 (eqb_false (n_name x) s)) by (intros E; apply Hr; left; exact E). apply IH. intros E; apply Hr; now right. }
  rewrite G.
  - cbn [find]. rewrite Hn. now rewrite eqb_refl.
  - rewrite map_rev, <- in_rev. exact Hb.
Qed.
Lemma axes_map_opt l m nets : axes l m nets -> map_opt (axis_net (name_table l)) (conductor_names m) = Some nets.
Proof.
  intros H. apply map_opt_map. eapply Forall2_impl; [|exact H]. intros nn n (s & Hs & Hn). cbn beta in *.
  unfold axis_net. rewrite (axis_net_name_label _ _ Hs), name_table_get. now apply find_rev_last.
Qed.

(** ** the loops *)
Definition attempt (nets : list knet) (o : option circuit) (a : nat * nat * Qc) : option circuit :=
  match o with
  | None => None
  | Some c => if positive a then if Nat.eqb (end1 nets a) (end2 nets a) then None else Some (create_device c (cell_device nets a)) else Some c
  end.
Lemma attempt_none nets l : fold_left (attempt nets) l None = None.
Proof. induction l; auto. Qed.
Lemma add_parasitic_attempt nets i j n1 n2 v c : nth_error nets i = Some n1 ->
  nth_error nets (if Nat.eqb i j then 0 else j) = Some n2 ->
  add_parasitic_cap i j n1 n2 v c = attempt nets (Some c) (i, j, v).
Proof.
  intros H1 H2. unfold add_parasitic_cap, attempt, positive, end1, end2, cell_device, cap_name. cbn [fst snd].
  unfold end1, end2. cbn [fst snd].
  rewrite (nth_error_nth _ _ _ H1), (nth_error_nth _ _ _ H2). reflexivity.
Qed.

Lemma col_none nets row i l : fold_left (col_step nets row i) l None = None.
Proof. induction l; auto. Qed.
Lemma row_none nets m l : fold_left (row_step nets m) l None = None.
Proof. induction l; auto. Qed.

Lemma nth_some {A} (l : list A) i d : (i < List.length l)%nat -> nth_error l i = Some (nth i l d).
Proof. apply nth_error_nth'. Qed.

Lemma col_loop nets row i n : List.length nets = n -> List.length row = n -> (i < n)%nat ->
  forall l d c, Forall (fun j => (j < n)%nat) l ->
  fold_left (col_step nets row i) l (Some (d, c)) =
  match fold_left (attempt nets) (map (fun j => (i, j, - nth j row 0)) (filter (Nat.ltb i) l)) (Some c) with
  | Some c1 => Some (d + qsumf (fun j => if Nat.eqb i j then 0 else nth j row 0) l, c1)
  | None => None
  end.
Proof.
  intros Hn Hr Hi. induction l as [|j l IH]; intros d c HF.
  - cbn [fold_left filter map]. rewrite qsumf_nil. f_equal. f_equal. ring.
  - inversion HF as [|? ? Hj HF']; subst. cbn [fold_left filter]. rewrite qsumf_cons.
    unfold col_step at 2. destruct (Nat.eqb_spec i j) as [->|Hne].
    + rewrite IH by auto. destruct (Nat.ltb_spec j j); [lia|].
      destruct (fold_left (attempt nets) _ _); [|reflexivity]. f_equal. f_equal. ring.
    + rewrite (nth_some row j 0) by lia.
      destruct (Nat.ltb_spec i j) as [Hlt|Hge].
      * rewrite (nth_some nets i (KNet 0 "")), (nth_some nets j (KNet 0 "")) by lia.
        rewrite (add_parasitic_attempt nets i j).
        2:{ apply nth_some. lia. }
        2:{ destruct (Nat.eqb_spec i j); [lia|]. apply nth_some. lia. }
        cbn [map fold_left]. destruct (attempt nets (Some c) (i, j, - nth j row 0)) as [c1|].
        -- rewrite IH by auto. destruct (fold_left (attempt nets) _ _); [|reflexivity]. f_equal. f_equal. ring.
        -- now rewrite col_none, attempt_none.
      * rewrite IH by auto. destruct (fold_left (attempt nets) _ _); [|reflexivity]. f_equal. f_equal. ring.
Qed.
Lemma filter_seq_above i n : (i < n)%nat -> filter (Nat.ltb i) (seq 0 n) = seq (S i) (n - S i).
Proof.
  intros Hi. replace n with (S i + (n - S i))%nat at 1 by lia. rewrite seq_app, filter_app.
  assert (A : forall l, (forall x, In x l -> x <= i)%nat -> filter (Nat.ltb i) l = []).
  { induction l as [|x l IH]; intros H; [reflexivity|]. cbn [filter]. destruct (Nat.ltb_spec i x); [specialize (H x ltac:(now left)); lia|].
    apply IH. intros; apply H; now right. }
  assert (B : forall l, (forall x, In x l -> i < x)%nat -> filter (Nat.ltb i) l = l).
  { induction l as [|x l IH]; intros H; [reflexivity|]. cbn [filter]. destruct (Nat.ltb_spec i x); [|specialize (H x ltac:(now left)); lia].
    f_equal. apply IH. intros; apply H; now right. }
  rewrite A, B; [reflexivity| |].
  - intros x Hx. apply in_seq in Hx. lia.
  - intros x Hx. apply in_seq in Hx. lia.
Qed.
Lemma seq_split i n : (i < n)%nat -> seq 0 n = seq 0 i ++ i :: seq (S i) (n - S i).
Proof. intros Hi. replace n with (i + S (n - S i))%nat at 1 by lia. rewrite seq_app. reflexivity. Qed.
Lemma sum_without f i n : (i < n)%nat -> f i + qsumf (fun j => if Nat.eqb i j then 0 else f j) (seq 0 n) = qsumf f (seq 0 n).
Proof.
  intros Hi. rewrite (seq_split i n Hi), !qsumf_app, !qsumf_cons. rewrite Nat.eqb_refl.
  rewrite (qsumf_ext _ f (seq 0 i)).
  2:{ intros x Hx. apply in_seq in Hx. destruct (Nat.eqb_spec i x); [lia|reflexivity]. }
  rewrite (qsumf_ext _ f (seq (S i) _)).
  2:{ intros x Hx. apply in_seq in Hx. destruct (Nat.eqb_spec i x); [lia|reflexivity]. }
  ring.
Qed.
Lemma row_loop nets m n : square n m -> List.length nets = n ->
  forall l c, Forall (fun i => (i < n)%nat) l ->
  fold_left (row_step nets m) l (Some c) =
  fold_left (attempt nets) (flat_map (fun i => map (fun j => (i, j, - entry m i j)) (seq (S i) (n - S i)) ++
                     (if Nat.ltb 0 i then [(i, i, row_sum n m i)] else [])) l) (Some c).
Proof.
  intros (Hn & Hl & HR) Hnets. induction l as [|i l IH]; intros c HF; [reflexivity|].
  inversion HF as [|? ? Hi HF']; subst x l0. cbn [fold_left flat_map].
  unfold row_step at 2. rewrite (nth_some (rows m) i []) by lia.
  assert (Hrow : List.length (nth i (rows m) []) = n).
  { rewrite Forall_forall in HR. apply HR, nth_In. lia. }
  rewrite (nth_some (nth i (rows m) []) i 0) by lia.
  unfold dimension. rewrite Hn.
  rewrite (col_loop nets (nth i (rows m) []) i n Hnets Hrow Hi).
  2:{ apply Forall_forall. intros x Hx. apply in_seq in Hx. lia. }
  rewrite filter_seq_above by exact Hi. rewrite !fold_left_app.
  change (map (fun j => (i, j, - nth j (nth i (rows m) []) 0)) (seq (S i) (n - S i)))
    with (map (fun j => (i, j, - entry m i j)) (seq (S i) (n - S i))).
  destruct (fold_left (attempt nets) (map _ _) (Some c)) as [c1|].
  2:{ now rewrite row_none, !attempt_none. }
  rewrite (sum_without (fun j => nth j (nth i (rows m) []) 0) i n Hi).
  change (qsumf (fun j => nth j (nth i (rows m) []) 0) (seq 0 n)) with (row_sum n m i).
  destruct (Nat.ltb_spec 0 i) as [H0|H0].
  - rewrite (nth_some nets i (KNet 0 "")), (nth_some nets 0 (KNet 0 "")) by lia.
    rewrite (add_parasitic_attempt nets i i).
    2:{ apply nth_some. lia. }
    2:{ rewrite Nat.eqb_refl. apply nth_some. lia. }
    cbn [fold_left]. destruct (attempt nets (Some c1) _) as [c2|]; [now apply IH|now rewrite row_none, attempt_none].
  - cbn [fold_left]. now apply IH.
Qed.
Definition with_devices (c : circuit) (ds : list device) : circuit := Circuit (c_name c) (c_nets c) (c_devices c ++ ds).
Lemma attempts_ok nets l : forall c, 
  (forall a, In a l -> positive a = true -> end1 nets a <> end2 nets a) ->
  fold_left (attempt nets) l (Some c) = Some (with_devices c (map (cell_device nets) (filter positive l))).
Proof.
  induction l as [|a l IH]; intros c H.
  - cbn. unfold with_devices. rewrite app_nil_r. now destruct c.
  - cbn [fold_left attempt filter]. destruct (positive a) eqn:E.
    + destruct (Nat.eqb_spec (end1 nets a) (end2 nets a)) as [Ee|_]; [exfalso; apply (H a); [now left|auto|auto]|].
      rewrite IH by (intros; apply H; [now right|auto]). unfold with_devices, create_device. cbn. now rewrite <- app_assoc.
    + apply IH. intros; apply H; [now right|auto].
Qed.
Lemma attempts_some nets l : forall c c', fold_left (attempt nets) l (Some c) = Some c' ->
  forall a, In a l -> positive a = true -> end1 nets a <> end2 nets a.
Proof.
  induction l as [|b l IH]; intros c c' H a Ha Hp; [easy|]. cbn [fold_left attempt] in H.
  destruct (positive b) eqn:Eb.
  - destruct (Nat.eqb_spec (end1 nets b) (end2 nets b)) as [Ee|Ee]; [now rewrite attempt_none in H|].
    destruct Ha as [->|Ha]; [exact Ee|]. eapply IH; eauto.
  - destruct Ha as [->|Ha]; [congruence|]. eapply IH; eauto.
Qed.

(** ** converse facts about axes *)
Lemma span_digits_spec s a b : span_digits s = (a, b) -> s = (a ++ b)%string /\ all_chars isdigit a = true.
Proof.
  revert a b. induction s as [|c s IH]; intros a b H; cbn [span_digits] in H; [injection H as <- <-; auto|].
  destruct (isdigit c) eqn:E.
  - destruct (span_digits s) as [x y]. injection H as <- <-. destruct (IH x y eq_refl) as [-> Hx]. split; [reflexivity|].
    cbn [all_chars]. now rewrite E, Hx.
  - injection H as <- <-. auto.
Qed.
Lemma drop_prefix_spec p : forall s r, drop_prefix p s = Some r -> s = (p ++ r)%string.
Proof.
  induction p as [|c p IH]; intros s r H; cbn in H; [now injection H as <-|]. destruct s as [|x s]; [discriminate|].
  destruct (Ascii.eqb c x) eqn:E; [|discriminate]. apply Ascii.eqb_eq in E. subst. cbn. f_equal. now apply IH.
Qed.
Lemma dot_star_end_no_nl s t : all_chars (fun c => negb (Ascii.eqb c nl)) s = true -> dot_star_end s = Some t -> t = s.
Proof. intros H E. rewrite dot_star_end_some in E by exact H. congruence. Qed.
Lemma axis_net_name_inv nn s : all_chars (fun c => negb (Ascii.eqb c nl)) nn = true -> axis_net_name nn = Some s -> axis_label nn s.
Proof.
  intros Hnl H. unfold axis_net_name in H. destruct (drop_prefix "g" nn) as [r|] eqn:E1; [|discriminate].
  apply drop_prefix_spec in E1. destruct (span_digits r) as [ds r1] eqn:E2. apply span_digits_spec in E2. destruct E2 as [-> Hd].
  destruct (eqb ds ""%string) eqn:Eds; [apply eqb_eq in Eds; subst ds; discriminate|]. apply eqb_neq in Eds.
  assert (H' : match drop_prefix "_" r1 with Some rest => dot_star_end rest | None => None end = Some s).
  { destruct ds; [easy|exact H]. }
  clear H. rename H' into H.
  destruct (drop_prefix "_" r1) as [rest|] eqn:E3; [|discriminate]. apply drop_prefix_spec in E3. subst.
  rewrite !all_chars_app in Hnl. apply andb_prop in Hnl. destruct Hnl as [_ Hnl]. apply andb_prop in Hnl. destruct Hnl as [_ Hnl].
  apply andb_prop in Hnl. destruct Hnl as [_ Hnl]. apply dot_star_end_no_nl in H; [|exact Hnl]. subst.
  exists ds. repeat split; auto.
Qed.
Lemma find_last_named l s g : find (fun n => eqb (n_name n) s) (rev l) = Some g -> last_named l s g.
Proof.
  assert (G : forall l g, find (fun n => eqb (n_name n) s) l = Some g ->
       exists a b, l = a ++ g :: b /\ n_name g = s /\ ~ In s (map n_name a)).
  { clear. induction l as [|x l IH]; intros g H; [discriminate|]. cbn [find] in H.
    destruct (eqb (n_name x) s) eqn:E.
    - injection H as <-. exists [], l. split; [reflexivity|]. split; [now apply eqb_eq|easy].
    - destruct (IH g H) as (a & b & -> & Hg & Ha). exists (x :: a), b. split; [reflexivity|]. split; [exact Hg|].
      cbn. intros [H1|H1]; [|easy]. now apply eqb_neq in E. }
  intros Eg. destruct (G _ _ Eg) as (a & b & Er & Hg & Ha). exists (rev b), (rev a).
  split; [|split; [exact Hg|rewrite map_rev, <- in_rev; exact Ha]].
  rewrite <- (rev_involutive l), Er, rev_app_distr. cbn [rev]. now rewrite <- app_assoc.
Qed.

Lemma map_opt_inv {A B} (f : A -> option B) l : forall r, map_opt f l = Some r -> Forall2 (fun x y => f x = Some y) l r.
Proof.
  induction l as [|x l IH]; intros r H; cbn in H; [injection H as <-; constructor|].
  destruct (f x) eqn:E; [|discriminate]. destruct (map_opt f l); [|discriminate]. injection H as <-. constructor; auto.
Qed.
Lemma map_opt_axes l m nets :
  Forall (fun nn => all_chars (fun ch => negb (Ascii.eqb ch nl)) nn = true) (conductor_names m) ->
  map_opt (axis_net (name_table l)) (conductor_names m) = Some nets -> axes l m nets.
Proof.
  intros HF H. apply map_opt_inv in H. unfold axes. induction H as [|nn x names xs Hx H IH]; constructor.
  - inversion HF; subst. unfold axis_net in Hx. destruct (axis_net_name nn) as [s|] eqn:E; [|discriminate].
    exists s. split; [now apply axis_net_name_inv|]. rewrite name_table_get in Hx. now apply find_last_named.
  - inversion HF; subst. auto.
Qed.
Lemma axes_dec l m : Forall (fun nn => all_chars (fun ch => negb (Ascii.eqb ch nl)) nn = true) (conductor_names m) ->
  (exists nets, axes l m nets) \/ (forall nets, ~ axes l m nets).
Proof.
  intros HF. destruct (map_opt (axis_net (name_table l)) (conductor_names m)) as [nets|] eqn:E.
  - left. exists nets. now apply map_opt_axes.
  - right. intros nets H. apply axes_map_opt in H. congruence.
Qed.
