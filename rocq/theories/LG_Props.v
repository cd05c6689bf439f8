(** C27, C28, C60, C61: the FasterCap and FastCap log parsers. *)
From Coq Require Import String Ascii ZArith Lia.
From Verif Require Import PyBase QcLra PyLib PyStr CM_Model CM_Props FX_Proofs LG_Model LG_Spec.
Local Open Scope string_scope.

(** ** lines *)
Lemma all_spaces n : all_chars isspace (spaces n) = true.
Proof. induction n; [reflexivity|]. cbn [spaces all_chars]. now rewrite IHn. Qed.
Lemma lstrip_spaces w s : all_chars isspace w = true -> lstrip (w ++ s) = lstrip s.
Proof. induction w as [|c w IH]; [reflexivity|]. cbn. intros H. apply andb_prop in H. destruct H as [-> H]. auto. Qed.
Lemma strip_leading w s : all_chars isspace w = true -> strip (w ++ s) = strip s.
Proof. intros H. unfold strip. now rewrite lstrip_spaces. Qed.
Lemma line_text_tail toks a b : line_text toks (a ++ b) = line_text toks a ++ b.
Proof. induction toks as [|[n t] r IH]; cbn [line_text]; [reflexivity|]. now rewrite IH, !str_app_assoc. Qed.
Lemma last_char_app s t : t <> "" -> last_char (s ++ t) = last_char t.
Proof.
  intros Ht. induction s as [|c s IH]; [reflexivity|]. cbn [append last_char]. rewrite IH.
  destruct (s ++ t) eqn:E; [|reflexivity]. destruct s; [cbn in E; easy|discriminate].
Qed.
Lemma no_space_last t c : no_space t = true -> last_char t = Some c -> isspace c = false.
Proof.
  revert c. induction t as [|a t IH]; intros c H E; [discriminate|]. unfold no_space in *. cbn [all_chars] in H. apply andb_prop in H. destruct H as [H1 H2].
  cbn [last_char] in E. destruct t; [injection E as <-; now apply Bool.negb_true_iff|]. now apply IH.
Qed.
Lemma last_char_some t : t <> "" -> exists c, last_char t = Some c.
Proof. induction t as [|a t IH]; [easy|]. intros _. cbn [last_char]. destruct t; [now exists a|]. apply IH. discriminate. Qed.
Lemma line_last r : forall t0, Forall token (t0 :: map snd r) -> exists c, last_char (t0 ++ line_text r "") = Some c /\ isspace c = false.
Proof.
  induction r as [|[n t] r IH]; intros t0 HF.
  - inversion HF as [|? ? [Hne Hs] _]; subst. cbn [line_text]. rewrite str_app_nil. destruct (last_char_some t0 Hne) as [c Hc]. exists c. split; [exact Hc|].
    eapply no_space_last; eauto.
  - cbn [map snd] in HF. inversion HF as [|? ? _ HF']; subst. destruct (IH t HF') as (c & Hc & Hs). exists c. split; [|exact Hs].
    cbn [line_text]. rewrite <- str_app_assoc, last_char_app; [exact Hc|].
    inversion HF' as [|? ? [Hne _] _]; subst. destruct t; [easy|discriminate].
Qed.
Lemma line_strip n0 t0 r tail : Forall token (t0 :: map snd r) -> all_chars isspace tail = true ->
  strip (line_text ((n0, t0) :: r) tail) = t0 ++ line_text r "".
Proof.
  intros HF Ht. cbn [line_text]. rewrite strip_leading by apply all_spaces.
  replace (line_text r tail) with (line_text r "" ++ tail) by (now rewrite <- line_text_tail).
  rewrite <- str_app_assoc. apply strip_trimmed_app; [|exact Ht].
  destruct (line_last r t0 HF) as (c & Hc & Hs). unfold trimmed. rewrite Hc, Hs.
  inversion HF as [|? ? [Hne Hns] _]; subst. destruct t0 as [|a t0]; [easy|]. cbn [append].
  unfold no_space in Hns. cbn in Hns. apply andb_prop in Hns. destruct Hns as [Ha _]. now rewrite Ha.
Qed.
Lemma no_space_blank t : no_space t = true -> all_chars (fun c => negb (Ascii.eqb c " ")) t = true.
Proof.
  apply all_chars_impl. intros c H. destruct (Ascii.eqb_spec c " "); [subst; discriminate|reflexivity].
Qed.
Lemma split_spaces k s : split_on " " (spaces k ++ s) = (repeat "" k ++ split_on " " s)%list.
Proof. induction k; [reflexivity|]. cbn [spaces append split_on repeat app]. now rewrite IHk. Qed.
Lemma filter_empties k l : filter nonempty (map strip (repeat "" k ++ l)) = filter nonempty (map strip l).
Proof. induction k; [reflexivity|]. exact IHk. Qed.
Lemma token_strip t : token t -> strip t = t /\ nonempty t = true.
Proof.
  intros [Hne Hs]. split; [apply strip_trimmed, no_space_trimmed, Hs|]. unfold nonempty. destruct t; [easy|reflexivity].
Qed.
Lemma split_body r : forall t0, Forall token (t0 :: map snd r) -> Forall (fun p => (1 <= fst p)%nat) r ->
  filter nonempty (map strip (split_on " " (t0 ++ line_text r ""))) = t0 :: map snd r /\
  (r <> [] -> exists l, split_on " " (t0 ++ line_text r "") = t0 :: l).
Proof.
  induction r as [|[n t] r IH]; intros t0 HF HP; inversion HF as [|? ? Htok HF']; subst.
  - cbn [line_text]. rewrite str_app_nil, split_on_none by apply no_space_blank, Htok. cbn [map filter].
    destruct (token_strip t0 Htok) as [-> ->]. split; [reflexivity|easy].
  - inversion HP as [|? ? Hn HP']; subst. cbn [fst] in Hn. destruct n as [|k]; [lia|]. cbn [line_text spaces append].
    rewrite split_on_app by apply no_space_blank, Htok. split; [|eauto].
    cbn [map filter]. destruct (token_strip t0 Htok) as [-> ->]. f_equal.
    rewrite split_spaces, filter_empties. cbn [map snd] in HF'. now apply IH.
Qed.
Lemma cells_tokens line toks : tokens_line line toks -> line_cells line = toks.
Proof.
  intros (n0 & t0 & r & tail & -> & -> & HF & HP & Ht). unfold line_cells. rewrite line_strip by auto. now apply split_body.
Qed.
Lemma row_ok parse_float line r : fastercap_row parse_float line r -> row_of_cells parse_float (line_cells line) = Some (fst r, map micro (snd r)).
Proof.
  intros (texts & Ht & Hn). rewrite (cells_tokens _ _ Ht). unfold row_of_cells.
  assert (E : map_opt (scaled parse_float) texts = Some (map micro (snd r))).
  { apply map_opt_map. clear Ht. induction Hn as [|t v ts vs Hv Hn IH]; [constructor|]. cbn [map]. constructor; [|exact IH].
    unfold scaled. now rewrite Hv. }
  now rewrite E.
Qed.
Lemma dimension_ok line n : says_dimension line n -> dimension_line line = Some n.
Proof.
  intros (d1 & d2 & tail & -> & H1 & H2 & A1 & A2 & Hv & Ht). unfold dimension_line. rewrite drop_prefix_app.
  rewrite span_digits_app by (exact A1 || reflexivity). destruct d1 as [|c1 d1]; [easy|]. cbn [nonempty String.eqb negb].
  rewrite drop_prefix_app. rewrite span_digits_app; [|exact A2|destruct Ht as [->| ->]; reflexivity].
  destruct d2 as [|c2 d2]; [easy|]. destruct Ht as [->| ->]; cbn; now rewrite <- Hv.
Qed.
Lemma dimension_no_header line n : says_dimension line n -> is_header line = false.
Proof.
  intros (d1 & d2 & tail & -> & _). unfold is_header. apply String.eqb_neq. intros E.
  assert (F : forall r s, strip (String "D" r) = s -> exists s', s = String "D" s').
  { intros r s <-. unfold strip. change (lstrip (String "D" r)) with (String "D" r).
    cbn [rstrip]. destruct (rstrip r); eexists; reflexivity. }
  destruct (F _ _ E) as [s' Hs']. discriminate.
Qed.

(** ** the search for the header from the end *)
Lemma find_index_app p a b : Forall (fun x => p x = false) a -> find_index p (a ++ b) = match find_index p b with Some i => Some (List.length a + i)%nat | None => None end.
Proof.
  induction 1 as [|x a Hx HF IH]; [cbn; now destruct (find_index p b)|]. cbn [app find_index]. rewrite Hx, IH.
  destruct (find_index p b); reflexivity.
Qed.
Lemma py_index_nat {A} (l : list A) (i : nat) : py_index l (Z.of_nat i) = nth_error l i.
Proof. unfold py_index. destruct (Z.ltb_spec (Z.of_nat i) 0); [lia|]. now rewrite Nat2Z.id. Qed.
Lemma py_index_neg {A} (l : list A) (k : nat) : (k < List.length l)%nat -> py_index (rev l) (- 1 - Z.of_nat k) = nth_error l k.
Proof.
  intros Hk. unfold py_index. destruct (Z.ltb_spec (-1 - Z.of_nat k) 0); [|lia]. rewrite rev_length.
  destruct (Z.ltb_spec (-1 - Z.of_nat k + Z.of_nat (List.length l)) 0); [lia|].
  replace (Z.to_nat _) with (List.length l - S k)%nat by lia.
  rewrite <- (rev_involutive l) at 3. rewrite <- (rev_length l) in Hk |- *.
  revert Hk. generalize (rev l). intros m Hm.
  destruct (nth_error m (List.length m - S k)) as [x|] eqn:E; [|apply nth_error_None in E; lia].
  symmetry. rewrite (nth_error_nth' _ x) by (rewrite rev_length; lia). rewrite rev_nth by lia.
  now rewrite (nth_error_nth _ _ x E).
Qed.
Lemma map_opt_ext_in {A B} (f g : A -> option B) l : (forall x, In x l -> f x = g x) -> map_opt f l = map_opt g l.
Proof.
  induction l as [|x l IH]; intros H; [reflexivity|]. cbn [map_opt]. rewrite (H x) by now left. rewrite IH; [reflexivity|]. intros; apply H; now right.
Qed.
Lemma map_opt_comp {A B C} (f : B -> option C) (g : A -> B) l : map_opt f (map g l) = map_opt (fun x => f (g x)) l.
Proof. induction l as [|x l IH]; [reflexivity|]. cbn [map map_opt]. now rewrite IH. Qed.
(** indices 0..n-1 of a list read the list *)
Lemma map_opt_nth {B} (f : string -> option B) (l : list string) : forall n, n = List.length l ->
  map_opt (fun k => match nth_error l k with Some x => f x | None => None end) (seq 0 n) = map_opt f l.
Proof.
  induction l as [|x l IH]; intros n ->; [reflexivity|]. cbn [List.length seq map_opt nth_error].
  rewrite <- seq_shift, map_opt_comp. cbn [nth_error]. now rewrite IH.
Qed.
Lemma nth_rev_rows (rowlines post rest : list string) k : (k < List.length rowlines)%nat ->
  nth_error (rev post ++ rev rowlines ++ rest) (List.length post + List.length rowlines - 1 - k) = nth_error rowlines k.
Proof.
  intros Hk. rewrite nth_error_app2 by (rewrite rev_length; lia). rewrite rev_length.
  rewrite nth_error_app1 by (rewrite rev_length; lia).
  replace (List.length post + List.length rowlines - 1 - k - List.length post)%nat with (List.length rowlines - S k)%nat by lia.
  rewrite (nth_error_nth' rowlines ""%string Hk).
  rewrite (nth_error_nth' (rev rowlines) ""%string) by (rewrite rev_length; lia). f_equal.
  rewrite rev_nth by lia. f_equal. lia.
Qed.

Section Block.
Variable f : string -> option (string * list Qc).
(** reading the rows of a block: complete block *)
Lemma rows_complete pre hdr dl rowlines post dim : dim = List.length rowlines ->
  map_opt (fun i => match py_index (rev (pre ++ hdr :: dl :: rowlines ++ post)) i with Some line => f line | None => None end)
    (row_indices (List.length (post ++ rowlines ++ [dl]))%nat dim) = map_opt f rowlines.
Proof.
  intros ->. unfold row_indices. rewrite map_opt_comp. rewrite <- (map_opt_nth f rowlines _ eq_refl). apply map_opt_ext_in.
  intros k Hk. apply in_seq in Hk.
  replace (rev (pre ++ hdr :: dl :: rowlines ++ post)) with (rev post ++ rev rowlines ++ [dl; hdr] ++ rev pre)%list.
  2:{ rewrite rev_app_distr. cbn [rev]. rewrite rev_app_distr, <- !app_assoc. reflexivity. }
  replace (Z.of_nat (List.length (post ++ rowlines ++ [dl])) - 2 - Z.of_nat k)%Z
    with (Z.of_nat (List.length post + List.length rowlines - 1 - k)).
  2:{ rewrite !app_length. cbn [List.length]. lia. }
  rewrite py_index_nat, nth_rev_rows by lia. reflexivity.
Qed.
(** truncated block: the missing rows are taken from the top of the file *)
Lemma rows_truncated pre hdr dl rowlines dim :
  (List.length rowlines <= dim)%nat ->
  let lines := (pre ++ hdr :: dl :: rowlines)%list in
  (dim - List.length rowlines <= List.length lines)%nat ->
  map_opt (fun i => match py_index (rev lines) i with Some line => f line | None => None end)
    (row_indices (List.length (rowlines ++ [dl]))%nat dim) =
  map_opt f (rowlines ++ firstn (dim - List.length rowlines) lines).
Proof.
  intros Hd lines Hl. unfold row_indices. rewrite map_opt_comp.
  rewrite <- (map_opt_nth f (rowlines ++ firstn (dim - List.length rowlines) lines) dim).
  2:{ rewrite app_length, firstn_length. lia. }
  apply map_opt_ext_in. intros k Hk. apply in_seq in Hk.
  destruct (Nat.lt_ge_cases k (List.length rowlines)) as [Hlt|Hge].
  - rewrite nth_error_app1 by exact Hlt.
    replace (rev lines) with (rev [] ++ rev rowlines ++ [dl; hdr] ++ rev pre)%list.
    2:{ unfold lines. rewrite rev_app_distr. cbn [rev]. rewrite <- !app_assoc. reflexivity. }
    replace (Z.of_nat (List.length (rowlines ++ [dl])) - 2 - Z.of_nat k)%Z
      with (Z.of_nat (List.length (@nil string) + List.length rowlines - 1 - k)).
    2:{ rewrite !app_length. cbn [List.length]. lia. }
    rewrite py_index_nat, nth_rev_rows by lia. reflexivity.
  - rewrite nth_error_app2 by exact Hge.
    replace (Z.of_nat (List.length (rowlines ++ [dl])) - 2 - Z.of_nat k)%Z with (-1 - Z.of_nat (k - List.length rowlines))%Z.
    2:{ rewrite !app_length. cbn [List.length]. lia. }
    rewrite py_index_neg by lia.
    rewrite <- (firstn_skipn (dim - List.length rowlines) lines) at 1.
    rewrite nth_error_app1; [reflexivity|]. rewrite firstn_length. lia.
Qed.
End Block.

(** ** C27 *)
(** The lines of the log are: anything, the last header, the dimension line, that many rows, and
    lines that are no header.  The result is exactly that block. *)
Theorem C27_last_matrix_parsed : forall parse_float text pre hdr dl rowlines post (rs : list (string * list Qc)),
  readlines text = (pre ++ hdr :: dl :: rowlines ++ post)%list ->
  matrix_header hdr -> says_dimension dl (List.length rowlines) ->
  Forall2 (fastercap_row parse_float) rowlines rs ->
  Forall (fun l => ~ matrix_header l) (rowlines ++ post) ->
  fastercap_parse parse_float text = Some (CapMatrix (map fst rs) (map (fun r => map micro (snd r)) rs)).
Proof.
  intros parse_float text pre hdr dl rowlines post rs Hr Hh Hd HF Hno. unfold fastercap_parse. rewrite Hr.
  assert (Hrev : rev (pre ++ hdr :: dl :: rowlines ++ post) = (rev (dl :: rowlines ++ post) ++ hdr :: rev pre)%list).
  { rewrite rev_app_distr. cbn [rev]. now rewrite <- !app_assoc. }
  assert (Hidx : find_index is_header (rev (pre ++ hdr :: dl :: rowlines ++ post)) = Some (List.length (post ++ rowlines ++ [dl]))).
  { rewrite Hrev, find_index_app.
    - cbn [find_index]. unfold is_header at 1. rewrite Hh, String.eqb_refl. f_equal. rewrite rev_length, !app_length. cbn [List.length].
      rewrite !app_length. cbn [List.length]. lia.
    - apply Forall_forall. intros x Hx. apply in_rev in Hx. destruct Hx as [<-|Hx]; [now apply (dimension_no_header _ _ Hd)|].
      rewrite Forall_forall in Hno. apply String.eqb_neq. now apply Hno. }
  rewrite Hidx. unfold fastercap_block.
  replace (Z.of_nat (List.length (post ++ rowlines ++ [dl])) - 1)%Z with (Z.of_nat (List.length (post ++ rowlines))).
  2:{ rewrite !app_length. cbn [List.length]. lia. }
  rewrite py_index_nat. rewrite Hrev at 1. cbn [rev]. rewrite rev_app_distr, <- app_assoc.
  replace (nth_error _ (List.length (post ++ rowlines))) with (Some dl).
  2:{ rewrite app_assoc. cbn [app]. rewrite <- app_assoc.
      replace (rev post ++ rev rowlines ++ [dl] ++ hdr :: rev pre)%list with ((rev post ++ rev rowlines) ++ dl :: hdr :: rev pre)%list by now rewrite <- !app_assoc.
      rewrite nth_error_app2; rewrite !app_length, !rev_length; [|lia]. now rewrite Nat.sub_diag. }
  rewrite (dimension_ok _ _ Hd).
  rewrite (rows_complete (fun line => row_of_cells parse_float (line_cells line))) by reflexivity.
  replace (map_opt _ rowlines) with (Some (map (fun r => (fst r, map micro (snd r))) rs)).
  2:{ symmetry. apply map_opt_map. clear - HF. induction HF as [|l r ls rs H HF IH]; [constructor|]. cbn [map]. constructor; [|exact IH].
      now apply row_ok. }
  unfold matrix_of. rewrite !map_map. reflexivity.
Qed.

(** ** C28 *)
(** a line that cannot be a matrix row: blank, or a later token is not a number *)
Definition no_row (parse_float : string -> option Qc) (line : string) : Prop :=
  all_chars isspace line = true \/
  exists t0 toks t, tokens_line line (t0 :: toks) /\ In t toks /\ parse_float t = None.
Lemma blank_cells line : all_chars isspace line = true -> line_cells line = [].
Proof.
  intros H. unfold line_cells. replace (strip line) with ""; [reflexivity|].
  rewrite <- (str_app_nil line), strip_leading by exact H. reflexivity.
Qed.
Lemma map_opt_none {A B} (f : A -> option B) l x : In x l -> f x = None -> map_opt f l = None.
Proof.
  induction l as [|y l IH]; intros Hi Hn; [easy|]. cbn [map_opt]. destruct Hi as [->|Hi]; [now rewrite Hn|].
  rewrite (IH Hi Hn). now destruct (f y).
Qed.
Lemma no_row_none parse_float line : no_row parse_float line -> row_of_cells parse_float (line_cells line) = None.
Proof.
  intros [H|(t0 & toks & t & Ht & Hi & Hn)].
  - now rewrite blank_cells.
  - rewrite (cells_tokens _ _ Ht). unfold row_of_cells. rewrite (map_opt_none _ _ t Hi); [reflexivity|]. unfold scaled. now rewrite Hn.
Qed.
Lemma dimension_inv line n : dimension_line line = Some n -> says_dimension line n.
Proof.
  unfold dimension_line. destruct (drop_prefix "Dimension " line) as [r|] eqn:E1; [|discriminate].
  apply drop_prefix_spec in E1. destruct (span_digits r) as [d1 r1] eqn:E2. apply span_digits_spec in E2. destruct E2 as [-> A1].
  destruct (nonempty d1) eqn:N1; [|discriminate].
  destruct (drop_prefix " x " r1) as [r2|] eqn:E3; [|discriminate]. apply drop_prefix_spec in E3.
  destruct (span_digits r2) as [d2 r3] eqn:E4. apply span_digits_spec in E4. destruct E4 as [-> A2].
  destruct (nonempty d2 && at_end r3) eqn:N2; [|discriminate]. apply andb_prop in N2. destruct N2 as [N2 N3].
  intros [= <-]. exists d1, d2, r3. subst.
  assert (G : forall s, nonempty s = true -> s <> "") by (intros s Hs ->; discriminate).
  repeat split; auto. unfold at_end in N3. apply Bool.orb_prop in N3. destruct N3 as [N3|N3]; apply String.eqb_eq in N3; auto.
Qed.

(** A log that ends inside its last matrix block — right after the header, or after fewer rows than
    the dimension line says — is rejected, if the first line of the log is ordinary text (it is
    neither a matrix row nor a dimension line).  Missing for the full claim: logs whose first line
    does look like a row, and blocks cut in the middle of the last row; both are accepted, see below. *)
Theorem C28_truncated_rejected_partial : forall parse_float text first rest pre hdr tl,
  readlines text = first :: rest ->
  readlines text = (pre ++ hdr :: tl)%list -> matrix_header hdr -> Forall (fun l => ~ matrix_header l) tl ->
  no_row parse_float first -> (forall n, ~ says_dimension first n) ->
  tl = [] \/ (exists dl rowlines dim, tl = dl :: rowlines /\ says_dimension dl dim /\ (List.length rowlines < dim)%nat) ->
  fastercap_parse parse_float text = None.
Proof.
  intros parse_float text first rest pre hdr tl Hf Hr Hh Hno Hnr Hnd Hcase. unfold fastercap_parse. rewrite Hr.
  assert (Hrev : rev (pre ++ hdr :: tl) = (rev tl ++ hdr :: rev pre)%list).
  { rewrite rev_app_distr. cbn [rev]. now rewrite <- !app_assoc. }
  assert (Hidx : find_index is_header (rev (pre ++ hdr :: tl)) = Some (List.length tl)).
  { rewrite Hrev, find_index_app.
    - cbn [find_index]. unfold is_header at 1. rewrite Hh, String.eqb_refl. f_equal. rewrite rev_length. lia.
    - apply Forall_forall. intros x Hx. apply in_rev in Hx. rewrite Forall_forall in Hno. apply String.eqb_neq. now apply Hno. }
  assert (H0 : py_index (rev (pre ++ hdr :: tl)) (-1) = Some first).
  { change (-1)%Z with (-1 - Z.of_nat 0)%Z. rewrite py_index_neg; rewrite <- Hr, Hf; [reflexivity|cbn; lia]. }
  rewrite Hidx. unfold fastercap_block. destruct Hcase as [->|(dl & rowlines & dim & -> & Hd & Hlt)].
  - cbn [List.length]. change (Z.of_nat 0 - 1)%Z with (-1)%Z. rewrite H0.
    destruct (dimension_line first) as [n|] eqn:E; [|reflexivity]. exfalso. apply (Hnd n). now apply dimension_inv.
  - cbn [List.length]. replace (Z.of_nat (S (List.length rowlines)) - 1)%Z with (Z.of_nat (List.length rowlines)) by lia.
    rewrite py_index_nat. replace (nth_error (rev (pre ++ hdr :: dl :: rowlines)) (List.length rowlines)) with (Some dl).
    2:{ rewrite Hrev. cbn [rev]. rewrite <- app_assoc. cbn [app]. rewrite nth_error_app2; rewrite rev_length; [|lia].
        now rewrite Nat.sub_diag. }
    rewrite (dimension_ok _ _ Hd). rewrite (map_opt_none _ _ (-1)%Z); [reflexivity| |].
    + unfold row_indices. apply in_map_iff. exists (List.length rowlines). split; [lia|]. apply in_seq. lia.
    + rewrite H0. now apply no_row_none.
Qed.
(** what happens in general: the missing rows are read from the top of the file *)
Theorem C28_missing_rows_come_from_the_top : forall parse_float text pre hdr dl rowlines dim rs,
  readlines text = (pre ++ hdr :: dl :: rowlines)%list -> matrix_header hdr -> says_dimension dl dim ->
  Forall (fun l => ~ matrix_header l) rowlines ->
  (List.length rowlines <= dim)%nat -> (dim - List.length rowlines <= List.length (readlines text))%nat ->
  Forall2 (fastercap_row parse_float) (rowlines ++ firstn (dim - List.length rowlines) (readlines text)) rs ->
  fastercap_parse parse_float text = Some (CapMatrix (map fst rs) (map (fun r => map micro (snd r)) rs)).
Proof.
  intros parse_float text pre hdr dl rowlines dim rs Hr Hh Hd Hno Hle Hlen HF. unfold fastercap_parse.
  assert (Hrev : rev (pre ++ hdr :: dl :: rowlines) = (rev (dl :: rowlines) ++ hdr :: rev pre)%list).
  { rewrite rev_app_distr. cbn [rev]. now rewrite <- !app_assoc. }
  assert (Hidx : find_index is_header (rev (readlines text)) = Some (List.length (rowlines ++ [dl]))).
  { rewrite Hr, Hrev, find_index_app.
    - cbn [find_index]. unfold is_header at 1. rewrite Hh, String.eqb_refl. f_equal. rewrite rev_length, app_length. cbn [List.length]. lia.
    - apply Forall_forall. intros x Hx. apply in_rev in Hx. destruct Hx as [<-|Hx]; [now apply (dimension_no_header _ _ Hd)|].
      rewrite Forall_forall in Hno. apply String.eqb_neq. now apply Hno. }
  rewrite Hidx. unfold fastercap_block.
  replace (Z.of_nat (List.length (rowlines ++ [dl])) - 1)%Z with (Z.of_nat (List.length rowlines)) by (rewrite app_length; cbn [List.length]; lia).
  rewrite py_index_nat. replace (nth_error (rev (readlines text)) (List.length rowlines)) with (Some dl).
  2:{ rewrite Hr, Hrev. cbn [rev]. rewrite <- app_assoc. cbn [app]. rewrite nth_error_app2; rewrite rev_length; [|lia].
      now rewrite Nat.sub_diag. }
  rewrite (dimension_ok _ _ Hd). rewrite Hr in *.
  rewrite (rows_truncated (fun line => row_of_cells parse_float (line_cells line))) by auto.
  replace (map_opt _ (rowlines ++ _)) with (Some (map (fun r => (fst r, map micro (snd r))) rs)).
  2:{ symmetry. apply map_opt_map. clear - HF. induction HF as [|l r ls rs H HF IH]; [constructor|]. cbn [map]. constructor; [|exact IH].
      now apply row_ok. }
  unfold matrix_of. rewrite !map_map. reflexivity.
Qed.

Definition digit_float (s : string) : option Qc :=
  if negb (String.eqb s "") && all_chars isdigit s then Some (Q2Qc (inject_Z (Z.of_nat (digits_val 0 s)))) else None.
Definition log_full : string :=
  "Running FasterCap" ++ String nl ("Capacitance matrix is:" ++ String nl ("Dimension 2 x 2" ++ String nl
  ("g1_A  7 1 " ++ String nl ("g2_B  1 5 " ++ String nl ("done" ++ String nl ""))))).
Example C27_example : exists m, fastercap_parse digit_float log_full = Some m /\ conductor_names m = ["g1_A"; "g2_B"] /\
  (exists pre hdr dl r1 r2 post, readlines log_full = (pre ++ hdr :: dl :: [r1; r2] ++ post)%list /\
     matrix_header hdr /\ says_dimension dl 2 /\ fastercap_row digit_float r1 ("g1_A", [Q2Qc 7; Q2Qc 1])).
Proof.
  eexists. split; [vm_compute; reflexivity|]. split; [reflexivity|].
  eexists [_], _, _, _, _, [_]. split; [vm_compute; reflexivity|]. split; [vm_compute; reflexivity|].
  split. { exists "2", "2", (String nl ""). repeat split; try discriminate. auto. }
  exists ["7"; "1"]. split.
  - exists 0%nat, "g1_A", [(2%nat, "7"); (1%nat, "1")], (" " ++ String nl ""). split; [reflexivity|]. split; [reflexivity|].
    split; [|split; [|reflexivity]].
    + repeat (constructor; [split; [discriminate|reflexivity]|]). constructor.
    + repeat constructor.
  - repeat constructor.
Qed.
(** crash after one of two rows, ordinary first line: rejected *)
Definition log_cut : string :=
  "Running FasterCap" ++ String nl ("Capacitance matrix is:" ++ String nl ("Dimension 2 x 2" ++ String nl ("g1_A  7 1 " ++ String nl ""))).
Example C28_example : fastercap_parse digit_float log_cut = None /\ no_row digit_float ("Running FasterCap" ++ String nl "").
Proof.
  split; [vm_compute; reflexivity|]. right. exists "Running", ["FasterCap"], "FasterCap". split; [|split; [now left|reflexivity]].
  exists 0%nat, "Running", [(1%nat, "FasterCap")], (String nl ""). split; [reflexivity|]. split; [reflexivity|].
  split; [|split; [repeat constructor|reflexivity]]. repeat (constructor; [split; [discriminate|reflexivity]|]). constructor.
Qed.
(** a log that starts with a one-word line and lacks its second row is accepted: the word becomes a
    conductor with no capacitances *)
Definition log_word : string :=
  "FasterCap" ++ String nl ("Capacitance matrix is:" ++ String nl ("Dimension 2 x 2" ++ String nl ("g1_A  7 1 " ++ String nl ""))).
Theorem C28_missing_row_refuted : exists m, fastercap_parse digit_float log_word = Some m /\
  conductor_names m = ["g1_A"; "FasterCap"] /\ map (@List.length Qc) (rows m) = [2; 0]%nat.
Proof. eexists. split; [vm_compute; reflexivity|]. split; reflexivity. Qed.
(** a log cut in the middle of the last row is accepted *)
Definition log_midrow : string :=
  "Running FasterCap" ++ String nl ("Capacitance matrix is:" ++ String nl ("Dimension 2 x 2" ++ String nl ("g1_A  7 1 " ++ String nl "g2_B  1"))).
Theorem C28_cut_row_refuted : exists m, fastercap_parse digit_float log_midrow = Some m /\
  conductor_names m = ["g1_A"; "g2_B"] /\ map (@List.length Qc) (rows m) = [2; 1]%nat.
Proof. eexists. split; [vm_compute; reflexivity|]. split; reflexivity. Qed.

(** ** C60: the last FastCap matrix *)
(** a FastCap row: name, one blank, a number of the row, then the values *)
Definition fastcap_row_text (parse_float : string -> option Qc) (line : string) (r : string * list Qc) : Prop :=
  exists n0 idx rest tail, line = line_text ((n0, fst r) :: (1%nat, idx) :: rest) tail /\
    Forall token (fst r :: idx :: map snd rest) /\ Forall (fun p => (1 <= fst p)%nat) rest /\ all_chars isspace tail = true /\
    numbers parse_float (map snd rest) (snd r).
Lemma fc_row_ok parse_float line r : fastcap_row_text parse_float line r -> fastcap_row parse_float line = Some (fst r, map micro (snd r)).
Proof.
  intros (n0 & idx & rest & tail & -> & HT & HP & Ht & Hn). unfold fastcap_row.
  rewrite line_strip by auto. inversion HT as [|? ? Htok HT']; subst. inversion HT' as [|? ? Hidx HT'']; subst.
  cbn [line_text spaces append]. rewrite split_on_app by apply no_space_blank, Htok.
  destruct (split_body rest idx HT' HP) as [Hf Hl].
  assert (Hs : exists l, split_on " " (idx ++ line_text rest "") = idx :: l).
  { destruct rest as [|p rest]; [|apply Hl; discriminate]. cbn [line_text]. rewrite str_app_nil, split_on_none by apply no_space_blank, Hidx. eauto. }
  destruct Hs as [l Hs]. change (String " " ?x) with (" " ++ x). rewrite Hs in *. cbn [map filter pop1] in *.
  destruct (token_strip _ Htok) as [-> ->]. destruct (token_strip _ Hidx) as [E1 E2]. rewrite E1, E2 in Hf. injection Hf as Hf. rewrite Hf.
  unfold row_of_cells. assert (E : map_opt (scaled parse_float) (map snd rest) = Some (map micro (snd r))).
  { apply map_opt_map. clear - Hn. induction Hn as [|t v ts vs Hv Hn IH]; [constructor|]. cbn [map]. constructor; [|exact IH].
    unfold scaled. now rewrite Hv. }
  now rewrite E.
Qed.
Lemma count_nonspace s : forall b w, no_space s = true -> count_words b (s ++ w) = (match s with "" => 0 | _ => if b then 0 else 1 end + count_words (match s with "" => b | _ => true end) w)%nat.
Proof.
  induction s as [|c s IH]; intros b w H; [reflexivity|]. unfold no_space in *. cbn [all_chars] in H. apply andb_prop in H. destruct H as [H1 H2].
  apply Bool.negb_true_iff in H1. cbn [append count_words]. rewrite H1, IH by exact H2. destruct s; cbn; lia.
Qed.
Lemma count_spaces k b w : count_words b (spaces (S k) ++ w) = count_words false w.
Proof. revert b. induction k; intros b; [reflexivity|]. change (spaces (S (S k))) with (String " " (spaces (S k))). cbn [append count_words]. change (isspace " ") with true. cbn match. apply IHk. Qed.
Lemma count_line r : forall t0, Forall token (t0 :: map snd r) -> Forall (fun p => (1 <= fst p)%nat) r ->
  count_words false (t0 ++ line_text r "") = S (List.length r).
Proof.
  induction r as [|[n t] r IH]; intros t0 HF HP; inversion HF as [|? ? [Hne Hs] HF']; subst; rewrite count_nonspace by exact Hs.
  - cbn [line_text count_words List.length]. destruct t0; [easy|lia].
  - inversion HP as [|? ? Hn HP']; subst. cbn [fst] in Hn. destruct n as [|k]; [lia|]. cbn [line_text map snd] in *.
    rewrite count_spaces, IH by auto. cbn [List.length]. destruct t0; [easy|lia].
Qed.
Lemma letter_word c k : String.get k letters = Some c -> is_word_char c = true.
Proof.
  intros E. do 52 (destruct k as [|k]; [injection E as <-; reflexivity|]). destruct k; discriminate E.
Qed.
Lemma fc_header_unit h : fastcap_header h -> is_fc_header h = true /\ has_unit h = true.
Proof. intros (c & u & k & -> & Hu). unfold is_fc_header, has_unit. rewrite drop_prefix_app. split; [reflexivity|]. now apply (letter_word c k). Qed.
Lemma not_starts_fc l : ~ starts_fc l -> is_fc_header l = false.
Proof.
  intros H. unfold is_fc_header. destruct (drop_prefix _ l) as [r|] eqn:E; [|reflexivity].
  exfalso. apply H. exists r. now apply drop_prefix_spec.
Qed.
Theorem C60_last_fastcap_matrix_parsed : forall parse_float text pre hdr dl cols rowlines post rs,
  readlines text = (pre ++ hdr :: dl :: rowlines ++ post)%list ->
  fastcap_header hdr -> tokens_line dl cols -> List.length cols = List.length rowlines ->
  Forall2 (fastcap_row_text parse_float) rowlines rs ->
  Forall (fun l => ~ starts_fc l) (dl :: rowlines ++ post) ->
  fastcap_parse parse_float text = Some (CapMatrix (map fst rs) (map (fun r => map micro (snd r)) rs)).
Proof.
  intros parse_float text pre hdr dl cols rowlines post rs Hr Hh Hd Hlen HF Hno. unfold fastcap_parse. rewrite Hr.
  assert (Hrev : rev (pre ++ hdr :: dl :: rowlines ++ post) = (rev (dl :: rowlines ++ post) ++ hdr :: rev pre)%list).
  { rewrite rev_app_distr. cbn [rev]. now rewrite <- !app_assoc. }
  assert (Hl : List.length (rev (dl :: rowlines ++ post)) = List.length (post ++ rowlines ++ [dl])).
  { rewrite rev_length, !app_length. cbn [List.length]. rewrite !app_length. cbn [List.length]. lia. }
  assert (Hidx : find_index is_fc_header (rev (pre ++ hdr :: dl :: rowlines ++ post)) = Some (List.length (post ++ rowlines ++ [dl]))).
  { rewrite Hrev, find_index_app.
    - cbn [find_index]. rewrite (proj1 (fc_header_unit _ Hh)). f_equal. lia.
    - apply Forall_forall. intros x Hx. apply in_rev in Hx. rewrite Forall_forall in Hno. now apply not_starts_fc, Hno. }
  rewrite Hidx. unfold fastcap_block.
  replace (nth_error (rev (pre ++ hdr :: dl :: rowlines ++ post)) (List.length (post ++ rowlines ++ [dl]))) with (Some hdr).
  2:{ rewrite Hrev. rewrite nth_error_app2 by lia. rewrite Hl, Nat.sub_diag. reflexivity. }
  rewrite (proj2 (fc_header_unit _ Hh)).
  replace (Z.of_nat (List.length (post ++ rowlines ++ [dl])) - 1)%Z with (Z.of_nat (List.length (post ++ rowlines))).
  2:{ rewrite !app_length. cbn [List.length]. lia. }
  rewrite py_index_nat. replace (nth_error (rev (pre ++ hdr :: dl :: rowlines ++ post)) (List.length (post ++ rowlines))) with (Some dl).
  2:{ rewrite Hrev. cbn [rev]. rewrite rev_app_distr.
      replace (((rev post ++ rev rowlines) ++ [dl]) ++ hdr :: rev pre)%list with ((rev post ++ rev rowlines) ++ dl :: hdr :: rev pre)%list by now rewrite <- !app_assoc.
      rewrite nth_error_app2; rewrite !app_length, !rev_length; [|lia]. now rewrite Nat.sub_diag. }
  assert (Hdim : count_words false (strip dl) = List.length rowlines).
  { destruct Hd as (n0 & t0 & r & tail & -> & -> & HT & HP & Ht). rewrite line_strip, count_line by auto.
    rewrite <- Hlen. cbn [List.length]. now rewrite map_length. }
  cbn zeta. rewrite Hdim. rewrite (rows_complete (fastcap_row parse_float)) by reflexivity.
  replace (map_opt _ rowlines) with (Some (map (fun r => (fst r, map micro (snd r))) rs)).
  2:{ symmetry. apply map_opt_map. clear - HF. induction HF as [|l r ls rs H HF IH]; [constructor|]. cbn [map]. constructor; [|exact IH].
      now apply fc_row_ok. }
  unfold matrix_of. rewrite !map_map. reflexivity.
Qed.
(** A log without a matrix is rejected, and so is one whose last matrix has no unit. *)
Theorem C60_rejected : forall parse_float text,
  Forall (fun l => ~ starts_fc l) (readlines text) \/
  (exists pre hdr tl, readlines text = (pre ++ hdr :: tl)%list /\ without_unit hdr /\ Forall (fun l => ~ starts_fc l) tl) ->
  fastcap_parse parse_float text = None.
Proof.
  intros parse_float text [H|(pre & hdr & tl & E & U & H)]; unfold fastcap_parse.
  - assert (N : find_index is_fc_header (rev (readlines text)) = None); [|now rewrite N].
    assert (F : Forall (fun l => is_fc_header l = false) (rev (readlines text))).
    { rewrite Forall_forall in *. intros x I. apply not_starts_fc, H. now apply in_rev. }
    induction F as [|x l Hx F IH]; [reflexivity|]. cbn. now rewrite Hx, IH.
  - rewrite E. assert (Hrev : rev (pre ++ hdr :: tl) = (rev tl ++ hdr :: rev pre)%list) by (rewrite rev_app_distr; cbn [rev]; now rewrite <- app_assoc).
    rewrite Hrev, find_index_app.
    2:{ apply Forall_forall. intros x I. apply in_rev in I. rewrite Forall_forall in H. now apply not_starts_fc, H. }
    assert (X : is_fc_header hdr = true /\ has_unit hdr = false).
    { unfold is_fc_header, has_unit. destruct U as [-> |(c & r & -> & S)]; [split; reflexivity|]. rewrite drop_prefix_app. split; [reflexivity|].
      clear - S. destruct c as [[] [] [] [] [] [] [] []]; try discriminate S; reflexivity. }
    destruct X as [X1 X2]. cbn [find_index]. rewrite X1. unfold fastcap_block.
    replace (nth_error (rev tl ++ hdr :: rev pre) (List.length (rev tl) + 0)) with (Some hdr).
    2:{ rewrite nth_error_app2 by lia. now replace (List.length (rev tl) + 0 - List.length (rev tl))%nat with 0%nat by lia. }
    now rewrite X2.
Qed.
Definition fastcap_log (unit : string) : string :=
  "CAPACITANCE MATRIX, " ++ unit ++ String nl ("              1     2" ++ String nl
  ("$1%GROUP2 1   7   1" ++ String nl ("$2%GROUP3 2   1   5" ++ String nl ""))).
Example C60_example : exists m, fastcap_parse digit_float (fastcap_log "picofarads") = Some m /\
  conductor_names m = ["$1%GROUP2"; "$2%GROUP3"] /\ map (@List.length Qc) (rows m) = [2; 2]%nat.
Proof. eexists. split; [vm_compute; reflexivity|]. split; reflexivity. Qed.
Example C60_header : fastcap_header ("CAPACITANCE MATRIX, picofarads" ++ String nl "").
Proof. exists "p"%char, ("icofarads" ++ String nl ""), 15%nat. split; reflexivity. Qed.
Example C60_rejected_example : without_unit ("CAPACITANCE MATRIX, " ++ String nl "").
Proof. right. exists nl, "". split; reflexivity. Qed.
(** ** C61: the unit of the FastCap log *)
(** the same numbers in two different units give the same capacitances *)
Theorem C61_unit_refuted : exists m, fastcap_parse digit_float (fastcap_log "picofarads") = Some m /\
  fastcap_parse digit_float (fastcap_log "femtofarads") = Some m /\ qltb (Q2Qc 0) (entry m 0 0) = true.
Proof. eexists. split; [vm_compute; reflexivity|]. split; [vm_compute; reflexivity|]. vm_compute. reflexivity. Qed.
(** in general: replacing the text after the header keyword changes nothing *)
Theorem C61_unit_is_ignored : forall parse_float text text' pre hdr hdr' tl,
  readlines text = (pre ++ hdr :: tl)%list -> readlines text' = (pre ++ hdr' :: tl)%list ->
  fastcap_header hdr -> fastcap_header hdr' -> tl <> [] -> Forall (fun l => ~ starts_fc l) tl ->
  (* the block is complete, so that no line above the header is read *)
  (exists dl cols rowlines post, tl = dl :: rowlines ++ post /\ tokens_line dl cols /\ List.length cols = List.length rowlines) ->
  fastcap_parse parse_float text = fastcap_parse parse_float text'.
Proof.
  intros parse_float text text' pre hdr hdr' tl Hr Hr' Hh Hh' Hne Hno (dl & cols & rowlines & post & -> & Hd & Hlen).
  assert (G : forall h t, readlines t = (pre ++ h :: dl :: rowlines ++ post)%list -> fastcap_header h ->
    fastcap_parse parse_float t = match map_opt (fastcap_row parse_float) rowlines with Some rs => Some (matrix_of rs) | None => None end).
  { clear - Hno Hd Hlen. intros h t Hr Hh. unfold fastcap_parse. rewrite Hr.
    assert (Hrev : rev (pre ++ h :: dl :: rowlines ++ post) = (rev (dl :: rowlines ++ post) ++ h :: rev pre)%list).
    { rewrite rev_app_distr. cbn [rev]. now rewrite <- !app_assoc. }
    assert (Hl : List.length (rev (dl :: rowlines ++ post)) = List.length (post ++ rowlines ++ [dl])).
    { rewrite rev_length, !app_length. cbn [List.length]. rewrite !app_length. cbn [List.length]. lia. }
    assert (Hidx : find_index is_fc_header (rev (pre ++ h :: dl :: rowlines ++ post)) = Some (List.length (post ++ rowlines ++ [dl]))).
    { rewrite Hrev, find_index_app.
      - cbn [find_index]. rewrite (proj1 (fc_header_unit _ Hh)). f_equal. lia.
      - apply Forall_forall. intros x Hx. apply in_rev in Hx. rewrite Forall_forall in Hno. now apply not_starts_fc, Hno. }
    rewrite Hidx. unfold fastcap_block.
    replace (nth_error (rev (pre ++ h :: dl :: rowlines ++ post)) (List.length (post ++ rowlines ++ [dl]))) with (Some h).
    2:{ rewrite Hrev. rewrite nth_error_app2 by lia. rewrite Hl, Nat.sub_diag. reflexivity. }
    rewrite (proj2 (fc_header_unit _ Hh)).
    replace (Z.of_nat (List.length (post ++ rowlines ++ [dl])) - 1)%Z with (Z.of_nat (List.length (post ++ rowlines))).
    2:{ rewrite !app_length. cbn [List.length]. lia. }
    rewrite py_index_nat. replace (nth_error (rev (pre ++ h :: dl :: rowlines ++ post)) (List.length (post ++ rowlines))) with (Some dl).
    2:{ rewrite Hrev. cbn [rev]. rewrite rev_app_distr.
        replace (((rev post ++ rev rowlines) ++ [dl]) ++ h :: rev pre)%list with ((rev post ++ rev rowlines) ++ dl :: h :: rev pre)%list by now rewrite <- !app_assoc.
        rewrite nth_error_app2; rewrite !app_length, !rev_length; [|lia]. now rewrite Nat.sub_diag. }
    assert (Hdim : count_words false (strip dl) = List.length rowlines).
    { destruct Hd as (n0 & t0 & r & tail & -> & -> & HT & HP & Ht). rewrite line_strip, count_line by auto.
      rewrite <- Hlen. cbn [List.length]. now rewrite map_length. }
    cbn zeta. rewrite Hdim. now rewrite (rows_complete (fastcap_row parse_float)) by reflexivity. }
  now rewrite (G hdr text Hr Hh), (G hdr' text' Hr' Hh').
Qed.
Print Assumptions C27_last_matrix_parsed.
Print Assumptions C28_truncated_rejected_partial.
Print Assumptions C28_missing_rows_come_from_the_top.
Print Assumptions C28_missing_row_refuted.
Print Assumptions C28_cut_row_refuted.
Print Assumptions C60_last_fastcap_matrix_parsed.
Print Assumptions C60_rejected.
Print Assumptions C61_unit_refuted.
Print Assumptions C61_unit_is_ignored.
