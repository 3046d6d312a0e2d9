(** More about append_tsv: shares of the workers, the text, names and paths. *)
From Verif Require Import Base Bytes HopperModel ArrayDefs GclSpec VectorModel UnaryProofs CodecModel PostingModel PostingSpec ShardModel
  TokenModel TextModel TextSpec TextProofs TextBack TsvModel TsvSpec TsvSplit TsvProofs TsvIndex NameProofs StoreDir.
From Verif Require RecipeModel RecipeProofs.

(** * Shares *)
Lemma first_line_mono {A} (l : list A) n k threads : 0 < threads -> 0 <= n <= k -> 0 <= first_line l n threads <= first_line l k threads.
Proof. intros T H. unfold first_line. split; [apply Z.div_pos; nia|]. apply Z.div_le_mono; [exact T|nia]. Qed.
Lemma first_line_all {A} (l : list A) threads : 0 < threads -> first_line l threads threads = Z.of_nat (length l).
Proof. intros T. unfold first_line. apply Z.div_mul. lia. Qed.
Lemma first_line_0 {A} (l : list A) threads : 0 < threads -> first_line l 0 threads = 0.
Proof. intros T. unfold first_line. rewrite Z.mul_0_r. apply Z.div_0_l. lia. Qed.
Lemma shares_to {A} (l : list A) threads (k : nat) : 0 < threads -> Z.of_nat k <= threads ->
  concat (map (fun n => lines_of l n threads) (map Z.of_nat (seq 0 k))) = firstn (Z.to_nat (first_line l (Z.of_nat k) threads)) l.
Proof.
  intros T. induction k as [|k IH]; intros K.
  - cbn [seq map concat]. rewrite first_line_0 by exact T. reflexivity.
  - rewrite seq_S, !map_app, concat_app, IH by lia. cbn [map concat Nat.add]. rewrite app_nil_r. unfold lines_of.
    pose proof (first_line_mono l (Z.of_nat k) (Z.of_nat k + 1) threads T ltac:(lia)) as M.
    replace (Z.of_nat (Datatypes.S k)) with (Z.of_nat k + 1) by lia.
    set (a := first_line l (Z.of_nat k) threads) in *. set (b := first_line l (Z.of_nat k + 1) threads) in *.
    rewrite <- (firstn_skipn (Z.to_nat a) (firstn (Z.to_nat b) l)). rewrite firstn_firstn, Nat.min_l by lia. f_equal.
    rewrite skipn_firstn_comm. f_equal. lia.
Qed.
Theorem shares {A} (l : list A) threads : 0 < threads -> concat (map (fun n => lines_of l n threads) (numbers threads)) = l.
Proof.
  intros T. unfold numbers. rewrite shares_to by lia. replace (Z.of_nat (Z.to_nat threads)) with threads by lia.
  rewrite first_line_all by exact T. rewrite Nat2Z.id. apply firstn_all.
Qed.
(** Line [k] of the share of worker [n] is line [first_line n + k] of the file. *)
Lemma share_line {A} (l : list A) n threads k x : 0 < threads -> 0 <= n -> nth_error (lines_of l n threads) k = Some x -> nth_error l (Z.to_nat (first_line l n threads) + k) = Some x.
Proof.
  intros T N H. unfold lines_of in H. assert (K : (k < Z.to_nat (first_line l (n + 1) threads - first_line l n threads))%nat).
  { assert (L : (k < length (firstn (Z.to_nat (first_line l (n + 1) threads - first_line l n threads)) (skipn (Z.to_nat (first_line l n threads)) l)))%nat) by (apply nth_error_Some; congruence).
    pose proof (firstn_le_length (Z.to_nat (first_line l (n + 1) threads - first_line l n threads)) (skipn (Z.to_nat (first_line l n threads)) l)). rewrite firstn_length in L. lia. }
  revert H K. generalize (Z.to_nat (first_line l (n + 1) threads - first_line l n threads)) as j. generalize (Z.to_nat (first_line l n threads)) as i. clear. intros i j H K.
  revert l H. induction i as [|i IH]; intros l H.
  - cbn [skipn Nat.add] in *. rewrite <- H. clear H. revert l j K. induction k as [|k IH]; intros [|y l] [|j] K; try lia; try reflexivity. cbn. apply IH. lia.
  - destruct l as [|y l]; [rewrite skipn_nil, firstn_nil in H; destruct k; discriminate|]. cbn [skipn] in H. cbn [Nat.add nth_error]. apply IH, H.
Qed.

(** * Records *)
Lemma records_eq sep lines rs : records_of sep lines rs -> rs = map (record sep) lines.
Proof.
  induction 1 as [|line r lines rs (fs & F & ->) _ IH]; [reflexivity|]. cbn [map]. rewrite IH. f_equal. unfold record.
  rewrite (fields_unique _ _ _ _ F (split_tsv_ok line sep)). reflexivity.
Qed.
Lemma records_exist sep lines : records_of sep lines (map (record sep) lines).
Proof. induction lines as [|line lines IH]; cbn [map]; constructor; [|exact IH]. exists (split_tsv line sep). split; [apply split_tsv_ok|reflexivity]. Qed.

(** * Names *)
Lemma field_name_inj j j' : field_name j = field_name j' -> j = j'.
Proof.
  unfold field_name. intros E. apply app_inv_head in E. apply app_inv_tail in E. rewrite !dec_pos in E by lia. apply dec_inj in E; lia.
Qed.
Lemma field_name_long j : field_name j <> lit ":" /\ field_name j <> lit "::".
Proof.
  assert (D : exists c r, dec (Z.of_nat j) = c :: r /\ 48 <= c <= 57).
  { pose proof (dec_digits (Z.of_nat j) ltac:(lia)) as D. destruct (dec (Z.of_nat j)) as [|c r] eqn:E.
    - exfalso. rewrite dec_pos in E by lia. pose proof (dec_nat_ok (Z.of_nat j) ltac:(lia)) as K. rewrite E in K. revert K. cbn. intuition congruence.
    - inversion D; subst. eauto. }
  destruct D as (c & r & E & C). unfold field_name. rewrite E. split; intros K; injection K; intros; try (subst c; lia); destruct r; discriminate.
Qed.

(** * The text *)
Lemma closed_ne t : t <> [] -> closed t = t ++ (if white (last t 0) then [] else [10]). Proof. destruct t; [contradiction|reflexivity]. Qed.
Lemma closed_record sep fs line : separated sep line fs -> sep <> [] -> white (last sep 0) = true ->
  concat (map closed (record_texts sep fs)) = closed line.
Proof.
  intros S N W. pose proof (separated_joins _ _ _ S) as J. destruct (exists_last N) as (s' & c & Es). assert (Wc : white c = true) by (rewrite Es, last_last in W; exact W).
  assert (G : forall fs, fs <> [] -> concat (map closed (record_texts sep fs)) = closed (concat (record_texts sep fs))).
  { clear - Es Wc. intros fs. induction fs as [|f fs IH]; intros F; [contradiction|]. destruct fs as [|g fs].
    - cbn [record_texts map concat]. rewrite !app_nil_r. reflexivity.
    - change (record_texts sep (f :: g :: fs)) with ((f ++ sep) :: record_texts sep (g :: fs)). cbn [map concat]. rewrite IH by discriminate.
      set (R := concat (record_texts sep (g :: fs))). assert (C1 : closed (f ++ sep) = f ++ sep).
      { rewrite Es, app_assoc, closed_ne by (destruct (f ++ s'); discriminate). now rewrite last_last, Wc, app_nil_r. }
      rewrite C1. destruct R as [|x R]; [now rewrite !app_nil_r, C1|].
      assert (L : last ((f ++ sep) ++ x :: R) 0 = last (x :: R) 0).
      { generalize (f ++ sep) as u. induction u as [|y u IHu]; [reflexivity|]. cbn [app]. rewrite <- IHu. destruct (u ++ x :: R) eqn:E; [destruct u; discriminate|reflexivity]. }
      rewrite !closed_ne; [now rewrite L, <- !app_assoc|destruct (f ++ sep); discriminate|discriminate]. }
  rewrite G, J; [reflexivity|]. inversion S; discriminate.
Qed.
Theorem records_text sep lines rs : sep <> [] -> white (last sep 0) = true -> records_of sep lines rs ->
  concat (map closed (concat rs)) = concat (map closed lines).
Proof.
  intros N W. induction 1 as [|line r lines rs (fs & F & ->) _ IH]; [reflexivity|]. cbn [map concat]. rewrite map_app, concat_app, IH. f_equal.
  assert (E : between_fields sep = sep) by (destruct sep; [contradiction|reflexivity]). rewrite E. apply closed_record; [|exact N|exact W]. destruct sep; [contradiction|exact F].
Qed.

(** * Paths *)
Lemma skip_plain s : Forall (fun c => ~ space c) s -> forall r, s <> [] -> RecipeModel.skip (s ++ r) = s ++ r.
Proof.
  intros F r N. destruct s as [|c s]; [contradiction|]. inversion F; subst. cbn [app RecipeModel.skip].
  assert (E : RecipeModel.is_space c = false) by (apply not_space_iff; assumption). now rewrite E.
Qed.
Theorem path_match_ok stored asked : stored <> [] -> Forall (fun c => ~ space c) stored -> Forall (fun c => ~ space c) asked ->
  forall rest, (rest = [] \/ exists c r, rest = c :: r /\ space c) -> path_match (stored ++ rest) asked = true <-> asked = stored.
Proof.
  intros N F G rest R. unfold path_match. rewrite (skip_plain _ F _ N). rewrite Bool.andb_true_iff, begins_iff. split.
  - intros [(b & E) K]. rewrite E, skipn_app_len in K. symmetry.
    destruct (app_eq_app stored rest asked b) as (l & [[E1 E2]|[E1 E2]]); [rewrite E; reflexivity| |].
    + subst stored. destruct l as [|c l]; [apply app_nil_r|]. subst b. cbn [app] in K. apply Forall_app in F as [_ F]. inversion F; subst. apply space_iff in K. contradiction.
    + subst asked. destruct l as [|c l]; [symmetry; apply app_nil_r|]. apply Forall_app in G as [_ G]. inversion G; subst. destruct R as [R|(c' & r & R & S)]; [discriminate|]. injection R as -> _. contradiction.
  - intros ->. split; [exists rest; reflexivity|]. rewrite skipn_app_len. destruct R as [->|(c & r & -> & S)]; [reflexivity|]. now apply space_iff.
Qed.

(** * Committing *)
Theorem append_tsv_ok path_ok clone_ok ready_ok lines threads done parts : append_tsv path_ok clone_ok ready_ok lines threads = (done, parts) ->
  (done = true -> parts = Path :: (if lines =? 0 then [] else map Lines (numbers threads))) /\
  (done = false -> parts = [] \/ parts = [Path]).
Proof.
  unfold append_tsv. destruct path_ok; cbn [negb]; [|intros [= <- <-]; split; [discriminate|auto]].
  destruct (lines =? 0); [intros [= <- <-]; split; [auto|discriminate]|].
  destruct (forallb clone_ok _); [|intros [= <- <-]; split; [discriminate|auto]].
  destruct (forallb ready_ok _); intros [= <- <-]; split; auto; discriminate.
Qed.
