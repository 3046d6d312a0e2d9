(** Files of the text store: resizing, writing at a position, ends of chunks. *)
From Verif Require Import Base Bytes CodecModel CodecSpec CodecProofs ChunkModel ChunkSpec.

Lemma resize_app p (a b : list Z) : p = len a -> resize p (a ++ b) = a.
Proof.
  intros ->. unfold resize, len. rewrite Nat2Z.id, firstn_app, firstn_all, Nat.sub_diag, app_length.
  replace (length a - (length a + length b))%nat with 0%nat by lia. cbn [repeat firstn]. rewrite !app_nil_r. reflexivity.
Qed.
Lemma resize_more p (a b : list Z) : len a <= p -> exists r, resize p (a ++ b) = a ++ r /\ len r = p - len a.
Proof.
  intros H. unfold resize. rewrite firstn_app, firstn_all2 by (unfold len in H; lia). rewrite <- app_assoc.
  eexists. split; [reflexivity|]. unfold len in *. rewrite app_length, repeat_length, firstn_length, app_length. lia.
Qed.
Lemma len_resize p (f : list Z) : 0 <= p -> len (resize p f) = p.
Proof. intros H. unfold resize, len. rewrite app_length, repeat_length, firstn_length. lia. Qed.
Lemma write_at_app p b (a r : bytes) : p = len a -> exists r', write_at p b (a ++ r) = a ++ b ++ r'.
Proof.
  intros ->. unfold write_at. rewrite resize_app by reflexivity. eexists. reflexivity.
Qed.
Lemma write_at_more p b (a r : bytes) : len a <= p -> exists r', write_at p b (a ++ r) = a ++ r'.
Proof.
  intros H. unfold write_at. destruct (resize_more p a r H) as (x & -> & _). rewrite <- app_assoc. eexists. reflexivity.
Qed.
Lemma len_write_at p b f : 0 <= p -> p + len b <= len (write_at p b f).
Proof.
  intros H. unfold write_at. pose proof (len_resize p f H) as L. unfold len in *. rewrite !app_length. lia.
Qed.
Lemma part_app (a b r : bytes) o n : o = len a -> n = len b -> part (a ++ b ++ r) o n = b.
Proof.
  intros -> ->. unfold part, len. rewrite !Nat2Z.id, skipn_app, Nat.sub_diag, skipn_all. cbn [app skipn].
  rewrite firstn_app, Nat.sub_diag, firstn_all, firstn_O, app_nil_r. reflexivity.
Qed.

(** Running ends of blocks with these lengths. *)
Fixpoint ends (p : Z) (l : list bytes) : list Z :=
  match l with [] => [] | b :: l => (p + len b) :: ends (p + len b) l end.
Lemma ends_app p l m : ends p (l ++ m) = ends p l ++ ends (p + len (concat l)) m.
Proof.
  revert p. induction l as [|b l IH]; intros p; cbn [app ends concat].
  - change (len (@nil Z)) with 0. rewrite Z.add_0_r. reflexivity.
  - rewrite IH. rewrite len_app. replace (p + len b + len (concat l)) with (p + (len b + len (concat l))) by lia. reflexivity.
Qed.
Lemma len_ends p l : length (ends p l) = length l.
Proof. revert p. induction l as [|b l IH]; intros p; cbn; [reflexivity|]. rewrite IH. reflexivity. Qed.
Lemma ends_nth p l i b r : l = firstn i l ++ b :: r -> (i < length l)%nat ->
  nth_error (ends p l) i = Some (p + len (concat (firstn i l)) + len b).
Proof.
  revert p i. induction l as [|x l IH]; intros p [|i] E Hi; cbn in *; try lia.
  - injection E as -> _. change (len (@nil Z)) with 0. f_equal. lia.
  - injection E as E. rewrite IH by (assumption || lia). rewrite len_app. f_equal. lia.
Qed.
Lemma idx_nth {A} (l : list A) i x : nth_error l i = Some x -> idx l (Z.of_nat i) = Ok x.
Proof. intros H. unfold idx. destruct (Z.ltb_spec (Z.of_nat i) 0); [lia|]. rewrite Nat2Z.id, H. reflexivity. Qed.
Lemma split_nth {A} (l : list A) i : (i < length l)%nat -> exists b, l = firstn i l ++ b :: skipn (S i) l /\ nth_error l i = Some b.
Proof.
  revert i. induction l as [|x l IH]; intros [|i] H; cbn in *; try lia.
  - exists x. split; reflexivity.
  - destruct (IH i ltac:(lia)) as (b & E & N). exists b. split; [f_equal; exact E|exact N].
Qed.
(** Starts and ends, with anything after. *)
Lemma chunk_start_at l m i : (i <= length l)%nat -> chunk_start (ends 0 l ++ m) i = Ok (len (concat (firstn i l))).
Proof.
  intros H. destruct i as [|i]; cbn [chunk_start].
  - change (len (concat (firstn 0 l))) with 0. reflexivity.
  - destruct (split_nth l i ltac:(lia)) as (b & E & N). apply idx_nth. rewrite nth_error_app1 by (rewrite len_ends; lia).
    rewrite (ends_nth 0 l i b _ E) by lia. f_equal.
    rewrite E at 2. rewrite firstn_app. rewrite firstn_firstn, firstn_length.
    replace (Nat.min (S i) i) with i by lia. replace (S i - Nat.min i (length l))%nat with 1%nat by lia.
    cbn [firstn]. rewrite concat_app. cbn [concat]. rewrite app_nil_r, len_app. lia.
Qed.
Lemma chunk_end_at l m i b : nth_error l i = Some b ->
  chunk_end (ends 0 l ++ m) i = Ok (len (concat (firstn i l)) + len b).
Proof.
  intros N. assert (Hi : (i < length l)%nat) by (apply nth_error_Some; congruence).
  destruct (split_nth l i Hi) as (b' & E & N'). assert (b' = b) by congruence. subst b'.
  unfold chunk_end. apply idx_nth. rewrite nth_error_app1 by (rewrite len_ends; lia).
  rewrite (ends_nth 0 l i b _ E) by lia. f_equal.
Qed.
