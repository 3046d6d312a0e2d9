(** File names and the directory. *)
From Verif Require Import Base Bytes NameModel NameSpec NameProofs RecoverAll StoreModel.

(** * Names *)
Lemma dec_no_dot z : ~ In 46 (dec z).
Proof.
  unfold dec. destruct (z <? 0) eqn:E.
  - apply Z.ltb_lt in E. destruct (dec_nat_ok (- z) ltac:(lia)) as (D & _). intros [K|K]; [discriminate|].
    rewrite forallb_forall in D. apply D in K. discriminate.
  - apply Z.ltb_ge in E. destruct (dec_nat_ok z E) as (D & _). intros K. rewrite forallb_forall in D. apply D in K. discriminate.
Qed.
Lemma seq_no_dot z : ~ In 46 (seq2str z).
Proof. unfold seq2str. intros H. apply in_app_iff in H. destruct H as [H|H]; [apply repeat_spec in H; discriminate|apply dec_no_dot in H; exact H]. Qed.
Lemma dec_digits z : 0 <= z -> Forall (fun c => 48 <= c <= 57) (dec z).
Proof. intros H. rewrite dec_pos by exact H. apply forallb_digits. apply dec_nat_ok. exact H. Qed.
Lemma cut_unique (c : Z) a b a' b' : ~ In c a -> ~ In c a' -> a ++ c :: b = a' ++ c :: b' -> a = a' /\ b = b'.
Proof.
  revert a'. induction a as [|x a IH]; intros [|y a'] N N' E; cbn in E.
  - injection E as E. split; [reflexivity|exact E].
  - injection E as E1 E2. exfalso. apply N'. left. congruence.
  - injection E as E1 E2. exfalso. apply N. left. congruence.
  - injection E as E1 E2. subst y. destruct (IH a') as [-> ->]; [intros K; apply N; right; exact K|intros K; apply N'; right; exact K|exact E2|]. split; reflexivity.
Qed.
Lemma pad_inj n z n' z' : repeat 48 n ++ dec z = repeat 48 n' ++ dec z' -> z = z'.
Proof.
  assert (D : forall n z, 0 <= z -> ~ In 45 (repeat 48 n ++ dec z)).
  { intros k y Hy K. apply in_app_iff in K. destruct K as [K|K]; [apply repeat_spec in K; discriminate|].
    pose proof (dec_digits y Hy) as F. rewrite Forall_forall in F. apply F in K. lia. }
  assert (V : forall n z, 0 <= z -> dec_val 0 (repeat 48 n ++ dec z) = z).
  { intros k y Hy. rewrite dec_val_zeros, dec_pos by exact Hy. apply dec_nat_ok. exact Hy. }
  assert (N : forall z, z < 0 -> dec z = 45 :: dec_nat (- z)).
  { intros y Hy. unfold dec. apply Z.ltb_lt in Hy. rewrite Hy. reflexivity. }
  intros E. destruct (Z.lt_ge_cases z 0) as [A|A], (Z.lt_ge_cases z' 0) as [B|B].
  - rewrite (N z A), (N z' B) in E. apply cut_unique in E.
    + destruct E as [_ E]. apply dec_inj in E; lia.
    + intros K. apply repeat_spec in K. discriminate.
    + intros K. apply repeat_spec in K. discriminate.
  - exfalso. apply (D n' z' B). rewrite <- E, (N z A). apply in_app_iff. right. left. reflexivity.
  - exfalso. apply (D n z A). rewrite E, (N z' B). apply in_app_iff. right. left. reflexivity.
  - rewrite <- (V n z A), <- (V n' z' B). rewrite E. reflexivity.
Qed.
Lemma seq2str_inj s s' : seq2str s = seq2str s' -> s = s'.
Proof. unfold seq2str. apply pad_inj. Qed.
Lemma shard_name_inj p s e s' e' : shard_name p s e = shard_name p s' e' -> s = s' /\ e = e'.
Proof.
  unfold shard_name. intros E. apply app_inv_head in E. cbn in E. injection E as E.
  apply cut_unique in E; [|apply seq_no_dot|apply seq_no_dot]. destruct E as [E1 E2]. split; apply seq2str_inj; assumption.
Qed.
Lemma temp_inj k k' : temp_name k = temp_name k' -> k = k'.
Proof. unfold temp_name. intros E. apply app_inv_head in E. apply pad_inj in E. lia. Qed.
Lemma script_inj k k' : script_name k = script_name k' -> k = k'.
Proof. unfold script_name. intros E. apply app_inv_head in E. apply app_inv_tail in E. apply (pad_inj 0 _ 0) in E. lia. Qed.
(** The first byte tells the kinds of names apart. *)
Definition first (n : bytes) : Z := hd 0 n.
Lemma first_shard k s e : first (shard_name (kname k) s e) = match k with Kitten => 107 | FiverK => 102 | HazelK => 104 | Gone => 114 end.
Proof. destruct k; reflexivity. Qed.
Lemma first_kitten x : first (kitten_name x) = 107.
Proof. reflexivity. Qed.
Lemma first_fiver x : first (fiver_name x) = 102.
Proof. reflexivity. Qed.
Lemma first_temp k : first (temp_name k) = 116.
Proof. reflexivity. Qed.
Lemma first_script k : first (script_name k) = 99.
Proof. reflexivity. Qed.
Lemma first_prefix p n : p <> [] -> has_prefix p n = true -> first n = first p.
Proof. intros N H. apply has_prefix_spec in H. destruct H as [r ->]. destruct p; [contradiction|reflexivity]. Qed.
Lemma first_ne a b : first a <> first b -> a <> b.
Proof. intros N ->. apply N. reflexivity. Qed.
Lemma shard_inj k s e k' s' e' : shard_name (kname k) s e = shard_name (kname k') s' e' -> k = k' /\ s = s' /\ e = e'.
Proof.
  intros E. assert (K : k = k').
  { apply (f_equal first) in E. rewrite !first_shard in E. destruct k, k'; congruence. }
  subst k'. apply shard_name_inj in E. tauto.
Qed.

(** * The directory *)
Lemma find_erase n d x : find (erase n d) x = if bytes_eq_dec n x then None else find d x.
Proof.
  unfold erase in *. induction d as [|[m f] d IH]; cbn; [destruct (bytes_eq_dec n x); reflexivity|].
  destruct (bytes_eq_dec m n) as [->|N]; cbn.
  - rewrite IH. destruct (bytes_eq_dec n x); reflexivity.
  - rewrite IH. destruct (bytes_eq_dec m x) as [->|N']; [|reflexivity]. destruct (bytes_eq_dec n x) as [E|]; [congruence|reflexivity].
Qed.
Lemma find_put n f d x : find (put n f d) x = if bytes_eq_dec n x then Some f else find d x.
Proof. cbn. destruct (bytes_eq_dec n x) as [|N]; [reflexivity|]. rewrite find_erase. destruct (bytes_eq_dec n x); [contradiction|reflexivity]. Qed.
Lemma find_put_same n f d : find (put n f d) n = Some f.
Proof. rewrite find_put. destruct (bytes_eq_dec n n); [reflexivity|contradiction]. Qed.
Lemma find_put_other n f d x : n <> x -> find (put n f d) x = find d x.
Proof. intros N. rewrite find_put. destruct (bytes_eq_dec n x); [contradiction|reflexivity]. Qed.
Lemma find_erase_same n d : find (erase n d) n = None.
Proof. rewrite find_erase. destruct (bytes_eq_dec n n); [reflexivity|contradiction]. Qed.
Lemma find_erase_other n d x : n <> x -> find (erase n d) x = find d x.
Proof. intros N. rewrite find_erase. destruct (bytes_eq_dec n x); [contradiction|reflexivity]. Qed.
Lemma find_in d n f : find d n = Some f -> In n (names d).
Proof.
  induction d as [|[m h] d IH]; cbn; [discriminate|]. destruct (bytes_eq_dec m n) as [->|]; [left; reflexivity|right; apply IH; assumption].
Qed.
Lemma in_find d n : In n (names d) -> exists f, find d n = Some f.
Proof.
  induction d as [|[m h] d IH]; cbn; [contradiction|]. intros H. destruct (bytes_eq_dec m n) as [E|N]; [exists h; reflexivity|].
  apply IH. destruct H; [contradiction|assumption].
Qed.
Lemma erase_names n d x : In x (names (erase n d)) <-> In x (names d) /\ x <> n.
Proof.
  split.
  - intros H. apply in_find in H. destruct H as [f H]. rewrite find_erase in H. destruct (bytes_eq_dec n x) as [|N]; [discriminate|].
    split; [eapply find_in; exact H|congruence].
  - intros [H N]. apply in_find in H. destruct H as [f H]. apply (find_in _ _ f). rewrite find_erase_other by congruence. exact H.
Qed.
Lemma nodup_erase n d : NoDup (names d) -> NoDup (names (erase n d)).
Proof.
  induction d as [|[m h] d IH]; cbn; intros H; [exact H|]. inversion H as [|? ? A B]; subst.
  destruct (bytes_eq_dec m n); [apply IH; exact B|]. cbn. constructor; [|apply IH; exact B].
  intros K. apply A. change (In m (names (erase n d))) in K. apply erase_names in K. apply K.
Qed.
Lemma nodup_put n f d : NoDup (names d) -> NoDup (names (put n f d)).
Proof.
  intros H. cbn. constructor; [|apply nodup_erase; exact H]. change (~ In n (names (erase n d))). rewrite erase_names. tauto.
Qed.
Lemma link_some a b d d' : link a b d = Some d' -> exists f, find d a = Some f /\ find d b = None /\ d' = put b f d.
Proof. unfold link. destruct (find d a) as [f|]; [|discriminate]. destruct (find d b); [discriminate|]. intros E. injection E as <-. exists f. repeat split. Qed.
Lemma link_none a b d : link a b d = None -> find d a = None \/ find d b <> None.
Proof. unfold link. destruct (find d a) as [f|]; [|left; reflexivity]. destruct (find d b); [right; discriminate|discriminate]. Qed.
#[global] Arguments find : simpl never.
#[global] Arguments put : simpl never.
#[global] Arguments erase : simpl never.
#[global] Arguments shard_name : simpl never.
#[global] Arguments temp_name : simpl never.
#[global] Arguments script_name : simpl never.
#[global] Arguments hazel_sidecar_name : simpl never.
#[global] Arguments lit : simpl never.
#[global] Arguments out_name : simpl never.
