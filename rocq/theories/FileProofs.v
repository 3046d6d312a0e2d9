(** Jars and dictionaries. *)
From Verif Require Import Base HopperModel ArrayDefs GclSpec Bytes CodecModel CodecSpec CodecProofs PostingModel PostingSpec PostingIO
  ShardModel TokenModel TextModel TextSpec HazelModel FileModel FileSpec.
From Verif Require RecipeModel.

(** * Maps *)
Lemma find_put f p ix g : find_posting (map_put f p ix) g = if f =? g then Some p else find_posting ix g.
Proof.
  induction ix as [|[h q] r IH]; [reflexivity|]. cbn [map_put]. destruct (Z.ltb_spec f h) as [L|L]; [reflexivity|].
  destruct (Z.eqb_spec f h) as [->|N]; cbn [find_posting].
  - destruct (Z.eqb_spec h g); reflexivity.
  - rewrite IH. destruct (Z.eqb_spec h g) as [->|M]; [|reflexivity]. destruct (Z.eqb_spec f g); [lia|reflexivity].
Qed.
Lemma find_in_order ix g : find_posting (in_order ix) g = find_posting ix g.
Proof. induction ix as [|[f p] r IH]; [reflexivity|]. cbn [in_order fold_right fst snd find_posting]. rewrite find_put. fold (in_order r). rewrite IH. reflexivity. Qed.
Fixpoint sorted_rows (ix : index) : Prop :=
  match ix with [] => True | (f, _) :: r => Forall (fun x => f < fst x) r /\ sorted_rows r end.
Lemma put_in f p ix x : In x (map_put f p ix) -> x = (f, p) \/ In x ix.
Proof.
  induction ix as [|[h q] r IH]; cbn [map_put]; [intros [<-|[]]; auto|]. destruct (f <? h); [intros [<-|H]; auto|].
  destruct (f =? h); [intros [<-|H]; cbn; auto|]. intros [<-|H]; [cbn; auto|]. destruct (IH H) as [->|K]; cbn; auto.
Qed.
Lemma put_sorted f p ix : sorted_rows ix -> sorted_rows (map_put f p ix).
Proof.
  induction ix as [|[h q] r IH]; intros S; [cbn; auto|]. cbn [map_put]. pose proof S as S'. destruct S' as [F S']. destruct (Z.ltb_spec f h) as [L|L].
  - cbn [sorted_rows]. split; [|exact S]. constructor; [exact L|]. eapply Forall_impl; [|exact F]. cbn. lia.
  - destruct (Z.eqb_spec f h) as [->|N]; [exact S|]. cbn [sorted_rows]. split; [|apply IH, S']. apply Forall_forall. intros x Hx. apply put_in in Hx.
    destruct Hx as [->|Hx]; [cbn; lia|]. rewrite Forall_forall in F. apply F, Hx.
Qed.
Lemma in_order_sorted ix : sorted_rows (in_order ix).
Proof. induction ix as [|[f p] r IH]; [exact Logic.I|]. cbn [in_order fold_right]. apply put_sorted, IH. Qed.
Lemma in_order_in ix x : In x (in_order ix) -> In x ix.
Proof. induction ix as [|[f p] r IH]; [auto|]. cbn [in_order fold_right fst snd]. intros H. apply put_in in H. destruct H as [->|H]; cbn; auto. Qed.
Lemma put_last f p ix : Forall (fun x => fst x < f) ix -> map_put f p ix = ix ++ [(f, p)].
Proof.
  induction 1 as [|[h q] r H F IH]; [reflexivity|]. cbn in H. cbn [map_put app]. replace (f <? h) with false by lia. replace (f =? h) with false by lia. rewrite IH. reflexivity.
Qed.
Lemma sorted_app a b : sorted_rows (a ++ b) -> forall x y, In x a -> In y b -> fst x < fst y.
Proof.
  induction a as [|[f p] r IH]; intros S x y Hx Hy; [contradiction|]. cbn [app sorted_rows] in S. destruct S as [F S]. destruct Hx as [<-|Hx]; [|apply (IH S x y Hx Hy)].
  rewrite Forall_forall in F. apply F, in_or_app. right. exact Hy.
Qed.

(** * Jars *)
Section Jar.
Variables cp cf ct : compressor.
Definition row_stored (r : Z * posting) : Prop := feature (snd r) = fst r /\ storable cp cf (snd r) /\ exists l, holds (snd r) l.
Lemma length_pos_written s b : write cp cf s = Ok b -> (40 <= length b)%nat.
Proof.
  unfold write. destruct (psize s =? 0); [intros [= <-]; cbn; lia|]. destruct (crush cp _ _) as [bp| |]; [|discriminate|discriminate]. cbn [bind].
  assert (H40 : forall x y z : bytes, (40 <= length (word_bytes [feature s; psize s; len x; len y; len z] ++ x ++ y ++ z))%nat).
  { intros x y z. rewrite app_length. pose proof (len_word_bytes [feature s; psize s; len x; len y; len z]) as E. unfold len in E. cbn [length] in E. unfold len in *. lia. }
  match goal with |- bind ?m _ = _ -> _ => destruct m as [bq| |]; [|discriminate|discriminate] end. cbn [bind].
  match goal with |- bind ?m _ = _ -> _ => destruct m as [bf| |]; [|discriminate|discriminate] end. cbn [bind]. intros [= <-]. apply H40.
Qed.
Lemma rows_back rows : Forall row_stored rows -> exists b, write_all cp cf rows = Ok b /\
  forall done n, sorted_rows (done ++ rows) -> (length b < n)%nat -> read_all cp cf n b done = Ok (done ++ rows).
Proof.
  induction rows as [|[f s] r IH]; intros F.
  - exists []. split; [reflexivity|]. intros done n _ Hn. destruct n; [cbn in Hn; lia|]. cbn. rewrite app_nil_r. reflexivity.
  - inversion F as [|? ? (E & K & l & H) F']; subst. cbn [fst snd] in *. destruct (IH F') as (c & Ec & R). destruct (write_read cp cf s l H K) as (b & Eb & Rb & _).
    exists (b ++ c). cbn [write_all]. rewrite Eb. cbn [bind]. rewrite Ec. split; [reflexivity|]. intros done n S Hn. pose proof (length_pos_written _ _ Eb) as Lb. rewrite app_length in Hn.
    destruct n as [|n]; [lia|]. cbn [read_all]. rewrite Rb. cbn [bind]. rewrite E. rewrite put_last.
    + rewrite R; [rewrite <- app_assoc; reflexivity|rewrite <- app_assoc; exact S|lia].
    + apply Forall_forall. intros x Hx. exact (sorted_app _ _ S x (f, s) Hx (or_introl eq_refl)).
Qed.
Theorem pickle_back : forall w, can_pickle cp cf ct w ->
  exists jar w', pickle cp cf ct w = Ok jar /\ unpickle cp cf ct jar = Ok (Some w') /\ same_shard w w' /\
    storage_estimate w' = storage_estimate (Fiver (f_text w) (in_order (f_index w)) (f_start w) (f_end w)).
Proof.
  intros w (As & Ae & X0 & Xm & L & F). set (n := len (f_text w)) in *. destruct (L (n + extra ct n) ltac:(unfold n; lia)) as (z & Ez & Lz & _ & _ & T).
  assert (Fo : Forall row_stored (in_order (f_index w))).
  { rewrite Forall_forall in *. intros x Hx. exact (F x (in_order_in _ _ Hx)). }
  destruct (rows_back _ Fo) as (c & Ec & R). exists (word_bytes [f_start w; f_end w; n; len z] ++ z ++ c), (Fiver (f_text w) (in_order (f_index w)) (f_start w) (f_end w)).
  split; [unfold pickle; fold n; rewrite Ez; cbn [bind]; rewrite Ec; reflexivity|]. split.
  - assert (Hn : 0 <= n) by (unfold n, len; lia). assert (Hz : 0 <= len z) by (unfold len; lia).
    unfold unpickle. rewrite (read_app _ _ 32) by reflexivity. fold n in Lz.
    rewrite words_bytes by (repeat (constructor; [unfold is_addr, minf, maxf in *; lia|]); constructor).
    replace ((n + extra ct n <? 0) || (len z <? 0)) with false by lia. unfold must_read. rewrite (read_app z c _ eq_refl). cbn [bind].
    rewrite (T (n + extra ct n)) by (change (n <= n + extra ct n); lia). cbn [bind]. fold n. replace ((n <? 0) || (n <? n)) with false by lia.
    rewrite (R [] (S (length c)) (in_order_sorted _)) by lia. cbn [bind app]. unfold n, len. rewrite Nat2Z.id, firstn_all. reflexivity.
  - split; [|reflexivity]. split; [reflexivity|]. split; [reflexivity|]. split; [reflexivity|]. intros f. apply find_in_order.
Qed.
End Jar.

(** * Dictionaries *)
Lemma read_addr_ok z f : is_addr z -> read_addr (word_bytes [z] ++ f) = Some (z, f).
Proof. intros H. unfold read_addr. rewrite (read_app (word_bytes [z]) f 8) by reflexivity. rewrite words_bytes by (constructor; [exact H|constructor]). reflexivity. Qed.
Lemma read_some n f a b : read n f = Some (a, b) -> f = a ++ b /\ len a = n /\ 0 <= n.
Proof.
  unfold read. destruct ((n <? 0) || (len f <? n)) eqn:E; [discriminate|]. intros [= <- <-]. split; [symmetry; apply firstn_skipn|]. unfold len in *. rewrite firstn_length. lia.
Qed.
Lemma read_addr_inv f z r : Forall is_byte f -> read_addr f = Some (z, r) -> f = word_bytes [z] ++ r /\ is_addr z /\ Forall is_byte r.
Proof.
  intros B. unfold read_addr. destruct (read 8 f) as [[b r']|] eqn:E; [|discriminate]. apply read_some in E. destruct E as (-> & Lb & _). apply Forall_app in B. destruct B as [B1 B2].
  destruct (bytes_words 1 b) as (W & A & Lw); [unfold len in Lb; lia|exact B1|]. destruct (words b) as [|z0 [|? ?]]; [discriminate| |discriminate]. intros [= <- <-]. rewrite W. inversion A; subst. auto.
Qed.
Lemma read_addr_short (k : nat) z f : is_addr z -> (k < 8)%nat -> read_addr (firstn k (word_bytes [z] ++ f)) = None.
Proof. intros H Hk. unfold read_addr, read. replace ((8 <? 0) || (len (firstn k (word_bytes [z] ++ f)) <? 8)) with true; [reflexivity|]. unfold len. rewrite firstn_length. lia. Qed.

(** The map of a list of blobs. *)
Definition blob_map (bs : list blob) (m : list (bytes * blob)) : list (bytes * blob) := fold_left (fun m b => RecipeModel.put (b_name b) b m) bs m.
Lemma get_put {A} k (v : A) m k' : RecipeModel.get k' (RecipeModel.put k v m) = if eqb_bytes k k' then Some v else RecipeModel.get k' m.
Proof.
  assert (Sym : forall a b, eqb_bytes a b = eqb_bytes b a).
  { intros a b. destruct (eqb_bytes a b) eqn:E; symmetry; [apply eqb_bytes_eq in E; subst; apply eqb_bytes_refl|]. apply eqb_bytes_neq. apply eqb_bytes_neq in E. congruence. }
  induction m as [|[k0 v0] r IH]; cbn [RecipeModel.put RecipeModel.get]; [rewrite (Sym k' k); reflexivity|].
  destruct (eqb_bytes k k0) eqn:E; [apply eqb_bytes_eq in E; subst; cbn [RecipeModel.get]; rewrite (Sym k' k0); destruct (eqb_bytes k0 k'); reflexivity|].
  destruct (RecipeModel.before k k0); cbn [RecipeModel.get]; [rewrite (Sym k' k); reflexivity|]. rewrite IH.
  destruct (eqb_bytes k' k0) eqn:E2; [|reflexivity]. apply eqb_bytes_eq in E2. subst. rewrite E. reflexivity.
Qed.
Lemma get_blob_map name bs : forall m, RecipeModel.get name (blob_map bs m) = match last_named name bs with Some b => Some b | None => RecipeModel.get name m end.
Proof.
  induction bs as [|b r IH]; intros m; [reflexivity|]. cbn [blob_map fold_left last_named]. fold (blob_map r (RecipeModel.put (b_name b) b m)). rewrite IH.
  destruct (last_named name r); [reflexivity|]. rewrite get_put. destruct (eqb_bytes (b_name b) name); reflexivity.
Qed.

Lemma entry_len b : len (blob_entry b) = 24 + len (b_name b).
Proof. unfold blob_entry. rewrite !len_app, !len_word_bytes. change (len [len (b_name b)]) with 1. change (len [b_offset b; b_length b]) with 2. lia. Qed.
Lemma entry_split b f : blob_entry b ++ f = word_bytes [len (b_name b)] ++ b_name b ++ word_bytes [b_offset b] ++ word_bytes [b_length b] ++ f.
Proof. unfold blob_entry. change [b_offset b; b_length b] with ([b_offset b] ++ [b_length b]). rewrite word_bytes_app, <- !app_assoc. reflexivity. Qed.
Lemma fits_addr b : blob_fits b -> is_addr (len (b_name b)) /\ is_addr (b_offset b) /\ is_addr (b_length b).
Proof. unfold blob_fits, is_addr, minf, maxf, len. lia. Qed.
Lemma read_blobs_ok bs : forall n rest m, Forall blob_fits bs -> (length (flat_map blob_entry bs) <= n)%nat ->
  read_blobs n (len bs) (flat_map blob_entry bs ++ rest) m = Ok (Some (blob_map bs m)).
Proof.
  induction bs as [|b r IH]; intros n rest m F Hn.
  - destruct n; reflexivity.
  - inversion F as [|? ? Fb F']; subst. destruct (fits_addr b Fb) as (A1 & A2 & A3). pose proof Fb as (B1 & B2 & B3). cbn [flat_map] in Hn |- *. rewrite app_length in Hn. pose proof (entry_len b) as Le. unfold len in Le at 1.
    pose proof (len_nonneg (b_name b)). pose proof (len_nonneg r). destruct n as [|n]; [lia|]. cbn [read_blobs]. rewrite len_cons. replace (1 + len r <=? 0) with false by lia. rewrite <- app_assoc, entry_split.
    rewrite read_addr_ok by exact A1. replace (len (b_name b) <? 0) with false by lia. rewrite (read_app (b_name b)) by reflexivity.
    rewrite read_addr_ok by exact A2. rewrite read_addr_ok by exact A3. replace ((b_offset b <? 0) || (b_length b <? 0)) with false by lia.
    replace (1 + len r - 1) with (len r) by lia. rewrite IH by (exact F' || lia). destruct b; reflexivity.
Qed.
Lemma read_magic_ok magic f : read_magic magic (magic ++ f) = Some f.
Proof. unfold read_magic. rewrite firstn_app, Nat.sub_diag, firstn_all, firstn_O, app_nil_r, eqb_bytes_refl. rewrite skipn_app, skipn_all, Nat.sub_diag. reflexivity. Qed.
Lemma read_magic_inv magic f r : read_magic magic f = Some r -> f = magic ++ r.
Proof. unfold read_magic. destruct (eqb_bytes _ magic) eqn:E; [|discriminate]. apply eqb_bytes_eq in E. intros [= <-]. rewrite <- E at 1. symmetry. apply firstn_skipn. Qed.
Lemma read_magic_short magic f (k : nat) : (k < length magic)%nat -> read_magic magic (firstn k f) = None.
Proof.
  intros H. unfold read_magic. destruct (eqb_bytes _ magic) eqn:E; [|reflexivity]. apply eqb_bytes_eq in E. apply (f_equal (@length Z)) in E. rewrite !firstn_length in E. lia.
Qed.
Theorem dictionary_back : forall bs rest, Forall blob_fits bs -> len bs <= maxf ->
  exists m, read_blob_list (blob_dictionary bs ++ rest) = Ok (Some m) /\ forall name, RecipeModel.get name m = last_named name bs.
Proof.
  intros bs rest F L. exists (blob_map bs []). split.
  - unfold read_blob_list, blob_dictionary. rewrite <- !app_assoc, read_magic_ok. pose proof (len_nonneg bs). rewrite read_addr_ok by (unfold is_addr, minf, maxf in *; lia).
    replace (len bs <? 0) with false by lia. apply read_blobs_ok; [exact F|]. rewrite app_length. lia.
  - intros name. rewrite get_blob_map. destruct (last_named name bs); reflexivity.
Qed.
(** Whatever is accepted is a dictionary. *)
Lemma read_blobs_inv n : forall count f m m', Forall is_byte f -> 0 <= count -> read_blobs n count f m = Ok (Some m') ->
  exists bs rest, f = flat_map blob_entry bs ++ rest /\ len bs = count /\ Forall blob_fits bs /\ m' = blob_map bs m.
Proof.
  induction n as [|n IH]; intros count f m m' B Hc; cbn [read_blobs].
  - destruct (Z.leb_spec count 0); [|discriminate]. intros [= <-]. exists [], f. split; [reflexivity|]. split; [cbn; lia|]. split; [constructor|reflexivity].
  - destruct (Z.leb_spec count 0); [intros [= <-]; exists [], f; split; [reflexivity|]; split; [cbn; lia|]; split; [constructor|reflexivity]|].
    destruct (read_addr f) as [[k f1]|] eqn:E1; [|discriminate]. destruct (read_addr_inv _ _ _ B E1) as (-> & Ak & B1). destruct (Z.ltb_spec k 0); [discriminate|].
    destruct (read k f1) as [[name f2]|] eqn:E2; [|discriminate]. destruct (read_some _ _ _ _ E2) as (-> & Ln & _). apply Forall_app in B1. destruct B1 as [B1 B2].
    destruct (read_addr f2) as [[o f3]|] eqn:E3; [|discriminate]. destruct (read_addr_inv _ _ _ B2 E3) as (-> & Ao & B3).
    destruct (read_addr f3) as [[l f4]|] eqn:E4; [|discriminate]. destruct (read_addr_inv _ _ _ B3 E4) as (-> & Al & B4).
    destruct ((o <? 0) || (l <? 0)) eqn:E5; [discriminate|]. intros K. destruct (IH (count - 1) _ _ _ B4 ltac:(lia) K) as (bs & rest & -> & L & F & ->).
    exists (Blob name o l :: bs), rest. split; [|split; [rewrite len_cons; lia|split; [constructor; [|exact F]|reflexivity]]].
    + cbn [flat_map]. rewrite <- app_assoc, entry_split. cbn [b_name b_offset b_length]. rewrite Ln. reflexivity.
    + unfold blob_fits, is_addr, minf, maxf in *. cbn [b_name b_offset b_length]. lia.
Qed.
Theorem dictionary_only : forall f m, Forall is_byte f -> read_blob_list f = Ok (Some m) ->
  exists bs rest, f = blob_dictionary bs ++ rest /\ Forall blob_fits bs /\ len bs <= maxf /\ forall name, RecipeModel.get name m = last_named name bs.
Proof.
  intros f m B. unfold read_blob_list. destruct (read_magic dict_magic f) as [f1|] eqn:E1; [|discriminate]. apply read_magic_inv in E1. subst f. apply Forall_app in B. destruct B as [_ B].
  destruct (read_addr f1) as [[count f2]|] eqn:E2; [|discriminate]. destruct (read_addr_inv _ _ _ B E2) as (-> & Ac & B2). destruct (Z.ltb_spec count 0); [discriminate|]. intros K.
  destruct (read_blobs_inv _ count _ _ _ B2 ltac:(lia) K) as (bs & rest & -> & L & F & ->). exists bs, rest. split; [|split; [exact F|split; [unfold is_addr in Ac; lia|]]].
  - unfold blob_dictionary. rewrite L, <- !app_assoc. reflexivity.
  - intros name. rewrite get_blob_map. destruct (last_named name bs); reflexivity.
Qed.
(** A truncated dictionary is rejected. *)
Lemma read_blobs_short bs : forall n (k : nat) m, Forall blob_fits bs -> (k < length (flat_map blob_entry bs))%nat -> (k < n)%nat ->
  read_blobs n (len bs) (firstn k (flat_map blob_entry bs)) m = Ok None.
Proof.
  induction bs as [|b r IH]; intros n k m F Hk Hn; [cbn in Hk; lia|]. inversion F as [|? ? Fb F']; subst. destruct (fits_addr b Fb) as (A1 & A2 & A3). pose proof Fb as (B1 & B2 & B3).
  cbn [flat_map] in Hk |- *. rewrite app_length in Hk. pose proof (entry_len b) as Le. unfold len in Le at 1. pose proof (len_nonneg (b_name b)). pose proof (len_nonneg r).
  destruct n as [|n]; [lia|]. cbn [read_blobs]. rewrite len_cons. replace (1 + len r <=? 0) with false by lia. rewrite entry_split.
  assert (W8 : forall z, length (word_bytes [z]) = 8%nat) by reflexivity.
  destruct (Nat.lt_ge_cases k 8) as [K1|K1]; [rewrite read_addr_short by assumption; reflexivity|].
  rewrite firstn_app, W8, (firstn_all2 (word_bytes _)) by (rewrite W8; lia). rewrite read_addr_ok by exact A1. replace (len (b_name b) <? 0) with false by lia.
  set (nl := length (b_name b)) in *. assert (Enl : len (b_name b) = Z.of_nat nl) by reflexivity.
  destruct (Nat.lt_ge_cases (k - 8) nl) as [K2|K2].
  { unfold read. match goal with |- context [(?a <? 0) || (len ?f <? ?a)] => replace ((a <? 0) || (len f <? a)) with true; [reflexivity|] end. unfold len at 2. rewrite firstn_length. lia. }
  rewrite firstn_app. fold nl. rewrite (firstn_all2 (b_name b)) by (fold nl; lia). rewrite (read_app (b_name b)) by reflexivity.
  destruct (Nat.lt_ge_cases (k - 8 - nl) 8) as [K3|K3]; [rewrite read_addr_short by assumption; reflexivity|].
  rewrite firstn_app, W8, (firstn_all2 (word_bytes _)) by (rewrite W8; lia). rewrite read_addr_ok by exact A2.
  destruct (Nat.lt_ge_cases (k - 8 - nl - 8) 8) as [K4|K4]; [rewrite read_addr_short by assumption; reflexivity|].
  rewrite firstn_app, W8, (firstn_all2 (word_bytes _)) by (rewrite W8; lia). rewrite read_addr_ok by exact A3.
  replace ((b_offset b <? 0) || (b_length b <? 0)) with false by lia. replace (1 + len r - 1) with (len r) by lia. apply IH; [exact F'|lia|lia].
Qed.
Theorem dictionary_short : forall bs (k : nat), Forall blob_fits bs -> len bs <= maxf -> (k < length (blob_dictionary bs))%nat ->
  read_blob_list (firstn k (blob_dictionary bs)) = Ok None.
Proof.
  intros bs k F L Hk. unfold read_blob_list, blob_dictionary in *. destruct (Nat.lt_ge_cases k (length dict_magic)) as [K|K]; [rewrite read_magic_short by exact K; reflexivity|].
  rewrite firstn_app, (firstn_all2 dict_magic) by exact K. rewrite read_magic_ok. pose proof (len_nonneg bs). rewrite !app_length in Hk. change (length (word_bytes [len bs])) with 8%nat in Hk.
  destruct (Nat.lt_ge_cases (k - length dict_magic) 8) as [K2|K2]; [rewrite read_addr_short by (assumption || (unfold is_addr, minf, maxf in *; lia)); reflexivity|].
  rewrite firstn_app. change (length (word_bytes [len bs])) with 8%nat. rewrite (firstn_all2 (word_bytes _)) by exact K2. rewrite read_addr_ok by (unfold is_addr, minf, maxf in *; lia).
  replace (len bs <? 0) with false by lia. apply read_blobs_short; [exact F|lia|]. rewrite firstn_length. lia.
Qed.

(** * The DNA of a file *)
Lemma skip_line l : ~ In 10 l -> forall r line, skip_lines (l ++ 10 :: r) line = match l, line with [], [] => Some r | _, _ => skip_lines r [] end.
Proof.
  induction l as [|c l IH]; intros N r line; cbn [app skip_lines].
  - change (10 =? 10) with true. cbv iota. destruct line; reflexivity.
  - destruct (Z.eqb_spec c 10) as [->|Nc]; [destruct N; left; reflexivity|]. rewrite IH by (intros J; apply N; right; exact J). destruct l; reflexivity.
Qed.
Lemma dna_line l : ~ In 10 l -> forall r line, dna_lines (l ++ 10 :: r) line =
  match rev line ++ l with [] => Some [] | u => match dna_lines r [] with Some d => Some (u ++ [10] ++ d) | None => None end end.
Proof.
  induction l as [|c l IH]; intros N r line; cbn [app dna_lines].
  - change (10 =? 10) with true. cbv iota. rewrite app_nil_r. destruct line as [|x line]; [reflexivity|]. destruct (rev (x :: line)) eqn:E; [|reflexivity].
    apply (f_equal (@length Z)) in E. rewrite rev_length in E. discriminate.
  - destruct (Z.eqb_spec c 10) as [->|Nc]; [destruct N; left; reflexivity|]. rewrite IH by (intros J; apply N; right; exact J). cbn [rev]. rewrite <- app_assoc. reflexivity.
Qed.
Lemma head_split dna rest : file_head dna ++ rest = file_magic ++ dna ++ 10 :: rest.
Proof. unfold file_head. rewrite <- !app_assoc. reflexivity. Qed.
Theorem head_back : forall dna rest, no_empty_line dna ->
  burrow_dna (file_head dna ++ rest) = Some dna /\ skip_dna (file_head dna ++ rest) = Some rest.
Proof.
  intros dna rest (ls & -> & F). rewrite head_split. unfold burrow_dna, skip_dna. rewrite read_magic_ok.
  induction ls as [|l ls IH]; [split; reflexivity|]. inversion F as [|? ? [N1 N2] F']; subst. destruct (IH F') as [I1 I2]. unfold text_lines in *. cbn [map concat]. rewrite <- !app_assoc. cbn [app]. split.
  - rewrite dna_line by exact N2. cbn [rev app]. destruct l as [|c l]; [contradiction|]. rewrite I1. reflexivity.
  - rewrite skip_line by exact N2. destruct l as [|c l]; [contradiction|]. exact I2.
Qed.
(** The DNA that is read has no empty line, and stands at the front of the file. *)
Lemma skip_lines_inv f : forall line r, skip_lines f line = Some r -> ~ In 10 line ->
  exists d, f = d ++ 10 :: r /\ ((line = [] /\ no_empty_line d) \/ exists l d', d = l ++ 10 :: d' /\ rev line ++ l <> [] /\ ~ In 10 l /\ no_empty_line d').
Proof.
  induction f as [|c f IH]; intros line r; cbn [skip_lines]; [discriminate|]. destruct (Z.eqb_spec c 10) as [->|N].
  - destruct line as [|x line].
    + intros [= <-] _. exists []. split; [reflexivity|]. left. split; [reflexivity|]. exists []. split; [reflexivity|constructor].
    + intros K Nl. destruct (IH [] r K ltac:(tauto)) as (d & -> & H). exists (10 :: d). split; [reflexivity|]. right. exists [], d. split; [reflexivity|]. split; [|split; [tauto|]].
      * intros E. rewrite app_nil_r in E. apply (f_equal (@length Z)) in E. rewrite rev_length in E. discriminate.
      * destruct H as [[_ H]|(l & d' & -> & Hne & Hl & ls & -> & Fl)]; [exact H|]. exists (l :: ls). split; [unfold text_lines; cbn [map concat]; rewrite <- app_assoc; reflexivity|]. constructor; [split; [exact Hne|exact Hl]|exact Fl].
  - intros K Nl. destruct (IH (c :: line) r K) as (d & -> & H); [intros [J|J]; [congruence|exact (Nl J)]|]. exists (c :: d). split; [reflexivity|]. right.
    destruct H as [[H _]|(l & d' & -> & Hne & Hl & Hd)]; [discriminate|]. exists (c :: l), d'. split; [reflexivity|]. split; [destruct (rev line); discriminate|]. split; [intros [J|J]; [congruence|exact (Hl J)]|exact Hd].
Qed.
Theorem head_only : forall file rest, skip_dna file = Some rest -> exists dna, no_empty_line dna /\ file = file_head dna ++ rest.
Proof.
  intros file rest. unfold skip_dna. destruct (read_magic file_magic file) as [f|] eqn:E; [|discriminate]. apply read_magic_inv in E. subst file. intros K.
  destruct (skip_lines_inv f [] rest K ltac:(tauto)) as (d & -> & H). exists d. rewrite head_split. split; [|reflexivity]. destruct H as [[_ H]|(l & d' & -> & Hne & Hl & ls & -> & Fl)]; [exact H|].
  exists (l :: ls). split; [unfold text_lines; cbn [map concat]; rewrite <- app_assoc; reflexivity|]. constructor; [split; [exact Hne|exact Hl]|exact Fl].
Qed.
Lemma skip_lines_short d : forall line (k : nat) r, skip_lines (d ++ [10]) line = Some [] -> (k < length (d ++ [10%Z]))%nat -> r = firstn k (d ++ [10]) -> skip_lines r line = None.
Proof.
  induction d as [|c d IH]; intros line k r H Hk ->.
  - cbn in Hk. replace k with 0%nat by lia. reflexivity.
  - cbn [app skip_lines length] in *. destruct k as [|k]; [reflexivity|]. cbn [firstn skip_lines]. destruct (c =? 10).
    + destruct line; [injection H as H; destruct d; discriminate|]. eapply (IH _ k); [exact H|lia|reflexivity].
    + eapply (IH _ k); [exact H|lia|reflexivity].
Qed.
(** The whole file, cut anywhere before the end of its dictionary. *)
Theorem file_short : forall dna bs (k : nat), no_empty_line dna -> Forall blob_fits bs -> len bs <= maxf ->
  (k < length (file_head dna ++ blob_dictionary bs))%nat -> read_blob_dictionary (firstn k (file_head dna ++ blob_dictionary bs)) = Ok None.
Proof.
  intros dna bs k D F L Hk. unfold read_blob_dictionary. destruct (Nat.lt_ge_cases k (length (file_head dna))) as [K|K].
  - assert (skip_dna (firstn k (file_head dna ++ blob_dictionary bs)) = None) as ->; [|reflexivity]. rewrite firstn_app. replace (k - length (file_head dna))%nat with 0%nat by lia. rewrite firstn_O, app_nil_r.
    unfold skip_dna, file_head in *. destruct (Nat.lt_ge_cases k (length file_magic)) as [K1|K1]; [rewrite read_magic_short by exact K1; reflexivity|].
    rewrite firstn_app, (firstn_all2 file_magic) by exact K1. rewrite read_magic_ok. rewrite app_length in K. eapply (skip_lines_short dna [] (k - length file_magic)); [|lia|reflexivity].
    pose proof (proj2 (head_back dna [] D)) as H. rewrite head_split in H. unfold skip_dna in H. rewrite read_magic_ok in H. exact H.
  - rewrite firstn_app, (firstn_all2 (file_head dna)) by exact K. rewrite (proj2 (head_back dna _ D)). apply dictionary_short; [exact F|exact L|]. rewrite app_length in Hk. lia.
Qed.
Theorem file_dictionary : forall dna bs rest, no_empty_line dna -> Forall blob_fits bs -> len bs <= maxf ->
  exists m, read_blob_dictionary (file_head dna ++ blob_dictionary bs ++ rest) = Ok (Some m) /\ forall name, RecipeModel.get name m = last_named name bs.
Proof. intros dna bs rest D F L. unfold read_blob_dictionary. rewrite (proj2 (head_back dna _ D)). apply dictionary_back; assumption. Qed.
Lemma read_blobs_total n : forall count f m, (length f < n)%nat -> exists r, read_blobs n count f m = Ok r.
Proof.
  induction n as [|n IH]; intros count f m Hn; [lia|]. cbn [read_blobs]. destruct (count <=? 0); [eauto|]. destruct (read_addr f) as [[k f1]|] eqn:E1; [|eauto].
  assert (L1 : (length f1 < length f)%nat).
  { unfold read_addr in E1. destruct (read 8 f) as [[b r]|] eqn:E; [|discriminate]. destruct (read_some _ _ _ _ E) as (-> & Lb & _). destruct (words b) as [|? [|? ?]]; try discriminate. injection E1 as _ <-. rewrite app_length. unfold len in Lb. lia. }
  destruct (k <? 0); [eauto|]. destruct (read k f1) as [[name f2]|] eqn:E2; [|eauto]. destruct (read_some _ _ _ _ E2) as (-> & _ & _). rewrite app_length in L1.
  assert (L3 : forall g z r, read_addr g = Some (z, r) -> (length r <= length g)%nat).
  { intros g z r E. unfold read_addr in E. destruct (read 8 g) as [[b r']|] eqn:E'; [|discriminate]. destruct (read_some _ _ _ _ E') as (-> & _ & _). destruct (words b) as [|? [|? ?]]; try discriminate. injection E as _ <-. rewrite app_length. lia. }
  destruct (read_addr f2) as [[o f3]|] eqn:E3; [|eauto]. destruct (read_addr f3) as [[l f4]|] eqn:E4; [|eauto]. apply L3 in E3, E4. destruct ((o <? 0) || (l <? 0)); [eauto|]. apply IH. lia.
Qed.
Theorem file_foreign : forall file, Forall is_byte file ->
  read_blob_dictionary file = Ok None \/
  exists dna bs rest m, read_blob_dictionary file = Ok (Some m) /\ file = file_head dna ++ blob_dictionary bs ++ rest /\
    no_empty_line dna /\ Forall blob_fits bs /\ len bs <= maxf /\ forall name, RecipeModel.get name m = last_named name bs.
Proof.
  intros file B. unfold read_blob_dictionary. destruct (skip_dna file) as [f|] eqn:E; [|left; reflexivity]. destruct (head_only _ _ E) as (dna & D & ->). apply Forall_app in B. destruct B as [_ B].
  assert (T : exists r, read_blob_list f = Ok r).
  { unfold read_blob_list. destruct (read_magic dict_magic f) as [f1|]; [|eauto]. destruct (read_addr f1) as [[c f2]|]; [|eauto]. destruct (c <? 0); [eauto|]. apply read_blobs_total. lia. }
  destruct T as [[m|] T]; [|left; exact T]. right. destruct (dictionary_only f m B T) as (bs & rest & -> & F & L & G). exists dna, bs, rest, m. split; [exact T|]. auto.
Qed.
