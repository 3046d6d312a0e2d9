(** The annotations that tf_field_annotations makes. *)
From Coq Require Import Decimal DecimalNat.
From Verif Require Import Base HopperModel GclSpec HopperProofs ArrayProofs UnaryProofs AnswerProofs PostingModel
  VectorModel VectorProofs StatsModel StatsSpec StatsProofs StatsTop FieldModel FieldSpec FieldHopper.

(* ------------------------------------------------------------------ *)
(** * Keys *)
Lemma digits_inj u : forall v, digits_of u = digits_of v -> u = v.
Proof. induction u; intros [] E; cbn in E; try discriminate; try reflexivity; injection E as E; f_equal; auto. Qed.
Lemma digits_no_colon u : ~ In 58 (digits_of u).
Proof. induction u; cbn [digits_of In]; intuition discriminate. Qed.
Lemma to_string_inj i j : to_string i = to_string j -> i = j.
Proof. intros E. apply digits_inj in E. apply Unsigned.to_uint_inj, E. Qed.
Lemma colon_split (a b a' b' : word) : ~ In 58 a -> ~ In 58 a' -> a ++ 58 :: b = a' ++ 58 :: b' -> a = a' /\ b = b'.
Proof.
  revert a'. induction a as [|x a IH]; intros [|y a'] N N' E; cbn [app] in E.
  - injection E as ->. auto.
  - injection E as <- _. exfalso. apply N'. left. reflexivity.
  - injection E as -> _. exfalso. apply N. left. reflexivity.
  - injection E as -> E. destruct (IH a') as [-> ->]; auto; intros H; [apply N|apply N']; right; exact H.
Qed.
Lemma tag_field_eq i t : tag_field i ++ t = tag_tf ++ to_string i ++ 58 :: t.
Proof. unfold tag_field. rewrite <- !app_assoc. reflexivity. Qed.
Lemma tag_field_inj i j a b : tag_field i ++ a = tag_field j ++ b -> i = j /\ a = b.
Proof.
  rewrite !tag_field_eq. intros E. apply tag_tf_inj in E. apply colon_split in E; [|apply digits_no_colon..].
  destruct E as [E ->]. split; [apply to_string_inj, E|reflexivity].
Qed.
Lemma tag_field_tf i a b : ~ In 58 b -> tag_field i ++ a <> tag_tf ++ b.
Proof. rewrite tag_field_eq. intros N E. apply tag_tf_inj in E. subst b. apply N, in_app_iff. right. left. reflexivity. Qed.
Lemma tag_field_length i a : tag_field i ++ a <> length_word.
Proof. apply tag_field_tf. intros [|[]]; discriminate. Qed.

(* ------------------------------------------------------------------ *)
(** * Counts *)
Definition tally (ws : list word) : list (word * Z) := fold_left (fun m k => bump word_eq k m) ws [].
Lemma tally_counts ws : wcounts ws (tally ws).
Proof. exact (counts_fold word_eq wdec word_eq_iff ws [] [] (counts_nil _ _)). Qed.
Section Generic.
Context (featurize : word -> Z).
Definition tally_notes (key : word -> word) (p : Z) (ws : list word) : list annotation :=
  map (fun '(t, n) => Ann (featurize (key t)) (Iv p p n)) (tally ws).
Lemma tally_noted key ws p t : (forall x, In x ws -> featurize (key x) = featurize (key t) -> x = t) ->
  noted (featurize (key t)) (tally_notes key p ws) =
  if 0 <? Z.of_nat (count_occ wdec ws t) then [Iv p p (Z.of_nat (count_occ wdec ws t))] else [].
Proof.
  intros HI. pose proof (counts_image word_eq wdec word_eq_iff (fun w => featurize (key w)) _ _ t (tally_counts ws) HI) as H.
  cbv beta in H. unfold tally_notes, noted.
  assert (forall m : list (word * Z), map aiv (filter (fun a => afeat a =? featurize (key t))
            (map (fun '(w, n) => Ann (featurize (key w)) (Iv p p n)) m)) =
          map (fun n => Iv p p n) (map snd (filter (fun e => featurize (key (fst e)) =? featurize (key t)) m))) as M.
  { induction m as [|[w n] m IH]; [reflexivity|]. cbn [map filter afeat fst]. destruct (_ =? _); cbn [map aiv snd]; [f_equal|]; exact IH. }
  rewrite M. etransitivity; [apply f_equal, H|].
  destruct (count_occ wdec ws t) as [|n]; [reflexivity|]. replace (0 <? Z.of_nat (S n)) with true by lia. reflexivity.
Qed.
Lemma tally_other f key ws p : (forall x, In x ws -> featurize (key x) <> f) -> noted f (tally_notes key p ws) = [].
Proof.
  intros N. apply noted_none. intros a Ha. apply in_map_iff in Ha. destruct Ha as ([w n] & <- & Hw). cbn [afeat]. apply N.
  destruct (tally_counts ws) as (_ & K & _). apply K. apply (in_map fst) in Hw. exact Hw.
Qed.

(** Document frequencies. *)
Context (W : iv -> list word).
Definition dfs_all (l : list iv) (df : list (Z * Z)) : list (Z * Z) := fold_left (fun df d => item_dfs featurize (tally (W d)) df) l df.
Definition df_keys_all (l : list iv) : list Z := flat_map (fun d => map (fun w => featurize (tag_df ++ w)) (map fst (tally (W d)))) l.
Lemma dfs_all_counts l : zcounts (df_keys_all l) (dfs_all l []).
Proof.
  assert (forall df, dfs_all l df = fold_left (fun m k => bump Z.eqb k m) (df_keys_all l) df) as ->.
  { induction l as [|d l IH]; intros df; [reflexivity|]. unfold df_keys_all, dfs_all in *. cbn [fold_left flat_map].
    rewrite IH, item_dfs_fold, <- fold_left_app. reflexivity. }
  exact (counts_fold Z.eqb Z.eq_dec Z.eqb_eq (df_keys_all l) [] [] (counts_nil _ _)).
Qed.
Lemma df_all_count l t : (forall d x, In d l -> In x (W d) -> featurize (tag_df ++ x) = featurize (tag_df ++ t) -> x = t) ->
  count_occ Z.eq_dec (df_keys_all l) (featurize (tag_df ++ t)) = length (filter (fun d => 0 <? Z.of_nat (count_occ wdec (W d) t)) l).
Proof.
  induction l as [|d l IH]; intros H; [reflexivity|]. unfold df_keys_all in *. cbn [flat_map]. rewrite count_occ_app.
  rewrite IH by (intros d' x Hd'; apply H; right; exact Hd'). cbn [filter].
  assert (count_occ Z.eq_dec (map (fun w => featurize (tag_df ++ w)) (map fst (tally (W d)))) (featurize (tag_df ++ t)) =
          if 0 <? Z.of_nat (count_occ wdec (W d) t) then 1%nat else 0%nat) as ->; [|destruct (0 <? _); reflexivity].
  destruct (tally_counts (W d)) as (D & K & _).
  assert (forall l : list word, NoDup l -> (forall w, In w l -> In w (W d)) ->
    count_occ Z.eq_dec (map (fun w => featurize (tag_df ++ w)) l) (featurize (tag_df ++ t)) = count_occ wdec l t) as M.
  { clear D K. induction l0 as [|w r IHr]; intros D K; [reflexivity|]. inversion D; subst. cbn [map count_occ].
    rewrite IHr by (auto; intros x Hx; apply K; right; exact Hx).
    destruct (wdec w t) as [->|N]; [destruct (Z.eq_dec _ _); [reflexivity|congruence]|].
    destruct (Z.eq_dec _ _) as [Q|_]; [|reflexivity]. exfalso. apply N, (H d); [left; reflexivity|apply K; left; reflexivity|exact Q]. }
  rewrite M by (auto; intros w Hw; apply K; exact Hw).
  destruct (0 <? Z.of_nat (count_occ wdec (W d) t)) eqn:Q.
  - apply NoDup_count_occ'; [exact D|]. apply K. apply (count_occ_In wdec). lia.
  - apply count_occ_not_In. intros Q'. apply K, (count_occ_In wdec) in Q'. lia.
Qed.
Lemma df_all_noted z l t : (forall d x, In d l -> In x (W d) -> featurize (tag_df ++ x) = featurize (tag_df ++ t) -> x = t) ->
  noted (featurize (tag_df ++ t)) (map (fun '(f, n) => Ann f (Iv z z n)) (dfs_all l [])) =
  match length (filter (fun d => 0 <? Z.of_nat (count_occ wdec (W d) t)) l) with O => [] | n => [Iv z z (Z.of_nat n)] end.
Proof.
  intros HI. pose proof (counts_image Z.eqb Z.eq_dec Z.eqb_eq (fun z => z) _ _ (featurize (tag_df ++ t)) (dfs_all_counts l) (fun x _ E => E)) as H.
  cbv beta in H. rewrite df_all_count in H by exact HI.
  assert (forall m : list (Z * Z), noted (featurize (tag_df ++ t)) (map (fun '(f, n) => Ann f (Iv z z n)) m) =
     map (fun n => Iv z z n) (map snd (filter (fun e => fst e =? featurize (tag_df ++ t)) m))) as M.
  { induction m as [|[w n] m IH]; [reflexivity|]. cbn [map]. rewrite noted_cons. cbn [filter afeat fst aiv]. rewrite IH.
    destruct (_ =? _); reflexivity. }
  rewrite M, H. destruct (length _); reflexivity.
Qed.
Lemma df_all_other z l f : (forall d x, In d l -> In x (W d) -> featurize (tag_df ++ x) <> f) ->
  noted f (map (fun '(f, n) => Ann f (Iv z z n)) (dfs_all l [])) = [].
Proof.
  intros N. apply noted_none. intros a Ha. apply in_map_iff in Ha. destruct Ha as ([g n] & <- & Hg). cbn [afeat].
  destruct (dfs_all_counts l) as (_ & K & _). apply (in_map fst), K in Hg. cbn [fst] in Hg. unfold df_keys_all in Hg.
  apply in_flat_map in Hg. destruct Hg as (d & Hd & Hg). apply in_map_iff in Hg. destruct Hg as (w & <- & Hw). apply (N d); [exact Hd|].
  destruct (tally_counts (W d)) as (_ & K' & _). apply K'. exact Hw.
Qed.
End Generic.

(* ------------------------------------------------------------------ *)
(** * What is made of an item *)
Section Item.
Context (split : Z -> Z -> list word) (stem : word -> word) (featurize : word -> Z).
Notation part_words := (part_words split stem).

(** tau on a field from the start of an item finds the part that is the field. *)
Lemma find_first (P : iv -> bool) l e : gclist l -> find P l = Some e -> forall x, In x l -> P x = true -> ip e <= ip x.
Proof.
  induction l as [|y l IH]; intros G E x Hx Px; [discriminate|]. cbn [find] in E. destruct (P y) eqn:Q.
  - injection E as <-. destruct Hx as [<-|Hx]; [lia|]. pose proof (gclist_lt l y x G Hx). lia.
  - destruct Hx as [<-|Hx]; [congruence|]. apply IH; auto. exact (gclist_tail _ _ G).
Qed.
Lemma tau_part f d x : gclist f -> minf < ip d -> iq d < maxf -> tau_spec (set_of f) (ip d) x ->
  part f d = if iq x <=? iq d then Some x else None.
Proof.
  intros G B Bq T. unfold part. destruct T as [[E _]|[_ [(Tx & Kx & Mx)|[-> Mx]]]]; [lia| |].
  - destruct (iq x <=? iq d) eqn:Q.
    + destruct (find _ f) as [e|] eqn:E.
      * pose proof (find_first _ f e G E x Tx) as L. cbv beta in L. rewrite Q in L. specialize (L ltac:(lia)).
        apply find_some in E. destruct E as [He Pe]. specialize (Mx e He ltac:(lia)). f_equal.
        apply (GC_eq_ip (set_of f)); [apply gclist_GC, G|exact He|exact Tx|lia].
      * pose proof (find_none _ _ E x Tx) as N. cbv beta in N. lia.
    + destruct (find _ f) as [e|] eqn:E; [|reflexivity]. apply find_some in E. destruct E as [He Pe].
      specialize (Mx e He ltac:(lia)).
      assert (iq x <= iq e).
      { destruct (Z.eq_dec (ip x) (ip e)) as [W|W]; [rewrite (GC_eq_ip (set_of f) x e (gclist_GC f G) Tx He W); lia|].
        pose proof (GC_mono_pq (set_of f) x e (gclist_GC f G) Tx He). lia. }
      lia.
  - cbn [iq]. replace (maxf <=? iq d) with false by lia. destruct (find _ f) as [e|] eqn:E; [|reflexivity].
    apply find_some in E. destruct E as [He Pe]. specialize (Mx e He). lia.
Qed.
Lemma part_in f d x : part f d = Some x -> In x f /\ ip d <= ip x /\ iq x <= iq d.
Proof. intros E. apply find_some in E. destruct E as [H P]. split; [exact H|lia]. Qed.
Lemma part_length_pos f d : gclist f -> 0 <= part_length f d.
Proof.
  intros G. unfold part_length. destruct (part f d) as [x|] eqn:E; [|lia]. apply part_in in E.
  pose proof (gclist_finite f x G (proj1 E)). fin.
Qed.
Lemma fields_length_pos fs d : Forall gclist fs -> 0 <= fields_length fs d.
Proof. unfold fields_length. induction 1 as [|f fs G F IH]; cbn [map fold_right]; [lia|]. pose proof (part_length_pos f d G). lia. Qed.

Lemma count_tokens_ok ts : forall tf ftf, count_tokens stem ts tf ftf =
  (fold_left (fun m k => bump word_eq k m) (map stem ts) tf, fold_left (fun m k => bump word_eq k m) (map stem ts) ftf).
Proof. induction ts as [|t ts IH]; intros tf ftf; [reflexivity|]. cbn [count_tokens map fold_left]. apply IH. Qed.

Fixpoint parts_notes (i : nat) (fs : list (list iv)) (d : iv) : list annotation :=
  match fs with
  | [] => []
  | f :: r => tally_notes featurize (fun t => tag_field i ++ t) (ip d) (part_words f d) ++ parts_notes (S i) r d
  end.
Definition W (fs : list (list iv)) (d : iv) : list word := flat_map (fun f => part_words f d) fs.

Lemma item_fields_ok Fs : forall Ss J, vec_ok Fs Ss J -> forall fs, Ss = map set_of fs -> Forall gclist fs ->
  forall i d s tf len notes, J s -> finite d -> 0 <= len -> len + fields_length fs d <= maxf ->
  wp (item_fields split stem featurize i Fs d s (tf, len, notes))
     (fun '(s', a) => J s' /\ a = (fold_left (fun m k => bump word_eq k m) (W fs d) tf, len + fields_length fs d, notes ++ parts_notes i fs d)).
Proof.
  intros Ss J V. induction V as [|F Fs Q Ss I J HF V IH]; intros [|f fs] E G i d s tf len notes Hs Fd Hl Hb; try discriminate.
  - cbn [item_fields]. apply wp_ok. split; [exact Logic.I|]. unfold fields_length, W. cbn [map fold_right flat_map fold_left parts_notes]. rewrite app_nil_r, Z.add_0_r. reflexivity.
  - injection E as -> E. inversion G as [|? ? Gf G']; subst. destruct Hs as [H1 H2]. cbn [item_fields].
    assert (minf < ip d < maxf /\ iq d < maxf) as B by fin.
    step (hop_tau HF) as [f' x]; [exact H1|lia|intros [H1' T]].
    pose proof (tau_part f d x Gf (proj1 (proj1 B)) (proj2 B) T) as P.
    assert (fields_length (f :: fs) d = part_length f d + fields_length fs d) as EL by reflexivity.
    pose proof (part_length_pos f d Gf) as P1. pose proof (fields_length_pos fs d G') as P2. rewrite EL in *.
    apply wp_bind. cbn [parts_notes]. change (W (f :: fs) d) with (part_words f d ++ W fs d). rewrite fold_left_app.
    unfold part_length, FieldSpec.part_words in *. destruct (iq x <=? iq d) eqn:Qx; rewrite P in *.
    + pose proof (part_in _ _ _ P) as (Hx & Kx & Kq). pose proof (gclist_finite f x Gf Hx) as Fx.
      apply wp_bind, wp_chk; [fin2|]. apply wp_bind, wp_chk; [fin2|]. rewrite count_tokens_ok. apply wp_ok.
      step (IH fs eq_refl G') as [s' a]; [exact H2|exact Fd|lia|lia|intros [H2' ->]]. apply wp_ok. split; [split; assumption|].
      f_equal; [f_equal; lia|]. rewrite <- app_assoc. reflexivity.
    + apply wp_ok. step (IH fs eq_refl G') as [s' a]; [exact H2|exact Fd|lia|lia|intros [H2' ->]]. apply wp_ok. split; [split; assumption|]. reflexivity.
Qed.
End Item.
