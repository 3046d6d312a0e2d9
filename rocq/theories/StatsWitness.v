(** Small collections for the theorems about term statistics. *)
From Verif Require Import Base HopperModel ArrayDefs GclSpec HopperProofs GclProofs ArrayProofs UnaryProofs UnaryModel AnswerProofs PostingModel
  VectorModel RankModel RankSpec RankTop RankWitness StatsModel StatsSpec StatsTop StatsRange.

(** Three items: "a b a c", "b b d" and "a Ab". *)
Definition stext : list word := [[97]; [98]; [97]; [99]; [98]; [98]; [100]; [97]; [65; 98]].
Definition sword (j : Z) : word := nth (Z.to_nat j) stext [].
Definition ssplit (p q : Z) : list word := map sword (addresses p q).
Definition sitems := [Iv 0 3 0; Iv 4 6 0; Iv 7 8 0].
(** Lower case. *)
Definition slow (w : word) : word := map (fun c => if (65 <=? c) && (c <=? 90) then c + 32 else c) w.
Definition sfeat (w : word) : Z := fold_left (fun a c => a * 256 + c) w 1.
Definition sterm : word := [97].

Definition clash_free (ws : list word) : bool :=
  forallb (fun a => forallb (fun b => negb (sfeat a =? sfeat b) || word_eq a b) ws) ws.
Lemma word_eq_ok : forall a b, word_eq a b = true -> a = b.
Proof.
  intros a b. unfold word_eq. destruct (list_eq_dec Z.eq_dec a b); [auto|discriminate].
Qed.
Lemma clash_free_ok ws : clash_free ws = true -> no_clash sfeat ws.
Proof.
  unfold clash_free. intros H a b Ha Hb E. rewrite forallb_forall in H. specialize (H a Ha).
  rewrite forallb_forall in H. specialize (H b Hb). apply orb_prop in H. destruct H as [H|H].
  - apply negb_true_iff, Z.eqb_neq in H. congruence.
  - apply word_eq_ok, H.
Qed.

Lemma sitems_ok : (answers _ (st sitems) (set_of sitems) /\ listed (set_of sitems) sitems) /\ aligned sword ssplit sitems /\
  (forall c d, In c sitems -> In d sitems -> iq d - ip c < maxf) /\ total_length sitems <= maxf.
Proof.
  split; [split; [apply stored_answers; [gcl|cbn; lia|intros _; repeat constructor]|split; [gcl|reflexivity]]|].
  split; [intros c d _ _ _; reflexivity|]. split.
  - intros c d Hc Hd; cases Hc; cases Hd; cbn [ip iq]; unfold maxf; lia.
  - vm_compute. discriminate.
Qed.
Lemma sterms_ok : forall t, In t [[97]; [98]; [99]; [97; 98]; [120]] ->
  no_clash sfeat (keys (t :: flat_map (words_of sword slow) sitems)).
Proof. intros t Ht. apply clash_free_ok. cases Ht; vm_compute; reflexivity. Qed.

Definition stf (w : word) := sfeat (tag_tf ++ w).
Definition sdf (w : word) := sfeat (tag_df ++ w).
Definition snotes : list annotation :=
  match tf_df_annotations _ ssplit slow sfeat (st sitems) with Ok (Some n) => n | _ => [] end.
Lemma snotes_run : tf_df_annotations _ ssplit slow sfeat (st sitems) = Ok (Some snotes) /\
  noted (stf [97]) snotes = [Iv 0 0 2; Iv 7 7 1] /\ noted (stf [98]) snotes = [Iv 0 0 1; Iv 4 4 2] /\
  noted (stf [97; 98]) snotes = [Iv 7 7 1] /\ noted (sdf [98]) snotes = [Iv 0 0 2] /\
  noted (sfeat total_items_word) snotes = [Iv 0 0 3] /\ noted (sfeat total_length_word) snotes = [Iv 0 0 9].
Proof. vm_compute. repeat split. Qed.
Lemma snotes_statistics : statistics slow sfeat sword sitems snotes.
Proof.
  destruct sitems_ok as [[A L] [B [D E]]].
  destruct (tf_df_ok _ ssplit slow sfeat sword (st sitems) (set_of sitems) sitems A L B D E) as (r & R & N).
  rewrite (proj1 snotes_run) in R. injection R as <-. destruct N as (n & N & Z). injection N as <-. exact Z.
Qed.

(** The index of those annotations. *)
Definition sindex (f : Z) : hobj := existT St (stored_cls true (noted f snotes)) (stored_start true (noted f snotes)).
Lemma sindexed : indexed sindex snotes.
Proof.
  intros f G. apply stored_answers; [exact G| |discriminate].
  assert (length (noted f snotes) <= length snotes)%nat as L.
  { unfold noted. rewrite map_length. generalize snotes. induction l as [|a l IH]; [apply le_n|]. cbn [filter].
    destruct (afeat a =? f); cbn [length]; lia. }
  assert (length snotes = 14)%nat as E by (vm_compute; reflexivity). lia.
Qed.

(** Reading back the statistics, and rankings with them. *)
Lemma sread_run :
  sum_values _ (projT2 (sindex (sfeat total_items_word))) = Ok 3 /\
  sum_values _ (projT2 (sindex (sfeat total_length_word))) = Ok 9 /\
  valued slow sword (fun n => n) [97] sitems = [Iv 0 3 2; Iv 7 8 1] /\
  valued slow sword (fun n => n) [120] sitems = [].
Proof. vm_compute. repeat split. Qed.
Definition sstats := stats_term (stored_cls false sitems) sfeat (fun n => n) sindex (st sitems).
Definition sgain (i : nat) (v p q : Z) : Z := 10 * v - (q - p).
Lemma srank_run : term_ranking 0 Z.add Z.ltb isrt sgain 3 (map sstats [[97]; [98]]) =
  Ok [res3 0 3 24; res3 4 6 18; res3 7 8 9].
Proof. vm_compute. reflexivity. Qed.
Definition sweights : list (Z * (Z -> Z -> Z)) := [(100, fun tf len => tf * 100 / (len + tf)); (60, fun tf len => tf * 60 / (len + tf))].
Lemma sweights_ok : (forall d, In d sitems -> iq d - ip d <= maxf) /\
  Forall2 (fun t w => bounded 0 Z.ltb (valued slow sword (fun n => n) t sitems) (Wand (fst w) (snd w) (sstats t))) [[97]; [98]] sweights.
Proof.
  split; [intros d Hd; cases Hd; cbn; unfold maxf; lia|].
  constructor; [|constructor; [|constructor]]; (split; [reflexivity|]);
    intros x Hx; vm_compute in Hx; cases Hx; reflexivity.
Qed.
Lemma sbm25_run : bm25_ranking 0 Z.add Z.ltb isrt 2 (map (fun '(t, (idf, g)) => Wand idf g (sstats t)) (combine [[97]; [98]] sweights)) =
  Ok [res3 0 3 45; res3 7 8 33].
Proof. vm_compute. reflexivity. Qed.

(** A range that ends at the end of an item. *)
Lemma srange_ok : minf < 4 < maxf /\ exists d, In d sitems /\ 4 <= ip d /\ iq d = 8.
Proof. split; [unfold minf, maxf; lia|]. exists (Iv 7 8 0). cbn. repeat split; auto; lia. Qed.
Lemma srange_run : exists notes, tf_annotations _ ssplit slow sfeat (st sitems) 4 8 = Ok (Some notes) /\
  noted (stf [98]) notes = [Iv 4 4 2] /\ noted (stf [97]) notes = [Iv 7 7 1] /\
  noted (sfeat total_items_word) notes = [Iv 4 4 2] /\ noted (sfeat total_length_word) notes = [Iv 4 4 5].
Proof. eexists. split; [vm_compute; reflexivity|]. repeat split. Qed.

(** Over all addresses, the items are counted and none of their words is. *)
Lemma range_refuted : exists notes, tf_annotations _ ssplit slow sfeat (st sitems) minf maxf = Ok (Some notes) /\
  noted (sfeat total_items_word) notes = [Iv minf minf 3] /\
  (forall t, places slow sword t sitems <> [] ->
     no_clash sfeat (keys (t :: flat_map (words_of sword slow) sitems)) -> noted (stf t) notes = []) /\
  places slow sword [97] sitems = [Iv 0 0 2; Iv 7 7 1].
Proof.
  exists [Ann (sfeat total_items_word) (Iv minf minf 3); Ann (sfeat total_length_word) (Iv minf minf 9)].
  split; [vm_compute; reflexivity|]. split; [vm_compute; reflexivity|]. split; [|vm_compute; reflexivity].
  intros t _ NC. unfold noted. cbn [filter afeat map].
  assert (forall w, In w [total_items_word; total_length_word] -> (sfeat w =? stf t) = false) as N.
  { intros w Hw. apply Z.eqb_neq. intros E. assert (w = tag_tf ++ t) as ->.
    - apply NC; [|right; right; apply in_app_iff; left; left; reflexivity|exact E].
      unfold keys. destruct Hw as [<-|[<-|[]]]; [left|right; left]; reflexivity.
    - cbn [tag_tf app In] in Hw. destruct Hw as [Hw|[Hw|[]]]; discriminate. }
  rewrite !N by (cbn; auto). reflexivity.
Qed.

(** Two items with unused addresses between them, as an aborted transaction
    leaves: the words in between are missing from the text. *)
Definition gitems := [Iv 0 1 0; Iv 10 11 0].
Definition gwords : list (Z * word) := [(0, [97]); (1, [98]); (10, [97]); (11, [99])].
Definition gsplit (p q : Z) : list word := map snd (filter (fun e => (p <=? fst e) && (fst e <=? q)) gwords).
Lemma gap_refuted : answers _ (st gitems) (set_of gitems) /\ listed (set_of gitems) gitems /\
  (forall d, In d gitems -> Z.of_nat (length (gsplit (ip d) (iq d))) = iq d - ip d + 1) /\
  tf_df_annotations _ gsplit slow sfeat (st gitems) = UB.
Proof.
  pose proof (st_answers gitems) as A. destruct A as [A L]; [gcl|cbn; lia|repeat constructor|].
  split; [exact A|]. split; [exact L|]. split; [|vm_compute; reflexivity].
  intros d Hd. cases Hd; vm_compute; reflexivity.
Qed.

Lemma parts_ok : let l := [Iv 0 0 3; Iv 10 10 4; Iv 90 90 5] in
  answers _ (stored_start true l) (set_of l) /\ gclist l /\ (forall x, In x l -> 0 <= ivl x) /\ added l = 12 /\
  sum_values _ (stored_start true l) = Ok 12.
Proof.
  cbv zeta. split; [apply stored_answers; [gcl|cbn; lia|discriminate]|]. split; [gcl|].
  split; [intros x Hx; cases Hx; cbn; lia|]. split; [reflexivity|]. vm_compute. reflexivity.
Qed.
