(** A small collection with fields for the theorems about their statistics. *)
From Verif Require Import Base HopperModel ArrayDefs GclSpec HopperProofs GclProofs ArrayProofs UnaryProofs UnaryModel AnswerProofs PostingModel
  VectorModel RankModel RankSpec RankTop RankWitness StatsModel StatsSpec StatsTop StatsWitness FieldModel FieldSpec FieldTop.

(** The items of StatsWitness, with a title and a body each; the last has no body. *)
Definition titles := [Iv 0 0 0; Iv 4 4 0; Iv 7 8 0].
Definition bodies := [Iv 1 3 0; Iv 5 6 0].
Definition ffields := [titles; bodies].
Definition fobjs : list hobj := map (fun l => existT St (stored_cls false l) (st l)) ffields.

Lemma ffields_ok : (answers _ (st sitems) (set_of sitems) /\ listed (set_of sitems) sitems) /\ (forall d, In d sitems -> 0 <= ip d) /\
  Forall2 (fun o f => answers (projT1 o) (projT2 o) (set_of f)) fobjs ffields /\ Forall gclist ffields /\
  fold_right Z.add 0 (map (fields_length ffields) sitems) <= maxf.
Proof.
  split; [exact (proj1 sitems_ok)|]. split; [intros d Hd; cases Hd; cbn; lia|]. split; [|split].
  - unfold fobjs, ffields. cbn [map]. apply Forall2_cons; [|apply Forall2_cons; [|apply Forall2_nil]]; cbn [projT1 projT2];
    (apply stored_answers; [gcl|cbn; lia|intros _; repeat constructor]).
  - unfold ffields. apply Forall_cons; [gcl|apply Forall_cons; [gcl|apply Forall_nil]].
  - vm_compute. discriminate.
Qed.
Definition fterms : list word := [[97]; [98]; [97; 98]; [120]].
Lemma fterms_ok : forall t, In t fterms -> Forall plain (t :: all_words ssplit slow ffields sitems) /\
  no_clash sfeat (field_keys (length ffields) (t :: all_words ssplit slow ffields sitems)).
Proof.
  intros t Ht. split.
  - apply Forall_forall. intros w Hw. assert (In w [[97]; [98]; [99]; [100]; [97; 98]; [120]]) as K by (cases Ht; vm_compute in Hw; cbn [In]; tauto).
    clear - K. cases K; (split; [intros H; cbn in H; intuition lia|discriminate]).
  - apply clash_free_ok. cases Ht; vm_compute; reflexivity.
Qed.
Definition fnotes : list annotation :=
  match tf_field_annotations _ (classes fobjs) ssplit slow sfeat (st sitems) (states fobjs) with Ok (Some n) => n | _ => [] end.
Definition ftf (i : nat) (w : word) := sfeat (tag_field i ++ w).
Lemma fnotes_run : tf_field_annotations _ (classes fobjs) ssplit slow sfeat (st sitems) (states fobjs) = Ok (Some fnotes) /\
  noted (ftf 0 [97]) fnotes = [Iv 0 0 1; Iv 7 7 1] /\ noted (ftf 1 [97]) fnotes = [Iv 0 0 1] /\
  noted (ftf 0 [98]) fnotes = [Iv 4 4 1] /\ noted (ftf 1 [98]) fnotes = [Iv 0 0 1; Iv 4 4 1] /\
  noted (stf [98]) fnotes = [Iv 0 0 1; Iv 4 4 2] /\ noted (sdf [98]) fnotes = [Iv 0 0 2] /\
  noted (sfeat length_word) fnotes = [Iv 0 0 4; Iv 4 4 3; Iv 7 7 2] /\
  noted (sfeat total_items_word) fnotes = [Iv 0 0 3] /\ noted (sfeat total_length_word) fnotes = [Iv 0 0 9].
Proof. vm_compute. repeat split. Qed.
Lemma fnotes_statistics : field_statistics ssplit slow sfeat ffields sitems fnotes.
Proof.
  destruct ffields_ok as ([A L] & B & D & E & F).
  destruct (field_made _ ssplit slow sfeat (st sitems) (set_of sitems) sitems fobjs ffields A L B D E F) as (r & R & N).
  rewrite (proj1 fnotes_run) in R. injection R as <-. destruct N as (n & N & Z). injection N as <-. exact Z.
Qed.
Definition findex (f : Z) : hobj := existT St (stored_cls true (noted f fnotes)) (stored_start true (noted f fnotes)).
Lemma findexed : indexed findex fnotes.
Proof.
  intros f G. apply stored_answers; [exact G| |discriminate].
  assert (length (noted f fnotes) <= length fnotes)%nat as L.
  { unfold noted. rewrite map_length. generalize fnotes. induction l as [|a l IH]; [apply le_n|]. cbn [filter].
    destruct (afeat a =? f); cbn [length]; lia. }
  assert (length fnotes < 100)%nat as E by (vm_compute; repeat constructor). lia.
Qed.
(** Titles count five times as much as bodies. *)
Definition fchosen : list (nat * Z) := [(0%nat, 5); (1%nat, 1)].
Definition fwfs : list (Z * list iv) := [(5, titles); (1, bodies)].
Lemma fchosen_ok : (forall w, In w (map snd fchosen) -> 0 + w * 0 = 0) /\ fchosen <> [] /\ chosen_fields ffields fchosen fwfs.
Proof. split; [intros w _; lia|]. split; [discriminate|]. repeat constructor. Qed.
Lemma fread_run :
  sum_values _ (projT2 (findex (sfeat total_items_word))) = Ok 3 /\
  sum_values _ (projT2 (findex (sfeat total_length_word))) = Ok 9 /\
  load_df _ (projT2 (findex (sdf [98]))) = Ok 2 /\ load_df _ (projT2 (findex (sdf [120]))) = Ok 0 /\
  weighted ssplit slow 0 Z.add Z.mul [97] fwfs sitems = [Iv 0 3 6; Iv 7 8 5] /\
  weighted ssplit slow 0 Z.add Z.mul [98] fwfs sitems = [Iv 0 3 1; Iv 4 6 6] /\
  (let o := field_tf_hopper sfeat findex Z.add Z.mul fchosen _ (st sitems) [98] in
   run (projT1 o) (projT2 o) [(Mtau, 0); (Mtau, 1); (Mtau, 5); (Mrho, 2); (Mrho, 4)] =
   Ok [Iv 0 3 1; Iv 4 6 6; maxr; Iv 0 3 1; Iv 4 6 6]).
Proof. vm_compute. repeat split. Qed.
Definition fterm := field_term sfeat Z.add Z.mul findex fchosen _ (st sitems).
Lemma frank_run : term_ranking 0 Z.add Z.ltb isrt sgain 3 (map fterm [[97]; [98]]) = Ok [res3 0 3 64; res3 4 6 58; res3 7 8 49].
Proof. vm_compute. reflexivity. Qed.
Lemma fweights_ok : (forall d, In d sitems -> iq d - ip d <= maxf) /\
  Forall2 (fun t w => bounded 0 Z.ltb (weighted ssplit slow 0 Z.add Z.mul t fwfs sitems) (Wand (fst w) (snd w) (fterm t))) [[97]; [98]] sweights.
Proof.
  split; [intros d Hd; cases Hd; cbn; unfold maxf; lia|].
  constructor; [|constructor; [|constructor]]; (split; [reflexivity|]);
    intros x Hx; vm_compute in Hx; cases Hx; reflexivity.
Qed.
Lemma fbm25_run : bm25_ranking 0 Z.add Z.ltb isrt 2 (map (fun '(t, (idf, g)) => Wand idf g (fterm t)) (combine [[97]; [98]] sweights)) =
  Ok [res3 0 3 72; res3 7 8 71].
Proof. vm_compute. reflexivity. Qed.

(** Looking back. *)
Lemma back_wrong : let o := field_tf_hopper sfeat findex Z.add Z.mul fchosen _ (st sitems) [98] in
  weighted ssplit slow 0 Z.add Z.mul [98] fwfs sitems = [Iv 0 3 1; Iv 4 6 6] /\
  run (projT1 o) (projT2 o) [(Muat, 8)] = Ok [Iv 0 3 6] /\
  run (projT1 o) (projT2 o) [(Mohr, 7)] = Ok [Iv 0 3 6] /\
  ~ answers (projT1 o) (projT2 o) (set_of (weighted ssplit slow 0 Z.add Z.mul [98] fwfs sitems)).
Proof.
  cbv zeta. match goal with |- ?A /\ ?B /\ ?C /\ _ => assert (A /\ B /\ C) as (E1 & E2 & E3) by (vm_compute; repeat split) end.
  split; [exact E1|]. split; [exact E2|]. split; [exact E3|]. intros [_ H].
  destruct (H [(Muat, 8)]) as (rs & R & F); [constructor; [cbn; unfold minf, maxf; lia|constructor]|].
  rewrite E2 in R. injection R as <-. inversion F as [|? ? ? ? A _]; subst. cbn [answer] in A. rewrite E1 in A.
  destruct A as [[X _]|[_ [(X & _)|[X _]]]]; [discriminate X| |discriminate X]. destruct X as [X|[X|[]]]; discriminate X.
Qed.

(** A field with two intervals in an item: the second does not count. *)
Definition parts2 := [Iv 0 1 0; Iv 2 3 0].
Lemma second_wrong : let f := existT St (stored_cls false parts2) (st parts2) : hobj in
  answers (projT1 f) (projT2 f) (set_of parts2) /\ gclist parts2 /\
  exists notes, tf_field_annotations _ (classes [f]) ssplit slow sfeat (st [Iv 0 3 0]) (states [f]) = Ok (Some notes) /\
    ssplit 0 1 = [[97]; [98]] /\ ssplit 2 3 = [[97]; [99]] /\
    noted (ftf 0 [97]) notes = [Iv 0 0 1] /\ noted (ftf 0 [99]) notes = [] /\ noted (sfeat length_word) notes = [Iv 0 0 2].
Proof.
  cbv zeta. split; [cbn [projT1 projT2]; apply stored_answers; [gcl|cbn; lia|intros _; repeat constructor]|]. split; [gcl|].
  eexists. split; [vm_compute; reflexivity|]. repeat split.
Qed.

(** Weights. *)
Definition wread (s : word) : number :=
  match s with
  | [c] => if (48 <=? c) && (c <=? 57) then Number (c - 48) else Invalid
  | [45; c] => Number (48 - c)
  | 49 :: 101 :: _ => Out_of_range
  | _ => Invalid end.
Definition wqueries : list word := [[116]; [98]; [99]].
Definition wstrings : list word := [[53]; [48]; [49]].
Lemma weights_ok : listing wqueries /\ listing wstrings /\ length wstrings = length wqueries /\
  Forall2 (fun s v => wread s = Number v /\ (v <? 0) = false) wstrings [5; 0; 1] /\
  joined wstrings = [53; 9; 48; 9; 49] /\
  field_stats_make wread (fun w => w <? 0) (fun w => 0 <? w) (Some (joined wqueries)) (Some (joined wstrings)) = Made [(0%nat, 5); (2%nat, 1)].
Proof.
  repeat split; try discriminate; try (right; discriminate); repeat (constructor; try (intros H; cbn in H; intuition lia)).
Qed.
Lemma weights_bad_ok : listing [[53]; [45; 49]; [49]] /\ (forall s, In s [[53]; [45; 49]; [49]] -> wread s <> Out_of_range) /\
  wread [45; 49] = Number (-1) /\ (-1 <? 0) = true.
Proof.
  split.
  - repeat split; try discriminate; try (right; discriminate); repeat (constructor; try (intros H; cbn in H; intuition lia)).
  - split; [intros s Hs; cases Hs; discriminate|]. split; reflexivity.
Qed.
Lemma range_ex : listing [[116]] /\ ~ In 9 [49; 101; 57; 57] /\ wread [49; 101; 57; 57] = Out_of_range.
Proof.
  split; [|split; [intros H; cbn in H; intuition lia|reflexivity]].
  repeat split; try discriminate; try (right; discriminate); repeat (constructor; try (intros H; cbn in H; intuition lia)).
Qed.
