(** A small collection for the theorems about statistics with weights. *)
From Verif Require Import Base HopperModel ArrayDefs GclSpec HopperProofs GclProofs ArrayProofs UnaryProofs UnaryModel AnswerProofs PostingModel
  VectorModel RankModel RankSpec RankTop RankWitness StatsModel StatsSpec StatsTop StatsWitness IdfModel IdfSpec IdfProofs.

(** The items of StatsWitness: "a b a c", "b b d" and "a Ab".  The stemmer makes letters small. *)
Definition istem (w : word) : word * bool := (slow w, negb (word_eq (slow w) w)).
Definition iavg (total n : Z) : Z := total / n.
Definition iidf (N n : Z) : Z := 100 * N / n.
Definition irsj (N n : Z) : Z := N - 2 * n.
Definition ipos (w : Z) : bool := 0 <? w.
Definition imake (u i r : bool) := tf_idf_annotations _ ssplit istem sfeat (fun n => 10 * n) iavg iidf irsj ipos u i r (st sitems).
Definition inotes (u i r : bool) : list annotation := match imake u i r with Ok (n, _) => n | _ => [] end.

Lemma iitems_ok : (answers _ (st sitems) (set_of sitems) /\ listed (set_of sitems) sitems) /\ (forall d, In d sitems -> 0 <= ip d) /\
  total_length sitems <= maxf.
Proof. split; [exact (proj1 sitems_ok)|]. split; [intros d Hd; cases Hd; cbn; lia|vm_compute; discriminate]. Qed.
Definition iterms : list word := [[97]; [98]; [97; 98]; [65; 98]; [120]].
Lemma iterms_ok : forall u t, In t iterms -> no_clash sfeat (idf_keys (t :: flat_map (item_words ssplit istem u) sitems)).
Proof. intros u t Ht. apply clash_free_ok. destruct u; cases Ht; vm_compute; reflexivity. Qed.
Definition iitf (w : word) := sfeat (tag_tf ++ w).
Definition iwidf (w : word) := sfeat (tag_idf ++ w).
Definition iwrsj (w : word) := sfeat (tag_rsj ++ w).
Lemma inotes_run :
  (exists ps, imake false true true = Ok (inotes false true true, ps) /\ length ps = 4%nat) /\
  noted (iitf [97]) (inotes false true true) = [Iv 0 3 20; Iv 7 8 10] /\ noted (iitf [98]) (inotes false true true) = [Iv 0 3 10; Iv 4 6 20] /\
  noted (iitf [97; 98]) (inotes false true true) = [Iv 7 8 10] /\ noted (iitf [65; 98]) (inotes false true true) = [] /\
  noted (iitf [65; 98]) (inotes true true true) = [Iv 7 8 10] /\ noted (iitf [97; 98]) (inotes true true true) = [Iv 7 8 10] /\
  noted (iwidf [98]) (inotes false true true) = [Iv 0 0 150] /\ noted (iwrsj [98]) (inotes false true true) = [] /\
  noted (iwidf [99]) (inotes false true true) = [Iv 0 0 300] /\ noted (iwrsj [99]) (inotes false true true) = [Iv 0 0 1] /\
  noted (iwidf [99]) (inotes false false true) = [] /\ noted (iwrsj [99]) (inotes false true false) = [] /\
  noted (sfeat avgl_word) (inotes false true true) = [Iv 0 0 3].
Proof. split; [eexists; split; [vm_compute; reflexivity|reflexivity]|]. vm_compute. repeat split. Qed.
Lemma inotes_statistics u i r : (i || r) = true ->
  idf_statistics ssplit istem sfeat (fun n => 10 * n) iavg iidf irsj ipos u i r sitems (inotes u i r).
Proof.
  intros E. destruct iitems_ok as ([A L] & B & D).
  destruct (idf_made _ ssplit istem sfeat (fun n => 10 * n) iavg iidf irsj ipos u i r (st sitems) (set_of sitems) sitems A L B D E) as (n & R & S).
  unfold inotes, imake. rewrite R. exact S.
Qed.
Definition iindex (notes : list annotation) (f : Z) : hobj := existT St (stored_cls true (noted f notes)) (stored_start true (noted f notes)).
Lemma iindexed u i r : indexed (iindex (inotes u i r)) (inotes u i r).
Proof.
  intros f G. apply stored_answers; [exact G| |discriminate].
  assert (length (noted f (inotes u i r)) <= length (inotes u i r))%nat as L.
  { unfold noted. rewrite map_length. generalize (inotes u i r). induction l as [|a l IH]; [apply le_n|]. cbn [filter].
    destruct (afeat a =? f); cbn [length]; lia. }
  assert (length (inotes u i r) < 100)%nat as E by (destruct u, i, r; vm_compute; repeat constructor). lia.
Qed.
Definition iidx := iindex (inotes false true true).
Lemma iread_run : idf_avgl sfeat iidx = Ok (Some 3) /\ idf_idf sfeat iidx [98] = Ok 150 /\ idf_rsj sfeat iidx [98] = Ok 0 /\
  idf_rsj sfeat iidx [99] = Ok 1 /\ idf_idf sfeat iidx [120] = Ok 0 /\
  holding ssplit istem (fun n => 10 * n) false [98] sitems = [Iv 0 3 10; Iv 4 6 20] /\
  (let o := idf_tf_hopper sfeat iidx [98] in run (projT1 o) (projT2 o) [(Mtau, 0); (Mtau, 1); (Mrho, 4); (Muat, 8); (Mohr, 5)] =
   Ok [Iv 0 3 10; Iv 4 6 20; Iv 4 6 20; Iv 4 6 20; Iv 4 6 20]).
Proof. vm_compute. repeat split. Qed.
Definition iterm := idf_term sfeat iidx.
Lemma irank_run : term_ranking 0 Z.add Z.ltb isrt sgain 3 (map iterm [[97]; [98]]) = Ok [res3 0 3 294; res3 4 6 198; res3 7 8 99].
Proof. vm_compute. reflexivity. Qed.
Lemma iweights_ok : (forall d, In d sitems -> iq d - ip d <= maxf) /\
  Forall2 (fun t w => bounded 0 Z.ltb (holding ssplit istem (fun n => 10 * n) false t sitems) (Wand (fst w) (snd w) (iterm t))) [[97]; [98]] sweights.
Proof.
  split; [intros d Hd; cases Hd; cbn; unfold maxf; lia|].
  constructor; [|constructor; [|constructor]]; (split; [reflexivity|]);
    intros x Hx; vm_compute in Hx; cases Hx; reflexivity.
Qed.
Lemma ibm25_run : bm25_ranking 0 Z.add Z.ltb isrt 2 (map (fun '(t, (idf, g)) => Wand idf g (iterm t)) (combine [[97]; [98]] sweights)) =
  Ok [res3 0 3 125; res3 7 8 83].
Proof. vm_compute. reflexivity. Qed.

(** Made without the weights that BM25 needs, the statistics say they have them; every weight
    reads as 0. *)
Definition lookup (ps : list (word * word)) (k : word) : option word :=
  Some (match find (fun e => word_eq (fst e) k) ps with Some e => snd e | None => [] end).
Lemma have_wrong : exists notes ps, imake false true false = Ok (notes, ps) /\
  lookup ps key_rsj = Some (okay_string false) /\ lookup ps key_unstemmed = Some (okay_string false) /\
  idf_have_ (idf_flags (lookup ps)) key_rsj = true /\ idf_have_ (idf_flags (lookup ps)) key_unstemmed = true /\
  (forall t, In t iterms -> idf_rsj sfeat (iindex notes) t = Ok 0).
Proof.
  eexists _, _. split; [vm_compute; reflexivity|]. split; [vm_compute; reflexivity|]. split; [vm_compute; reflexivity|].
  split; [vm_compute; reflexivity|]. split; [vm_compute; reflexivity|]. intros t Ht. cases Ht; vm_compute; reflexivity.
Qed.
(** Without items there are statistics, with the average of no lengths. *)
Lemma empty_run avgl_of : exists ps, tf_idf_annotations _ ssplit istem sfeat (fun n => n) avgl_of iidf irsj ipos false true true (st []) =
  Ok ([Ann (sfeat avgl_word) (Iv 0 0 (avgl_of 0 0))], ps).
Proof. eexists. vm_compute. reflexivity. Qed.
Lemma snotes_none : indexed (iindex snotes) snotes /\ noted (sfeat avgl_word) snotes = [] /\ snotes <> [].
Proof. split; [exact sindexed|]. split; [vm_compute; reflexivity|vm_compute; discriminate]. Qed.
