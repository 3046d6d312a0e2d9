(** A small collection foraged by two workers. *)
From Verif Require Import Base Bytes RecipeModel HopperModel GclSpec HopperProofs UnaryProofs UnaryModel AnswerProofs PostingModel
  VectorModel RankModel RankSpec RankTop RankWitness StatsModel StatsSpec StatsTop StatsWitness
  ForagerModel ForagerSpec ForageModel ForageSpec ForageProofs ForageRun ForageFinal.

Definition yes := Calls true true true true true.
(** The label of the tag "x", and where its text is. *)
Definition flabel : bytes := forager_label (lit "tf-idf") (lit "x").
Definition fplace := Iv 9 15 0.
Definition frun := forage ssplit slow sfeat flabel true fplace sitems 2 [Some yes; Some yes].
Definition fparts : list (list annotation) :=
  match frun with Ok (_, es) => map (fun e => match e with Committed n => n | _ => [] end) es | _ => [] end.
Definition fnotes : list annotation := concat fparts.
Definition ffeat (w : word) : Z := sfeat (flabel ++ w).
Lemma fitems_ok : gclist sitems /\ words_align sword ssplit sitems /\ total_length sitems <= maxf.
Proof.
  destruct sitems_ok as [[_ [L _]] [_ [_ B]]]. split; [exact L|]. split; [intros d _; reflexivity|exact B].
Qed.
Lemma frun_ok : frun = Ok (true, map Committed fparts) /\ map (@length _) fparts = [10; 10]%nat /\
  noted (ffeat (tag_tf ++ [97])) fnotes = [Iv 0 0 2; Iv 7 7 1] /\ noted (ffeat (tag_df ++ [98])) fnotes = [Iv 0 0 1; Iv 4 4 1] /\
  noted (ffeat total_items_word) fnotes = [Iv 0 0 1; Iv 4 4 2] /\ noted (ffeat total_length_word) fnotes = [Iv 0 0 4; Iv 4 4 5].
Proof. vm_compute. repeat split. Qed.
Lemma fstatistics : statistics_in_parts slow sfeat sword flabel fplace sitems fnotes.
Proof.
  destruct fitems_ok as (G & A & B).
  destruct (forage_ok ssplit slow sfeat (lit "tf-idf") (lit "x") sword fplace sitems 2 [Some yes; Some yes] G A B ltac:(cbn; lia) eq_refl) as (a & es & R & H & _).
  change (frun = Ok (a, es)) in R. rewrite (proj1 frun_ok) in R. assert (Ea : a = true) by congruence. assert (Ee : es = map Committed fparts) by congruence. clear R. subst a es.
  destruct H as (parts & E & H); [intros Q; apply in_map_iff in Q; destruct Q as (? & ? & _); discriminate|reflexivity|].
  replace fnotes with (concat parts); [exact H|]. unfold fnotes. f_equal.
  assert (X : forall a b, map Committed a = map Committed b -> a = b).
  { clear. induction a as [|x a IH]; intros [|y b] Q; cbn [map] in Q; try discriminate; [reflexivity|]. injection Q as -> Q. f_equal. auto. }
  symmetry. apply X, E.
Qed.
Definition findex (f : Z) : hobj := existT St (stored_cls true (noted f fnotes)) (stored_start true (noted f fnotes)).
Lemma findexed : indexed findex fnotes.
Proof.
  intros f G. apply stored_answers; [exact G| |discriminate].
  assert (length (noted f fnotes) <= length fnotes)%nat as L.
  { unfold noted. rewrite map_length. generalize fnotes. induction l as [|a l IH]; [apply le_n|]. cbn [filter].
    destruct (afeat a =? f); cbn [length]; lia. }
  assert (length fnotes = 20)%nat as E by (vm_compute; reflexivity). lia.
Qed.
Lemma fterms_ok : forall t, In t [[97]; [98]; [99]; [97; 98]; [120]] ->
  no_clash sfeat (label_keys flabel (t :: flat_map (words_of sword slow) sitems)).
Proof. intros t Ht. apply clash_free_ok. cases Ht; vm_compute; reflexivity. Qed.

(** The text of the label. *)
Definition fps : params := [(lit "id", lit ":docno:"); (lit "stemmer", lit "lower")].
Definition fgcl : bytes := lit ":doc:".
Definition ftext (tag : bytes) (p q : Z) : bytes := forager2json (lit "tf-idf") tag (described fps fgcl sitems) ++ [10] ++ [0].
Definition fstems (n : bytes) : bool := eqb_bytes n (lit "lower") || eqb_bytes n (lit "porter").
Definition ftokens (n : bytes) : bool := eqb_bytes n (lit "ascii").
Lemma fdescribed_ok : map_of_bytes fps /\ is_map fps /\ of_bytes fgcl /\ sitems <> [] /\
  described fps fgcl sitems = [(lit "end", lit "8"); (lit "gcl", fgcl); (lit "id", lit ":docno:"); (lit "start", lit "0"); (lit "stemmer", lit "lower")].
Proof.
  split; [unfold map_of_bytes, fps, of_bytes, is_byte; repeat constructor; cbn; lia|].
  split. { cbn [is_map fps]. split; [intros k' v' [H|[]]; injection H as <- <-; vm_compute; reflexivity|]. split; [intros k' v' []|exact I]. }
  split; [unfold of_bytes, is_byte; repeat (constructor; [cbn; lia|]); constructor|]. split; [discriminate|vm_compute; reflexivity].
Qed.
Lemma fread_run : stats_make findex (ftext (lit "x")) sfeat (fun _ => true) fstems ftokens (lit "x") =
    Ok (Some (Stats (lit ":docno:") fgcl (lit ":") 3 9)) /\
  stats_make findex (ftext (lit "x")) sfeat (fun _ => true) fstems ftokens (lit "y") = Ok None.
Proof. split; vm_compute; reflexivity. Qed.
Definition fstats := stats_term (stored_cls false sitems) (labelled sfeat flabel) (fun n => n) findex (st sitems).
Lemma frank_run : term_ranking 0 Z.add Z.ltb isrt sgain 3 (map fstats [[97]; [98]]) =
  Ok [res3 0 3 24; res3 4 6 18; res3 7 8 9].
Proof. vm_compute. reflexivity. Qed.
Lemma fweights_ok : Forall2 (fun t w => bounded 0 Z.ltb (valued slow sword (fun n => n) t sitems) (Wand (fst w) (snd w) (fstats t))) [[97]; [98]] sweights.
Proof.
  constructor; [|constructor; [|constructor]]; (split; [reflexivity|]);
    intros x Hx; vm_compute in Hx; cases Hx; reflexivity.
Qed.
Lemma fbm25_run : bm25_ranking 0 Z.add Z.ltb isrt 2 (map (fun '(t, (idf, g)) => Wand idf g (fstats t)) (combine [[97]; [98]] sweights)) =
  Ok [res3 0 3 45; res3 7 8 33].
Proof. vm_compute. reflexivity. Qed.

(** Foraged without a query, or without a name. *)
Definition nlabel : bytes := forager_label [] [].
Definition nnotes : list annotation := match forage ssplit slow sfeat nlabel true fplace sitems 1 [Some yes] with Ok (_, [Committed n]) => n | _ => [] end.
Definition nindex (f : Z) : hobj := existT St (stored_cls true (noted f nnotes)) (stored_start true (noted f nnotes)).
Lemma unread : forage ssplit slow sfeat nlabel true fplace sitems 1 [Some yes] = Ok (true, [Committed nnotes]) /\
  nlabel = forager_label (lit "tf-idf") [] /\
  stats_make nindex (fun _ _ => forager2json [] [] (described fps fgcl sitems)) sfeat (fun _ => true) fstems ftokens [] = Ok None /\
  stats_make nindex (fun _ _ => forager2json (lit "tf-idf") [] (forage_params fps sitems)) sfeat (fun _ => true) fstems ftokens [] = Ok None /\
  stats_make nindex (fun _ _ => forager2json (lit "tf-idf") [] (described fps fgcl sitems)) sfeat (fun _ => true) fstems ftokens [] =
    Ok (Some (Stats (lit ":docno:") fgcl (lit ":") 3 9)).
Proof. repeat split; vm_compute; reflexivity. Qed.
Lemma few_run : exists es, forage ssplit slow sfeat flabel true fplace sitems 4 (repeat (Some yes) 4) = Ok (true, es) /\ In Stops es.
Proof. eexists. split; [vm_compute; reflexivity|]. left. reflexivity. Qed.
