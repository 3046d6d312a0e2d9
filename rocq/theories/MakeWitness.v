(** Concrete featurizers. *)
From Verif Require Import Base Bytes HopperModel ShardModel FeatModel RecipeModel RecipeSpec RecipeProofs MakeModel MakeSpec MakeProofs.

Definition f_sample : featurizer := Json (Tagging (Vocab (Tagging Hashing (lit "en"))) (lit "title")).
Lemma clean_by s : forallb (fun c => negb (c =? 34) && negb (c =? 92) && negb (c =? 0)) s = true -> clean s.
Proof. intros F c I. rewrite forallb_forall in F. specialize (F c I). lia. Qed.
Lemma f_sample_kept : kept_tags f_sample.
Proof. cbn [kept_tags f_sample]. split; [apply clean_by; reflexivity|]. split; [reflexivity|]. split; [apply clean_by; reflexivity|]. split; [reflexivity|exact I]. Qed.
(** A recipe by hand, with other spacing and other quotation marks. *)
Definition r_hand : bytes := lit "[name:'tagging', recipe:[name: 'tagging', recipe:[name:'hashing',recipe:'',tag:'en'] , tag :'title',]]".
Lemma r_hand_same : same_says (feat_recipe f_sample) r_hand.
Proof.
  assert (A : says r_hand (conf_of f_sample)).
  { cbn [conf_of f_sample says]. eexists. split; [vm_compute; reflexivity|]. cbn [pairs]. split; [reflexivity|]. split; [split; reflexivity|]. split; [reflexivity|]. split; [|exact I].
    eexists. split; [vm_compute; reflexivity|]. cbn [pairs]. split; [reflexivity|]. split; [split; reflexivity|]. split; [reflexivity|]. split; [|split; [reflexivity|split; [split; reflexivity|exact I]]].
    eexists. split; [vm_compute; reflexivity|]. cbn [pairs]. split; [reflexivity|]. split; [split; reflexivity|]. split; [reflexivity|]. split; [split; reflexivity|]. split; [reflexivity|]. split; [split; reflexivity|exact I]. }
  destruct (recipe_says f_sample f_sample_kept) as [B _]. intros t. split; intros H.
  - rewrite (says_unique _ _ _ H B). exact A.
  - rewrite (says_unique _ _ _ H A). exact B.
Qed.
Lemma f_sample_made : r_hand <> feat_recipe f_sample /\
  featurizer_make false false (lit "json") r_hand = Some (Json (Tagging (Tagging Hashing (lit "en")) (lit "title"))) /\
  feature f_sample (lit "dog") = featurize (lit "en:title:dog") /\ feature f_sample [239; 183; 144] = Ok null_feature.
Proof. repeat split; try (vm_compute; reflexivity). vm_compute. discriminate. Qed.
(** A vocabulary of tagged text. *)
Lemma vocab_case : exists f, featurizer_make true false (lit "tagging") (lit "[name:'hashing',tag:'x']") = Some f /\
  featurizer_make true false (lit "vocab") (lit "[name:'tagging',recipe:[name:'hashing',tag:'x']]") = Some (Vocab f) /\
  featurizer_make true true (lit "vocab") (lit "null") = Some Nothing.
Proof. eexists. repeat split; vm_compute; reflexivity. Qed.
Definition v_keys : list bytes := [lit "to"; lit "be"; lit "or"; lit "not"; lit "to"; lit "be"].
Lemma vocab_counts_case : vocab_counts v_keys = [(lit "be", 2); (lit "not", 1); (lit "or", 1); (lit "to", 2)] /\
  exists s, vocab_file Hashing (vocab_counts v_keys) = Ok s /\ (20 < length s)%nat.
Proof. split; [vm_compute; reflexivity|]. eexists. split; [vm_compute; reflexivity|]. cbn. lia. Qed.

(** A tag that is itself a configuration comes back with other spacing. *)
Lemma tag_respelt : exists f g key, clean (lit "[a:'b']") /\ f = Tagging Hashing (lit "[a:'b']") /\ featurizer_make true true (feat_name f) (feat_recipe f) = Some g /\ feature g key <> feature f key.
Proof.
  exists (Tagging Hashing (lit "[a:'b']")). eexists. exists (lit "dog"). split; [apply clean_by; reflexivity|]. split; [reflexivity|]. split; [vm_compute; reflexivity|]. vm_compute. discriminate.
Qed.
(** A tag with a quotation mark makes a recipe that is not read. *)
Lemma tag_quoted : exists f, f = Tagging Hashing (34 :: lit "x") /\ featurizer_make true true (feat_name f) (feat_recipe f) = None /\ featurizer_check (feat_name f) (feat_recipe f) = false.
Proof. eexists. split; [reflexivity|]. split; vm_compute; reflexivity. Qed.
Lemma needs_working : exists name recipe, featurizer_check name recipe = true /\ forall v, featurizer_make false v name recipe = None.
Proof. exists (lit "vocab"), []. split; [reflexivity|]. intros v. reflexivity. Qed.
(** U+FDFA, a common Arabic ligature, is text and not structure. *)
Lemma arabic_lost : exists key, ~ structural key /\ key = [239; 183; 186] /\ feature (Json Hashing) key = Ok null_feature /\ exists f, feature Hashing key = Ok f /\ f <> null_feature.
Proof.
  exists [239; 183; 186]. split; [intros (c & L & E); injection E as <-; lia|]. split; [reflexivity|]. split; [reflexivity|]. eexists. split; [vm_compute; reflexivity|]. discriminate.
Qed.
