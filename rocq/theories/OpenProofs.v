(** Bigwigs reopened from their configuration. *)
From Verif Require Import Base Bytes RecipeModel RecipeSpec RecipeProofs RecipeDna MakeModel MakeSpec MakeProofs JsonTxtModel OpenModel OpenSpec.

(** * The configuration of a bigwig *)
Definition strs (ps : params) : list (bytes * conf) := map (fun kv => (fst kv, Str (snd kv))) ps.
Definition part (n : bytes) (r : conf) : conf := Map [(k_name, Str n); (k_recipe, r)].
Definition idx_conf (posting fvalue : compressor) : conf :=
  part n_bigwig (Map [(k_fvalue, Str (c_name fvalue)); (k_fvalue_r, Str (c_recipe fvalue)); (k_posting, Str (c_name posting)); (k_posting_r, Str (c_recipe posting))]).
Definition txt_conf (text : compressor) : conf := part n_bigwig (Map [(k_compressor, Str (c_name text)); (k_compressor_r, Str (c_recipe text))]).
Definition dna_conf (f : featurizer) (t : tokenizer) (posting fvalue text : compressor) (ps : params) : list (bytes * conf) :=
  [(k_featurizer, part (feat_name f) (conf_of f)); (k_idx, idx_conf posting fvalue); (parameters, Map (strs ps));
   (k_tokenizer, part (tok_name t) (Str (tok_recipe t))); (k_txt, txt_conf text); (k_warren, Str n_bigwig)].
Definition kept_params (ps : params) : Prop := ordered ps /\ Forall (fun kv => plain_text (snd kv)) ps.

Lemma plain_by s : forallb (fun c => negb (c =? 34) && negb (c =? 92) && negb (c =? 0) && negb (c =? 10)) s = true -> cook s = None -> plain_text s.
Proof.
  intros F C. rewrite forallb_forall in F. split; [intros c J; specialize (F c J); lia|]. split; [|exact C]. intros J. specialize (F _ J). discriminate.
Qed.
Lemma plain_feat_name f : plain_text (feat_name f).
Proof. destruct (feat_name_cases f) as [-> | [-> | [-> | ->]]]; apply plain_by; reflexivity. Qed.
Lemma plain_tok t : plain_text (tok_name t) /\ plain_text (tok_recipe t).
Proof. destruct t as [[|]|]; split; apply plain_by; reflexivity. Qed.
Lemma named_name c : named c -> plain_text (c_name c).
Proof.
  intros [H _]. unfold comp_make in H.
  assert (K : forall s, eqb_bytes (c_name c) s = true -> plain_text s -> plain_text (c_name c)) by (intros s E P; apply eqb_bytes_eq in E; rewrite E; exact P).
  destruct (eqb_bytes (c_name c) []) eqn:E0; [apply (K _ E0), plain_by; reflexivity|].
  destruct (eqb_bytes (c_name c) (lit "zlib")) eqn:E1; [apply (K _ E1), plain_by; reflexivity|].
  destruct (eqb_bytes (c_name c) (lit "null")) eqn:E2; [apply (K _ E2), plain_by; reflexivity|].
  destruct (eqb_bytes (c_name c) (lit "post")) eqn:E3; [apply (K _ E3), plain_by; reflexivity|].
  destruct (eqb_bytes (c_name c) (lit "tfdf")) eqn:E4; [apply (K _ E4), plain_by; reflexivity|].
  destruct (eqb_bytes (c_name c) (lit "bad")) eqn:E5; [apply (K _ E5), plain_by; reflexivity|]. discriminate.
Qed.
Lemma plain_kept f : plain_tags f -> kept_tags f.
Proof. induction f as [| |b IH t|g IH|g IH]; cbn; auto. intros [(C & _ & N) P]. auto. Qed.
Lemma conf_line f : plain_tags f -> texts one_line (conf_of f).
Proof.
  induction f as [| |b IH t|g IH|g IH]; cbn [plain_tags conf_of]; intros P.
  - intros [].
  - intros [].
  - destruct P as [(_ & L & _) P]. cbn [texts every]. split; [apply (plain_feat_name b)|]. split; [apply IH, P|]. split; [exact L|exact I].
  - cbn [texts every]. split; [apply (plain_feat_name g)|]. split; [apply IH, P|exact I].
  - apply IH, P.
Qed.
(** A configuration that is kept, and says something. *)
Definition fine (v : bytes) (t : conf) : Prop := says v t /\ texts clean t /\ texts one_line t.
Lemma fine_str v : plain_text v -> fine v (Str v).
Proof. intros (C & L & N). split; [split; [reflexivity|exact N]|]. split; [exact C|exact L]. Qed.
Lemma fine_split m l : pairs fine m l -> pairs says m l /\ every (texts clean) l /\ every (texts one_line) l.
Proof.
  revert m. induction l as [|[k t] l IH]; intros [|[k' v] m] P; cbn in P; try contradiction; [cbn; auto|]. destruct P as (-> & (S & C & L) & P). destruct (IH m P) as (A & B & D). cbn. auto 8.
Qed.
Lemma fine_freeze m l : ordered m -> pairs fine m l -> fine (freeze m) (Map l).
Proof. intros O P. destruct (fine_split m l P) as (A & B & C). split; [apply freeze_says; assumption|]. split; assumption. Qed.
Lemma fine_strs ps : Forall (fun kv => plain_text (snd kv)) ps -> pairs fine ps (strs ps).
Proof. induction 1 as [|[k v] ps H F IH]; [exact I|]. cbn. split; [reflexivity|]. split; [apply fine_str, H|exact IH]. Qed.
Ltac names := cbn [ordered]; repeat split; try (apply nm; reflexivity); reflexivity.
Lemma fine_part n r t : plain_text n -> fine r t -> fine (freeze (put k_recipe r (put k_name n []))) (part n t).
Proof.
  intros P F. change (put k_recipe r (put k_name n [])) with [(k_name, n); (k_recipe, r)]. apply fine_freeze; [names|]. cbn [pairs]. split; [reflexivity|]. split; [apply fine_str, P|]. split; [reflexivity|]. split; [exact F|exact I].
Qed.
Lemma plain_bigwig : plain_text n_bigwig. Proof. apply plain_by; reflexivity. Qed.
Lemma fine_idx posting fvalue : named posting -> named fvalue ->
  fine (freeze (put k_recipe (freeze (put k_posting_r (c_recipe posting) (put k_posting (c_name posting) (put k_fvalue_r (c_recipe fvalue) (put k_fvalue (c_name fvalue) []))))) (put k_name n_bigwig []))) (idx_conf posting fvalue).
Proof.
  intros P F. apply fine_part; [exact plain_bigwig|].
  change (put k_posting_r (c_recipe posting) (put k_posting (c_name posting) (put k_fvalue_r (c_recipe fvalue) (put k_fvalue (c_name fvalue) [])))) with
    [(k_fvalue, c_name fvalue); (k_fvalue_r, c_recipe fvalue); (k_posting, c_name posting); (k_posting_r, c_recipe posting)].
  apply fine_freeze; [names|]. cbn [pairs]. repeat (split; [reflexivity|split; [apply fine_str; first [apply named_name; assumption|apply P|apply F]|]]). exact I.
Qed.
Lemma fine_txt text : named text ->
  fine (freeze (put k_recipe (freeze (put k_compressor_r (c_recipe text) (put k_compressor (c_name text) []))) (put k_name n_bigwig []))) (txt_conf text).
Proof.
  intros P. apply fine_part; [exact plain_bigwig|].
  change (put k_compressor_r (c_recipe text) (put k_compressor (c_name text) [])) with [(k_compressor, c_name text); (k_compressor_r, c_recipe text)].
  apply fine_freeze; [names|]. cbn [pairs]. repeat (split; [reflexivity|split; [apply fine_str; first [apply named_name; assumption|apply P]|]]). exact I.
Qed.
Lemma recipe_held b : plain_tags (b_featurizer b) -> named (b_posting b) -> named (b_fvalue b) -> named (b_text b) -> kept_params (b_parameters b) ->
  holds_conf (write_dna (bigwig_recipe b)) (dna_conf (b_featurizer b) (b_tokenizer b) (b_posting b) (b_fvalue b) (b_text b) (b_parameters b)).
Proof.
  intros Pf P F X [O K]. destruct (recipe_says _ (plain_kept _ Pf)) as [S C]. pose proof (conf_line _ Pf) as L.
  unfold bigwig_recipe. cbv zeta.
  set (tok := freeze (put k_recipe (tok_recipe _) _)). set (feat := freeze (put k_recipe (feat_recipe _) _)).
  set (txt := freeze (put k_recipe (freeze (put k_compressor_r _ _)) _)). set (idx := freeze (put k_recipe (freeze (put k_posting_r _ _)) _)). set (ps := freeze (b_parameters b)).
  change (put parameters ps (put k_idx idx (put k_txt txt (put k_featurizer feat (put k_tokenizer tok (put k_warren n_bigwig [])))))) with
    [(k_featurizer, feat); (k_idx, idx); (parameters, ps); (k_tokenizer, tok); (k_txt, txt); (k_warren, n_bigwig)].
  assert (Q : pairs fine [(k_featurizer, feat); (k_idx, idx); (parameters, ps); (k_tokenizer, tok); (k_txt, txt); (k_warren, n_bigwig)]
     (dna_conf (b_featurizer b) (b_tokenizer b) (b_posting b) (b_fvalue b) (b_text b) (b_parameters b))).
  { unfold dna_conf. cbn [pairs]. split; [reflexivity|]. split; [apply fine_part; [apply plain_feat_name|split; [exact S|split; [exact C|exact L]]]|].
    split; [reflexivity|]. split; [apply fine_idx; assumption|]. split; [reflexivity|]. split; [apply fine_freeze; [exact O|apply fine_strs, K]|].
    split; [reflexivity|]. split; [apply fine_part; [apply plain_tok|apply fine_str, plain_tok]|]. split; [reflexivity|]. split; [apply fine_txt, X|].
    split; [reflexivity|]. split; [apply fine_str, plain_bigwig|exact I]. }
  destruct (fine_split _ _ Q) as (A & B & D). apply dna_says; [names|exact A|exact B|exact D].
Qed.
Lemma dna_texts f t p v x ps : plain_tags f -> named p -> named v -> named x -> Forall (fun kv => plain_text (snd kv)) ps ->
  texts clean (Map (dna_conf f t p v x ps)) /\ texts one_line (Map (dna_conf f t p v x ps)).
Proof.
  intros Pf P V X K. destruct (recipe_says _ (plain_kept _ Pf)) as [_ C]. pose proof (conf_line _ Pf) as L. destruct (fine_split _ _ (fine_strs ps K)) as (_ & B & D).
  pose proof (plain_feat_name f) as (F1 & F2 & _). pose proof (plain_tok t) as [(T1 & T2 & _) (T3 & T4 & _)]. pose proof plain_bigwig as (W1 & W2 & _).
  pose proof (named_name p P) as (P1 & P2 & _). pose proof (named_name v V) as (V1 & V2 & _). pose proof (named_name x X) as (X1 & X2 & _).
  destruct P as [_ (P3 & P4 & _)], V as [_ (V3 & V4 & _)], X as [_ (X3 & X4 & _)].
  unfold dna_conf, part, idx_conf, txt_conf, part. split; cbn [texts every]; auto 40.
Qed.

(** * Settings keep the configuration *)
Lemma put_strs k v ps : put k (Str v) (strs ps) = strs (put k v ps).
Proof. induction ps as [|[k1 v1] ps IH]; [reflexivity|]. cbn [strs map put fst snd]. fold (strs ps). destruct (eqb_bytes k k1); [reflexivity|]. destruct (before k k1); [reflexivity|]. rewrite IH. reflexivity. Qed.
Lemma forall_put (P : bytes -> Prop) k v ps : P v -> Forall (fun kv => P (snd kv)) ps -> Forall (fun kv => P (snd kv)) (put k v ps).
Proof. intros H. induction 1 as [|[k1 v1] ps H1 F IH]; [constructor; [exact H|constructor]|]. cbn [put]. destruct (eqb_bytes k k1); [constructor; assumption|]. destruct (before k k1); constructor; auto. Qed.
Section Parts.
Context (f : featurizer) (t : tokenizer) (p v x : compressor).
Context (Hf : plain_tags f) (Hp : named p) (Hv : named v) (Hx : named x).
Definition inv (st : store) : Prop :=
  holds_conf (fst st) (dna_conf f t p v x (b_parameters (snd st))) /\ kept_params (b_parameters (snd st)) /\ made_of (snd st) f t p v x.
Lemma set_inv st k w : inv st -> name k -> plain_text w ->
  inv (set_parameter st k w) /\ b_parameters (snd (set_parameter st k w)) = put k w (b_parameters (snd st)) /\
  b_container (snd (set_parameter st k w)) = b_container (snd st) /\ b_stemmer (snd (set_parameter st k w)) = b_stemmer (snd st) /\ b_merge (snd (set_parameter st k w)) = b_merge (snd st).
Proof.
  destruct st as [file b]. intros (H & [O K] & M) N W. cbn [fst snd] in *. destruct (dna_texts f t p v x _ Hf Hp Hv Hx K) as [C L].
  destruct (fine_str w W) as (S & C1 & L1).
  destruct (set_holds file _ (strs (b_parameters b)) k w (Str w) H C L eq_refl N S C1 L1) as (file' & E & H').
  unfold set_parameter. rewrite E. cbn [fst snd b_parameters b_container b_stemmer b_merge]. split; [|auto]. split; [|split].
  - cbn [fst snd b_parameters]. rewrite put_strs in H'. exact H'.
  - split; [apply put_ordered; assumption|]. apply forall_put; assumption.
  - exact M.
Qed.
Lemma inv_with st c s m : inv st -> inv (fst st, with_ (snd st) c s m).
Proof. intros H. exact H. Qed.
Lemma container_inv st c : inv st -> plain_text c -> inv (set_container st c) /\ b_parameters (snd (set_container st c)) = put k_container c (b_parameters (snd st)) /\ b_container (snd (set_container st c)) = c /\ b_stemmer (snd (set_container st c)) = b_stemmer (snd st) /\ b_merge (snd (set_container st c)) = b_merge (snd st).
Proof. intros H P. apply (set_inv (fst st, with_ (snd st) c (b_stemmer (snd st)) (b_merge (snd st))) k_container c); [exact H|apply nm; reflexivity|exact P]. Qed.
Lemma plain_stem s : plain_text (stem_name s).
Proof. destruct s; apply plain_by; reflexivity. Qed.
Lemma stemmer_inv st s : inv st -> inv (set_stemmer st s) /\ b_parameters (snd (set_stemmer st s)) = put k_stemmer (stem_name s) (b_parameters (snd st)) /\ b_container (snd (set_stemmer st s)) = b_container (snd st) /\ b_stemmer (snd (set_stemmer st s)) = s /\ b_merge (snd (set_stemmer st s)) = b_merge (snd st).
Proof. intros H. apply (set_inv (fst st, with_ (snd st) (b_container (snd st)) s (b_merge (snd st))) k_stemmer (stem_name s)); [exact H|apply nm; reflexivity|apply plain_stem]. Qed.
Lemma merge_inv st on : inv st -> inv (set_merge st on) /\ b_parameters (snd (set_merge st on)) = put k_merge (okay_text on) (b_parameters (snd st)) /\ b_container (snd (set_merge st on)) = b_container (snd st) /\ b_stemmer (snd (set_merge st on)) = b_stemmer (snd st) /\ b_merge (snd (set_merge st on)) = on.
Proof.
  intros H. destruct (set_inv st k_merge (okay_text on) H) as (A & B & C & D & _); [apply nm; reflexivity|destruct on; apply plain_by; reflexivity|]. unfold set_merge. split; [exact A|]. split; [exact B|]. split; [exact C|]. split; [exact D|reflexivity].
Qed.

(** * Opening *)
Lemma says_part w n c : says w (part n c) -> exists r, cook w = Some [(k_name, n); (k_recipe, r)] /\ says r c.
Proof.
  intros (m & E & P). destruct m as [|[k1 v1] [|[k2 v2] [|[? ?] ?]]]; cbn in P; try tauto. destruct P as (-> & [-> _] & -> & S & _). eauto.
Qed.
Lemma says_strs ps : forall m, pairs says m (strs ps) -> m = ps.
Proof. induction ps as [|[k1 v1] ps IH]; intros [|[k2 v2] m] P; cbn in P; try contradiction; [reflexivity|]. destruct P as (-> & [-> _] & P). f_equal. apply IH, P. Qed.
Lemma tok_back : tok_make (tok_name t) (tok_recipe t) = Ok (Some t).
Proof. destruct t as [[|]|]; reflexivity. Qed.
Definition opened (file : bytes) (ps : params) (s : stemmer) : store :=
  let b := {| b_featurizer := strip f; b_tokenizer := t; b_posting := p; b_fvalue := v; b_text := x;
              b_parameters := ps; b_container := []; b_stemmer := NoStem;
              b_merge := eqb_bytes (item k_merge ps) [] || okay (item k_merge ps) |} in
  let st := match item k_stemmer ps with [] => (file, b) | _ => set_stemmer (file, b) s end in
  match item k_container ps with [] => st | _ => set_container st (item k_container ps) end.
Lemma open_held voc file ps s : holds_conf file (dna_conf f t p v x ps) ->
  match item k_stemmer ps with [] => Some NoStem | _ => stem_make (item k_stemmer ps) end = Some s ->
  bigwig_open voc file = Ok (Some (opened file ps s)).
Proof.
  intros (dna & R & m & E & P) St. unfold dna_conf in P.
  destruct m as [|[k1 v1] [|[k2 v2] [|[k3 v3] [|[k4 v4] [|[k5 v5] [|[k6 v6] [|[? ?] ?]]]]]]]; cbn [pairs] in P; try tauto.
  destruct P as (-> & P1 & -> & P2 & -> & P3 & -> & P4 & -> & P5 & -> & P6 & _).
  apply says_part in P1. destruct P1 as (r1 & E1 & S1). apply says_part in P2. destruct P2 as (r2 & E2 & S2). destruct P3 as (m3 & E3 & S3). apply says_strs in S3. subst m3.
  apply says_part in P4. destruct P4 as (r4 & E4 & S4). apply says_part in P5. destruct P5 as (r5 & E5 & S5). destruct S4 as [-> _].
  destruct S2 as (m2 & E2' & S2). destruct m2 as [|[a1 b1] [|[a2 b2] [|[a3 b3] [|[a4 b4] [|[? ?] ?]]]]]; cbn [pairs] in S2; try tauto. destruct S2 as (-> & [-> _] & -> & [-> _] & -> & [-> _] & -> & [-> _] & _).
  destruct S5 as (m5 & E5' & S5). destruct m5 as [|[a1 b1] [|[a2 b2] [|[? ?] ?]]]; cbn [pairs] in S5; try tauto. destruct S5 as (-> & [-> _] & -> & [-> _] & _).
  unfold bigwig_open. rewrite R. cbn [need]. rewrite E. cbn [need].
  set (m := [(k_featurizer, v1); _; _; _; _; _]).
  change (item k_featurizer m) with v1. rewrite E1. cbn [need].
  change (item k_name [(k_name, feat_name f); (k_recipe, r1)]) with (feat_name f). change (item k_recipe [(k_name, feat_name f); (k_recipe, r1)]) with r1.
  unfold featurizer_make. rewrite (made true voc f _ r1 S1) by lia. cbn [need].
  change (item k_tokenizer m) with v4. rewrite E4. cbn [need].
  change (item k_name [(k_name, tok_name t); (k_recipe, tok_recipe t)]) with (tok_name t). change (item k_recipe [(k_name, tok_name t); (k_recipe, tok_recipe t)]) with (tok_recipe t).
  rewrite tok_back. cbn [bind need]. change (item k_idx m) with v2. rewrite E2. cbn [need]. change (item k_recipe [(k_name, n_bigwig); (k_recipe, r2)]) with r2. rewrite E2'. cbn [need].
  set (ir := [(k_fvalue, c_name v); _; _; _]). change (item k_posting ir) with (c_name p). change (item k_posting_r ir) with (c_recipe p). change (item k_fvalue ir) with (c_name v). change (item k_fvalue_r ir) with (c_recipe v).
  rewrite (proj1 Hp), (proj1 Hv). cbn [need]. change (item k_txt m) with v5. rewrite E5. cbn [need]. change (item k_recipe [(k_name, n_bigwig); (k_recipe, r5)]) with r5. rewrite E5'. cbn [need].
  change (item k_compressor [(k_compressor, c_name x); (k_compressor_r, c_recipe x)]) with (c_name x). change (item k_compressor_r [(k_compressor, c_name x); (k_compressor_r, c_recipe x)]) with (c_recipe x).
  rewrite (proj1 Hx). cbn [need]. change (get parameters m) with (Some v3). cbv beta iota. rewrite E3. cbn [need]. cbv zeta. rewrite St. cbn [need]. reflexivity.
Qed.
Lemma get_plain k ps w : Forall (fun kv => plain_text (snd kv)) ps -> get k ps = Some w -> plain_text w.
Proof. intros F G. apply get_in in G. rewrite Forall_forall in F. apply (F _ G). Qed.
Lemma item_plain k ps : Forall (fun kv => plain_text (snd kv)) ps -> plain_text (item k ps).
Proof. intros F. unfold item. destruct (get k ps) eqn:G; [apply (get_plain k ps _ F G)|apply plain_by; reflexivity]. Qed.
Lemma item_put k w k' ps : item k' (put k w ps) = if eqb_bytes k' k then w else item k' ps.
Proof. unfold item. rewrite get_put. destruct (eqb_bytes k' k); reflexivity. Qed.
Lemma item_put_same k ps k' : item k' (put k (item k ps) ps) = item k' ps.
Proof. rewrite item_put. destruct (eqb_bytes k' k) eqn:E; [apply eqb_bytes_eq in E; subst; reflexivity|reflexivity]. Qed.
Lemma open_inv voc st : inv st -> (get_parameter st k_stemmer = [] \/ get_parameter st k_stemmer = n_porter) ->
  exists st', bigwig_open voc (fst st) = Ok (Some st') /\ inv st' /\ (forall k, get_parameter st' k = get_parameter st k) /\
    b_container (snd st') = get_parameter st k_container /\ stem_name (b_stemmer (snd st')) = get_parameter st k_stemmer /\
    b_merge (snd st') = eqb_bytes (get_parameter st k_merge) [] || okay (get_parameter st k_merge).
Proof.
  intros (H & [O K] & M) Sv. unfold get_parameter in *. destruct st as [file b]. cbn [fst snd] in *. set (ps := b_parameters b) in *. clearbody ps.
  assert (Hs : exists s, match item k_stemmer ps with [] => Some NoStem | _ => stem_make (item k_stemmer ps) end = Some s /\ stem_name s = item k_stemmer ps).
  { destruct Sv as [-> | ->]; [exists NoStem|exists Porter]; split; reflexivity. }
  destruct Hs as (s & Es & Ns). exists (opened file ps s). split; [apply open_held; assumption|]. unfold opened. cbv zeta.
  set (b0 := {| b_featurizer := strip f; b_tokenizer := t; b_posting := p; b_fvalue := v; b_text := x; b_parameters := ps; b_container := []; b_stemmer := NoStem; b_merge := eqb_bytes (item k_merge ps) [] || okay (item k_merge ps) |}).
  assert (I0 : inv (file, b0)).
  { split; [exact H|]. split; [split; assumption|]. split; [split; [apply strip_feature|apply strip_back]|]. repeat split. }
  set (st1 := match item k_stemmer ps with [] => (file, b0) | _ => set_stemmer (file, b0) s end).
  assert (I1 : inv st1 /\ (forall k, item k (b_parameters (snd st1)) = item k ps) /\ b_container (snd st1) = [] /\ stem_name (b_stemmer (snd st1)) = item k_stemmer ps /\ b_merge (snd st1) = eqb_bytes (item k_merge ps) [] || okay (item k_merge ps)).
  { subst st1. destruct (stemmer_inv (file, b0) s I0) as (A & B & C & D & F). rewrite Ns in B. destruct (item k_stemmer ps) as [|c0 w0] eqn:Ew.
    - split; [exact I0|]. repeat split.
    - rewrite <- Ew in *. split; [exact A|]. split; [intros k; rewrite B; apply item_put_same|]. split; [exact C|]. split; [rewrite D; exact Ns|exact F]. }
  clearbody st1. destruct I1 as (A & B & C & D & F). destruct (container_inv st1 (item k_container ps) A (item_plain _ _ K)) as (A' & B' & C' & D' & F').
  destruct (item k_container ps) as [|c0 w0] eqn:Ew; [auto 8|]. rewrite <- Ew in *. split; [exact A'|]. split; [|rewrite D', F'; auto].
  intros k. rewrite B', <- (B k_container), item_put_same. apply B.
Qed.
End Parts.

(** * Histories *)
Definition last_from (k w : bytes) (es : list event) : bytes :=
  fold_left (fun v e => match sets e with Some (k', v') => if eqb_bytes k k' then v' else v | None => v end) es w.
Definition stem_ok (st : store) : Prop := get_parameter st k_stemmer = [] \/ get_parameter st k_stemmer = n_porter.
Lemma happens f t p v x : plain_tags f -> named p -> named v -> named x -> forall st e, inv f t p v x st -> stem_ok st -> proper e ->
  exists st', happen st e = Ok (Some st') /\ inv f t p v x st' /\ stem_ok st' /\ forall k, get_parameter st' k = last_from k (get_parameter st k) [e].
Proof.
  intros Hf Hp Hv Hx st e I S P.
  assert (Put : forall st' k w, inv f t p v x st' -> b_parameters (snd st') = put k w (b_parameters (snd st)) -> sets e = Some (k, w) -> (k = k_stemmer -> w = [] \/ w = n_porter) ->
    inv f t p v x st' /\ stem_ok st' /\ forall k0, get_parameter st' k0 = last_from k0 (get_parameter st k0) [e]).
  { intros st' k w I' B E N. assert (G : forall k0, get_parameter st' k0 = if eqb_bytes k0 k then w else get_parameter st k0) by (intros k0; unfold get_parameter; rewrite B; apply item_put).
    split; [exact I'|]. split.
    - unfold stem_ok. rewrite G. destruct (eqb_bytes k_stemmer k) eqn:Q; [apply eqb_bytes_eq in Q; apply N; congruence|exact S].
    - intros k0. rewrite G. unfold last_from. cbn [fold_left]. rewrite E. reflexivity. }
  destruct e as [k w|c|s|on|voc]; cbn [happen proper] in *.
  - destruct P as (N & W & St). destruct (set_inv f t p v x Hf Hp Hv Hx st k w I N W) as (A & B & _). eexists. split; [reflexivity|]. apply (Put _ k w A B eq_refl St).
  - destruct (container_inv f t p v x Hf Hp Hv Hx st c I P) as (A & B & _). eexists. split; [reflexivity|]. apply (Put _ k_container c A B eq_refl). discriminate.
  - destruct (stemmer_inv f t p v x Hf Hp Hv Hx st s I) as (A & B & _). eexists. split; [reflexivity|]. apply (Put _ k_stemmer (stem_name s) A B); [destruct s; reflexivity|]. intros _. destruct s; [left|right]; reflexivity.
  - destruct (merge_inv f t p v x Hf Hp Hv Hx st on I) as (A & B & _). eexists. split; [reflexivity|]. apply (Put _ k_merge (okay_text on) A B); [destruct on; reflexivity|]. discriminate.
  - destruct (open_inv f t p v x Hf Hp Hv Hx voc st I S) as (st' & E & A & B & _). exists st'. split; [exact E|]. split; [exact A|]. split; [unfold stem_ok; rewrite B; exact S|]. intros k. rewrite B. reflexivity.
Qed.
Lemma last_cons k w e es : last_from k w (e :: es) = last_from k (last_from k w [e]) es.
Proof. reflexivity. Qed.
Lemma histories f t p v x : plain_tags f -> named p -> named v -> named x -> forall es st, inv f t p v x st -> stem_ok st -> Forall proper es ->
  exists st', history st es = Ok (Some st') /\ inv f t p v x st' /\ stem_ok st' /\ forall k, get_parameter st' k = last_from k (get_parameter st k) es.
Proof.
  intros Hf Hp Hv Hx. induction es as [|e es IH]; intros st I S P; [exists st; split; [reflexivity|]; split; [exact I|]; split; [exact S|reflexivity]|]. pose proof (Forall_inv P) as P1. pose proof (Forall_inv_tail P) as P2.
  destruct (happens f t p v x Hf Hp Hv Hx st e I S P1) as (st1 & E1 & I1 & S1 & G1). destruct (IH st1 I1 S1 P2) as (st' & E & I' & S' & G). exists st'. split; [cbn [history]; rewrite E1; cbn [bind]; exact E|]. split; [exact I'|]. split; [exact S'|].
  intros k. rewrite G, G1, last_cons. reflexivity.
Qed.
Lemma make_inv f t p v x : plain_tags f -> named p -> named v -> named x -> inv f t p v x (bigwig_make f t p v x).
Proof.
  intros Hf Hp Hv Hx. assert (K : kept_params []) by (split; [exact I|constructor]). unfold bigwig_make. cbv zeta. split; [|split; [exact K|]].
  - apply recipe_held; assumption.
  - split; [split; reflexivity|repeat split].
Qed.
Lemma kind_held file f t p v x ps : holds_conf file (dna_conf f t p v x ps) -> warren_kind file = Some (lit "bigwig").
Proof.
  intros (dna & R & m & E & P). unfold warren_kind. rewrite R, E. pose proof (pairs_get says k_warren _ m P) as G. change (get k_warren (dna_conf f t p v x ps)) with (Some (Str n_bigwig)) in G. destruct (get k_warren m); [|contradiction]. destruct G as [-> _]. reflexivity.
Qed.
Theorem kept f t p v x es : plain_tags f -> named p -> named v -> named x -> Forall proper es ->
  exists st, history (bigwig_make f t p v x) es = Ok (Some st) /\ made_of (snd st) f t p v x /\ warren_kind (fst st) = Some (lit "bigwig") /\
    forall k, get_parameter st k = last_value k es.
Proof.
  intros Hf Hp Hv Hx P. destruct (histories f t p v x Hf Hp Hv Hx es _ (make_inv f t p v x Hf Hp Hv Hx)) as (st & E & (H & K & M) & S & G); [left; reflexivity|exact P|].
  exists st. split; [exact E|]. split; [exact M|]. split; [apply (kind_held _ _ _ _ _ _ _ H)|]. intros k. rewrite G. reflexivity.
Qed.
Lemma history_app es es' : forall st st', history st es = Ok (Some st') -> history st (es ++ es') = history st' es'.
Proof.
  induction es as [|e es IH]; intros st st' H; cbn [history app] in *; [injection H as ->; reflexivity|]. destruct (happen st e) as [[st1|]| |]; cbn [bind] in *; try discriminate. apply IH, H.
Qed.
Theorem reopened f t p v x es voc : plain_tags f -> named p -> named v -> named x -> Forall proper es ->
  exists st, history (bigwig_make f t p v x) (es ++ [Reopen voc]) = Ok (Some st) /\ b_container (snd st) = last_value (lit "container") es /\
    b_stemmer (snd st) = (if eqb_bytes (last_value (lit "stemmer") es) (lit "porter") then Porter else NoStem) /\
    b_merge (snd st) = (eqb_bytes (last_value (lit "merge") es) [] || okay (last_value (lit "merge") es)).
Proof.
  intros Hf Hp Hv Hx P. destruct (histories f t p v x Hf Hp Hv Hx es _ (make_inv f t p v x Hf Hp Hv Hx)) as (st & E & I & S & G); [left; reflexivity|exact P|].
  destruct (open_inv f t p v x Hf Hp Hv Hx voc st I S) as (st' & E' & _ & _ & C & N & M). exists st'. split; [rewrite (history_app es _ _ st E); cbn [history happen]; rewrite E'; reflexivity|].
  rewrite !G in *. change (last_from k_container (get_parameter (bigwig_make f t p v x) k_container) es) with (last_value (lit "container") es) in C.
  change (last_from k_stemmer (get_parameter (bigwig_make f t p v x) k_stemmer) es) with (last_value (lit "stemmer") es) in N.
  change (last_from k_merge (get_parameter (bigwig_make f t p v x) k_merge) es) with (last_value (lit "merge") es) in M. split; [exact C|]. split; [|exact M].
  rewrite <- N. destruct (b_stemmer (snd st')); reflexivity.
Qed.
Theorem tok_checked name recipe : tok_check name recipe = true <-> exists t, tok_make name recipe = Ok (Some t).
Proof.
  unfold tok_check, tok_make. destruct (eqb_bytes name [] || eqb_bytes name n_ascii).
  - destruct (eqb_bytes recipe []), (eqb_bytes recipe (lit "noxml")), (eqb_bytes recipe (lit "xml")); cbn; split; eauto; try discriminate. intros [t H]. discriminate.
  - destruct (eqb_bytes name n_utf8); [destruct (eqb_bytes recipe [])|]; split; eauto; try discriminate; intros [t H]; discriminate.
Qed.
