(** JSON stored with the UTF-8 tokenizer; sanitizing and escaping. *)
From Coq Require Import Sorting.Permutation Sorting.Sorted.
From Verif Require Import Base Bytes HopperModel CodecModel PostingModel PostingSpec ShardModel TokenModel TokenSpec TextModel TextSpec TextProofs DraftProofs TextBack
  Utf8Table Utf8Model Utf8Spec Utf8Proofs Utf8Laws Utf8Words Utf8Witness JsonModel JsonSpec JsonBack JsonStore JsonRead.

(** * Texts *)
Definition starter (c : Z) : Prop := codepoint c /\ actions c <> Nontoken.
Lemma starter_starts c t : starter c -> hd (-1) (utf8_starts (encode_one c ++ t)) = 0.
Proof.
  intros [C A]. destruct (encode_unit c C) as (b & r & E & L & _). pose proof (unicode_encode c t C) as U. rewrite E in *. cbn [app] in *.
  assert (G : forall z (x : bytes), hd (-1) (map w_offset (ulex t 0 z (Some (x, 0)))) = 0) by (intros z x; destruct (ulex_open t 0 z x 0) as (m & u & ws & W); rewrite W; reflexivity).
  unfold utf8_starts. rewrite (ulex_unit b r t 0 None c) by (rewrite U; reflexivity). cbv zeta. destruct (actions c); [contradiction|apply G|reflexivity|apply G].
Qed.
Lemma encode_last cs z : codepoint z -> z <> 32 -> z <> 9 -> z <> 10 -> white (last (encode (cs ++ [z])) 0) = false.
Proof.
  intros C H1 H2 H3. rewrite encode_app. cbn [encode flat_map]. rewrite app_nil_r.
  assert (L : exists u x, encode_one z = u ++ [x] /\ x <> 32 /\ x <> 9 /\ x <> 10).
  { pose proof (Z.mod_pos_bound z 64 ltac:(lia)). unfold encode_one. destruct (z <? 128); [exists [], z; auto|]. 
    destruct (z <? 2048); [exists [192 + z / 64], (128 + z mod 64); split; [reflexivity|lia]|].
    destruct (z <? 65536); [eexists [_; _], _; split; [reflexivity|lia]|]. eexists [_; _; _], _; split; [reflexivity|lia]. }
  destruct L as (u & x & -> & X1 & X2 & X3). rewrite app_assoc, last_last. unfold white. lia.
Qed.
Lemma encode_whole c cs z : starter c -> Forall codepoint cs -> codepoint z -> z <> 32 -> z <> 9 -> z <> 10 -> 
  whole utf8_ends utf8_starts (encode (c :: cs ++ [z])).
Proof.
  intros Hc Hcs Hz Z1 Z2 Z3. set (t := encode (c :: cs ++ [z])).
  assert (E : closed t = t ++ [10]).
  { unfold closed. pose proof (encode_last (c :: cs) z Hz Z1 Z2 Z3) as L. change ((c :: cs) ++ [z]) with (c :: cs ++ [z]) in L. fold t in L. rewrite L.
    assert (N : t <> []) by (unfold t; cbn [encode flat_map]; destruct (encode_unit c (proj1 Hc)) as (b & r & -> & _); discriminate). destruct t; [contradiction|reflexivity]. }
  split; [apply (starter_starts c (encode (cs ++ [z])) Hc)|]. split; [|exact E]. intros _. rewrite E.
  assert (Ca : Forall codepoint (c :: cs ++ [z])) by (constructor; [apply Hc|]; apply Forall_app; auto).
  destruct (encode_complete _ Ca) as [K1 K2]. exists t, 10. split; [reflexivity|]. split; [exact K2|]. split; [exact K1|exact newline_other].
Qed.
Lemma reserved_starter i : 0 <= i <= 9 -> starter (64976 + i) /\ encode_one (64976 + i) = [239; 183; 144 + i].
Proof.
  intros Hi. assert (C : codepoint (64976 + i)) by (unfold codepoint; lia). split.
  - split; [exact C|]. assert (S : symbol (64976 + i)).
    { pose proof reserved_symbols as R. rewrite Forall_forall in R. apply R. apply in_map_iff. exists (Z.to_nat i). split; [lia|]. apply in_seq. lia. }
    apply (symbol_iff _ C) in S. rewrite S. discriminate.
  - unfold encode_one. replace (64976 + i <? 128) with false by lia. replace (64976 + i <? 2048) with false by lia. replace (64976 + i <? 65536) with true by lia.
    f_equal; [|f_equal; [|f_equal]].
    + replace (64976 + i) with (15 * 4096 + (3536 + i)) by lia. rewrite Z.div_add_l by lia. rewrite Z.div_small by lia. reflexivity.
    + replace (64976 + i) with (1015 * 64 + (16 + i)) by lia. rewrite Z.div_add_l by lia. rewrite (Z.div_small (16 + i)) by lia. reflexivity.
    + replace (64976 + i) with (16 + i + 1015 * 64) by lia. rewrite Z.mod_add by lia. rewrite Z.mod_small by lia. lia.
Qed.
Lemma plain_encode t : Forall plain t -> encode t = t /\ Forall codepoint t.
Proof.
  induction 1 as [|c t Hc Ht [IH1 IH2]]; [split; [reflexivity|constructor]|]. unfold plain in Hc. unfold encode in *. cbn [flat_map]. rewrite IH1. unfold encode_one. replace (c <? 128) with true by lia.
  split; [reflexivity|]. constructor; [unfold codepoint; lia|exact IH2].
Qed.
Ltac reserved i := let C := fresh "C" in let E := fresh "E" in destruct (reserved_starter i ltac:(lia)) as [C E].
Lemma one_whole i : 0 <= i <= 9 -> whole utf8_ends utf8_starts [239; 183; 144 + i].
Proof.
  intros Hi. destruct (reserved_starter i Hi) as [[C A] E]. rewrite <- E. set (c := 64976 + i) in *.
  assert (Ec : encode_one c = encode [c]) by (cbn [encode flat_map]; rewrite app_nil_r; reflexivity).
  assert (Cl : closed (encode_one c) = encode_one c ++ [10]).
  { unfold closed. pose proof (encode_last [] c C ltac:(unfold c; lia) ltac:(unfold c; lia) ltac:(unfold c; lia)) as L. cbn [app] in L. rewrite <- Ec in L. rewrite L, E. reflexivity. }
  split; [rewrite <- (app_nil_r (encode_one c)); apply starter_starts; split; assumption|]. split; [|exact Cl]. intros _. rewrite Cl, Ec.
  destruct (encode_complete [c] ltac:(constructor; [exact C|constructor])) as [K1 K2]. exists (encode [c]), 10. split; [reflexivity|]. split; [exact K2|]. split; [exact K1|exact newline_other].
Qed.
Lemma wrapped_whole i k s cs : 0 <= i <= 9 -> 0 <= k <= 9 -> s = encode cs -> Forall codepoint cs -> whole utf8_ends utf8_starts ([239; 183; 144 + i] ++ s ++ [239; 183; 144 + k]).
Proof.
  intros Hi Hk -> Hcs. destruct (reserved_starter i Hi) as [Si Ei]. destruct (reserved_starter k Hk) as [Sk Ek]. rewrite <- Ei, <- Ek.
  replace (encode_one (64976 + i) ++ encode cs ++ encode_one (64976 + k)) with (encode ((64976 + i) :: cs ++ [64976 + k])).
  - apply encode_whole; try assumption; [apply Sk|lia..].
  - cbn [encode flat_map]. fold (encode (cs ++ [64976 + k])). rewrite encode_app. cbn [encode flat_map]. rewrite app_nil_r. reflexivity.
Qed.
Lemma clean_codes s : clean_string s -> exists cs, s = encode cs /\ Forall codepoint cs.
Proof. intros (cs & E & H). exists cs. split; [exact E|]. refine (Forall_impl _ _ H). intros c [K _]. unfold codepoint. lia. Qed.
Lemma word_whole c t z : starter c -> Forall plain (c :: t ++ [z]) -> whole utf8_ends utf8_starts (c :: t ++ [z]).
Proof.
  intros S H. destruct (plain_encode _ H) as [E C]. rewrite <- E. apply encode_whole; [exact S| | |..].
  - inversion C as [|? ? ? K]. apply Forall_app in K. apply K.
  - inversion C as [|? ? ? K]. apply Forall_app in K. destruct K as [_ K]. inversion K; assumption.
  - assert (P : plain z) by (inversion H as [|? ? ? K]; apply Forall_app in K; destruct K as [_ K]; inversion K; assumption). unfold plain in P. lia.
  - assert (P : plain z) by (inversion H as [|? ? ? K]; apply Forall_app in K; destruct K as [_ K]; inversion K; assumption). unfold plain in P. lia.
  - assert (P : plain z) by (inversion H as [|? ? ? K]; apply Forall_app in K; destruct K as [_ K]; inversion K; assumption). unfold plain in P. lia.
Qed.
Lemma letters_start : actions 110 <> Nontoken /\ actions 116 <> Nontoken /\ actions 102 <> Nontoken.
Proof. vm_compute. repeat split; discriminate. Qed.
Ltac ascii := repeat (apply Forall_cons; [unfold plain; lia|]); apply Forall_nil.
Section Clean.
Context (reads : bytes -> Z -> Prop) (to_string : Z -> bytes).
Notation pieces := (pieces to_string).
Theorem clean_full : forall j, clean reads to_string j -> full utf8_ends utf8_starts to_string j.
Proof.
  apply (json_nested (fun j => clean reads to_string j -> Forall (whole utf8_ends utf8_starts) (pieces j))).
  - intros _. constructor; [|constructor]. change (lit "null") with (110 :: [117; 108] ++ [108]). apply word_whole; [split; [unfold codepoint; lia|apply letters_start]|ascii].
  - intros [|] _; (constructor; [|constructor]).
    + change (lit "true") with (116 :: [114; 117] ++ [101]). apply word_whole; [split; [unfold codepoint; lia|apply letters_start]|ascii].
    + change (lit "false") with (102 :: [97; 108; 115] ++ [101]). apply word_whole; [split; [unfold codepoint; lia|apply letters_start]|ascii].
  - intros v H. assert (K : number_text (to_string v)) by (inversion H; assumption). destruct (number_plain _ K) as [P _]. destruct (plain_encode _ P) as [E C].
    constructor; [|constructor]. apply (wrapped_whole 8 9 _ (to_string v)); [lia|lia|symmetry; exact E|exact C].
  - intros s H. assert (K : clean_string s) by (inversion H; assumption). destruct (clean_codes s K) as (cs & E & C). constructor; [|constructor].
    apply (wrapped_whole 4 5 _ cs); [lia|lia|exact E|exact C].
  - intros l IH H. assert (K : Forall (clean reads to_string) l) by (inversion H; assumption). rewrite pieces_arr. constructor; [exact (one_whole 2 ltac:(lia))|].
    apply Forall_app. split; [|constructor; [exact (one_whole 3 ltac:(lia))|constructor]]. clear H. generalize true as b. revert K.
    induction IH as [|x r Hx Hr IHr]; intros K b; [constructor|]. cbn [element_pieces]. apply Forall_app. split; [destruct b; [constructor|constructor; [exact (one_whole 7 ltac:(lia))|constructor]]|].
    apply Forall_app. split; [apply Hx; inversion K; assumption|apply IHr; inversion K; assumption].
  - intros l IH H. assert (K : Forall (fun m => clean_string (fst m) /\ clean reads to_string (snd m)) l) by (inversion H; assumption). rewrite pieces_obj. constructor; [exact (one_whole 0 ltac:(lia))|].
    apply Forall_app. split; [|constructor; [exact (one_whole 1 ltac:(lia))|constructor]]. clear H. generalize true as b. revert K.
    induction IH as [|[key x] r Hx Hr IHr]; intros K b; [constructor|]. cbn [member_pieces]. assert (Kx : clean_string key /\ clean reads to_string x) by (inversion K; assumption). destruct Kx as [Kk Kx].
    apply Forall_app. split; [destruct b; [constructor|constructor; [exact (one_whole 7 ltac:(lia))|constructor]]|].
    constructor.
    + destruct (clean_codes key Kk) as (cs & E & C). destruct (reserved_starter 5 ltac:(lia)) as [S5 E5].
      replace (open_string ++ key ++ close_string ++ colon) with ([239; 183; 144 + 4] ++ (key ++ encode_one (64976 + 5)) ++ [239; 183; 144 + 6]) by (rewrite E5, <- !app_assoc; reflexivity).
      apply (wrapped_whole 4 6 _ (cs ++ [64976 + 5])); [lia|lia| |].
      * rewrite encode_app, E. cbn [encode flat_map]. rewrite app_nil_r. reflexivity.
      * apply Forall_app. split; [exact C|]. constructor; [apply S5|constructor].
    + apply Forall_app. split; [apply Hx, Kx|apply IHr; inversion K; assumption].
Qed.
End Clean.
Notation shown reads show w p q u := (spells reads (json_translate (show (p - staging + w, q - staging + w))) u).
Theorem json_back : forall featurize to_string reads chunk transaction sort, null_feature < chunk -> transaction <> chunk -> (forall l, sort_result l (sort l)) ->
  forall vs w seq, Forall (clean reads to_string) vs -> Forall (avoids (utokenize featurize) featurize to_string chunk) vs -> 0 <= w ->
  let d := scribe_all (utokenize featurize) chunk featurize to_string vs draft_init in
  w + (d_address d - staging) <= staging ->
  Z.of_nat (length (d_annotations (appender_ready chunk transaction d))) <= 2305843009213693951 ->
  exists m x (show : Z * Z -> bytes), ready chunk transaction sort w seq d = Ok m /\ fiver_txt chunk m = Ok x /\
    (forall l, Forall (fun pq => minf <= fst pq <= maxf /\ minf <= snd pq < maxf) l -> translate_all uskip x l = Ok (map show l)) /\
    (forall us v rest, vs = us ++ v :: rest ->
      (exists p q, snd (do_json (utokenize featurize) chunk featurize to_string v (lit ":") (scribe_all (utokenize featurize) chunk featurize to_string us draft_init)) = (p, q) /\
         staging <= p <= q /\ q < d_address d /\ shown reads show w p q v) /\
      (forall u path, inside v (lit ":") u path -> null_feature < featurize path ->
         exists p q y, In (Ann (featurize path) (Iv p q y)) (d_annotations d) /\ carried u y /\ shown reads show w p q u) /\
      (forall u key, member_of v (lit ":") u key -> null_feature < featurize (key ++ lit ":") ->
         exists p q y, In (Ann (featurize (key ++ lit ":")) (Iv p q y)) (d_annotations d) /\ double_of 0 y /\ shown reads show w p q u)) /\
    (forall f p q y, In (Ann f (Iv p q y)) (d_annotations d) -> f <> chunk ->
      (exists v t k, In v vs /\ In t (pieces to_string v) /\ In k (utokenize featurize t) /\ f = t_feature k) \/
      (exists v u, In v vs /\ shown reads show w p q u /\
         ((exists path, inside v (lit ":") u path /\ f = featurize path /\ carried u y) \/ (exists key, member_of v (lit ":") u key /\ f = featurize (key ++ lit ":") /\ double_of 0 y)))).
Proof.
  intros featurize to_string reads chunk transaction sort Hc Ht Hs vs w seq Hv.
  refine (values_back (utokenize featurize) uskip utf8_ends utf8_starts (utf8_laws featurize) chunk transaction featurize to_string reads Hc Ht sort Hs vs w seq Hv _).
  apply (Forall_impl _ (clean_full reads to_string) Hv).
Qed.

(** * Sanitizing *)
Lemma three_bytes c : 2048 <= c < 65536 -> let a := c / 4096 in let b := c / 64 mod 64 in let d := c mod 64 in
  0 <= a < 16 /\ 0 <= b < 64 /\ 0 <= d < 64 /\ c = 4096 * a + 64 * b + d.
Proof.
  intros H a b d. pose proof (Z.mod_pos_bound c 64 ltac:(lia)). pose proof (Z.mod_pos_bound (c / 64) 64 ltac:(lia)).
  assert (c / 4096 < 16) by (apply Z.div_lt_upper_bound; lia). assert (0 <= c / 4096) by (apply Z.div_pos; lia).
  pose proof (Z.div_mod c 64 ltac:(lia)). pose proof (Z.div_mod (c / 64) 64 ltac:(lia)).
  replace (c / 64 / 64) with (c / 4096) in * by (rewrite Z.div_div by lia; reflexivity). unfold a, b, d. lia.
Qed.
Lemma noncharacters_step c r : noncharacters_from (c :: r) 0 = if c =? 0 then false else noncharacters_from r (if c =? 239 then 1 else 0).
Proof. reflexivity. Qed.
Lemma noncharacters_one c r : 0 < c < 2097152 -> noncharacters_from (encode_one c ++ r) 0 = ((64960 <=? c) && (c <=? 65023)) || noncharacters_from r 0.
Proof.
  intros Hc. unfold encode_one.
  pose proof (Z.mod_pos_bound c 64 ltac:(lia)). pose proof (Z.mod_pos_bound (c / 64) 64 ltac:(lia)). pose proof (Z.mod_pos_bound (c / 4096) 64 ltac:(lia)).
  destruct (Z.ltb_spec c 128); [|destruct (Z.ltb_spec c 2048); [|destruct (Z.ltb_spec c 65536)]]; cbn [app].
  - rewrite noncharacters_step. replace (c =? 0) with false by lia. replace (c =? 239) with false by lia. replace ((64960 <=? c) && (c <=? 65023)) with false by lia. reflexivity.
  - assert (c / 64 < 32) by (apply Z.div_lt_upper_bound; lia). assert (2 <= c / 64) by (apply Z.div_le_lower_bound; lia).
    rewrite noncharacters_step. replace (192 + c / 64 =? 0) with false by lia. replace (192 + c / 64 =? 239) with false by lia.
    rewrite noncharacters_step. replace (128 + c mod 64 =? 0) with false by lia. replace (128 + c mod 64 =? 239) with false by lia.
    replace ((64960 <=? c) && (c <=? 65023)) with false by lia. reflexivity.
  - destruct (three_bytes c ltac:(lia)) as (A & B & D & E). set (x := c / 4096) in *. set (y := c / 64 mod 64) in *. set (z := c mod 64) in *.
    rewrite noncharacters_step. replace (224 + x =? 0) with false by lia. destruct (Z.eqb_spec (224 + x) 239) as [X|X].
    + cbn [noncharacters_from]. change (1 =? 0) with false. change (1 =? 1) with true. cbv iota. replace (128 + y =? 0) with false by lia.
      destruct (Z.eqb_spec (128 + y) 183) as [Y|Y].
      * change (2 =? 0) with false. change (2 =? 1) with false. cbv iota. replace (128 + z =? 0) with false by lia.
        assert (V : (char 144 <=? char (128 + z)) || (char (128 + z) <=? char 175) = true).
        { change (char 144) with (-112). change (char 175) with (-81). unfold char. replace (128 + z <? 128) with false by lia. lia. }
        rewrite V. replace ((64960 <=? c) && (c <=? 65023)) with true by lia. reflexivity.
      * change (0 =? 0) with true. cbv iota. replace (128 + z =? 0) with false by lia. replace (128 + z =? 239) with false by lia. replace ((64960 <=? c) && (c <=? 65023)) with false by lia. reflexivity.
    + rewrite noncharacters_step. replace (128 + y =? 0) with false by lia. replace (128 + y =? 239) with false by lia.
      rewrite noncharacters_step. replace (128 + z =? 0) with false by lia. replace (128 + z =? 239) with false by lia.
      replace ((64960 <=? c) && (c <=? 65023)) with false by lia. reflexivity.
  - assert (c / 262144 < 8) by (apply Z.div_lt_upper_bound; lia). assert (0 <= c / 262144) by (apply Z.div_pos; lia).
    rewrite noncharacters_step. replace (240 + c / 262144 =? 0) with false by lia. replace (240 + c / 262144 =? 239) with false by lia.
    rewrite noncharacters_step. replace (128 + c / 4096 mod 64 =? 0) with false by lia. replace (128 + c / 4096 mod 64 =? 239) with false by lia.
    rewrite noncharacters_step. replace (128 + c / 64 mod 64 =? 0) with false by lia. replace (128 + c / 64 mod 64 =? 239) with false by lia.
    rewrite noncharacters_step. replace (128 + c mod 64 =? 0) with false by lia. replace (128 + c mod 64 =? 239) with false by lia.
    replace ((64960 <=? c) && (c <=? 65023)) with false by lia. reflexivity.
Qed.
Lemma sanitize_other c r : c <> 0 -> c <> 239 -> sanitize_from (c :: r) 0 = c :: sanitize_from r 0.
Proof.
  intros H0 H1. cbn [sanitize_from]. replace (c =? 0) with false by lia.
  assert (N : noncharacter_next (c :: r) = false) by (unfold noncharacter_next; destruct r as [|x [|y r]]; [reflexivity..|]; replace (c =? 239) with false by lia; reflexivity). rewrite N. reflexivity.
Qed.
Lemma sanitize_keep c r : c <> 0 -> noncharacter_next (c :: r) = false -> sanitize_from (c :: r) 0 = c :: sanitize_from r 0.
Proof. intros H0 N. cbn [sanitize_from]. replace (c =? 0) with false by lia. rewrite N. reflexivity. Qed.
Lemma sanitize_one c r : 0 < c < 2097152 -> sanitize_from (encode_one c ++ r) 0 = encode_one (mapped c) ++ sanitize_from r 0.
Proof.
  intros Hc. unfold mapped. assert (M : encode_one 65533 = [239; 191; 189]) by reflexivity.
  pose proof (Z.mod_pos_bound c 64 ltac:(lia)). pose proof (Z.mod_pos_bound (c / 64) 64 ltac:(lia)). pose proof (Z.mod_pos_bound (c / 4096) 64 ltac:(lia)).
  unfold encode_one at 1. destruct (Z.ltb_spec c 128); [|destruct (Z.ltb_spec c 2048); [|destruct (Z.ltb_spec c 65536)]]; cbn [app].
  - replace ((64976 <=? c) && (c <=? 65023)) with false by lia. unfold encode_one. replace (c <? 128) with true by lia. apply sanitize_other; lia.
  - assert (c / 64 < 32) by (apply Z.div_lt_upper_bound; lia). assert (2 <= c / 64) by (apply Z.div_le_lower_bound; lia).
    replace ((64976 <=? c) && (c <=? 65023)) with false by lia. unfold encode_one. replace (c <? 128) with false by lia. replace (c <? 2048) with true by lia.
    rewrite !sanitize_other by lia. reflexivity.
  - destruct (three_bytes c ltac:(lia)) as (A & B & D & E).
    assert (Ec : encode_one c = [224 + c / 4096; 128 + c / 64 mod 64; 128 + c mod 64]) by (unfold encode_one; replace (c <? 128) with false by lia; replace (c <? 2048) with false by lia; replace (c <? 65536) with true by lia; reflexivity).
    set (x := c / 4096) in *. set (y := c / 64 mod 64) in *. set (z := c mod 64) in *.
    assert (N : noncharacter_next (224 + x :: 128 + y :: 128 + z :: r) = ((64976 <=? c) && (c <=? 65023))).
    { unfold noncharacter_next. change (char 144) with (-112). change (char 175) with (-81). unfold char. replace (128 + z <? 128) with false by lia. lia. }
    destruct ((64976 <=? c) && (c <=? 65023)) eqn:Q.
    + cbn [sanitize_from]. rewrite N. replace (224 + x =? 0) with false by lia. rewrite M. reflexivity.
    + assert (X : 224 + x <> 0) by lia. rewrite (sanitize_keep _ _ X N), !sanitize_other, Ec by lia. reflexivity.
  - assert (c / 262144 < 8) by (apply Z.div_lt_upper_bound; lia). assert (0 <= c / 262144) by (apply Z.div_pos; lia).
    replace ((64976 <=? c) && (c <=? 65023)) with false by lia. unfold encode_one. replace (c <? 128) with false by lia. replace (c <? 2048) with false by lia. replace (c <? 65536) with false by lia.
    rewrite !sanitize_other by lia. reflexivity.
Qed.
Theorem prepared_encode : forall cs, Forall (fun c => 0 < c < 2097152) cs -> prepared (encode cs) = encode (map mapped cs).
Proof.
  intros cs H. unfold prepared. destruct (contains_noncharacters (encode cs)) eqn:E.
  - clear E. unfold sanitize. induction H as [|c cs Hc Hcs IH]; [reflexivity|]. cbn [encode flat_map map]. rewrite sanitize_one by exact Hc. unfold encode in IH. rewrite IH. reflexivity.
  - unfold contains_noncharacters in E. induction H as [|c cs Hc Hcs IH]; [reflexivity|]. cbn [encode flat_map map] in *. rewrite noncharacters_one in E by exact Hc. apply orb_false_elim in E. destruct E as [E1 E2].
    unfold encode in IH. rewrite <- IH by exact E2. f_equal. unfold mapped. replace ((64976 <=? c) && (c <=? 65023)) with false by lia. reflexivity.
Qed.
(** * Escaping *)
Lemma hex_digit_ok d : 0 <= d < 16 -> hex_value (hex_digit d) d.
Proof. intros H. unfold hex_value, hex_digit. destruct (Z.ltb_spec d 10); lia. Qed.
Lemma encode_char_ok c t s : is_byte c -> chars t s -> chars (encode_char c ++ t) (c :: s).
Proof.
  intros B H. unfold encode_char, is_byte in *.
  destruct (Z.eqb_spec c 34) as [->|]; [cbn [app]; constructor; [constructor|exact H]|].
  destruct (Z.eqb_spec c 92) as [->|]; [cbn [app]; constructor; [constructor|exact H]|].
  destruct (Z.eqb_spec c 8) as [->|]; [cbn [app]; constructor; [constructor|exact H]|].
  destruct (Z.eqb_spec c 12) as [->|]; [cbn [app]; constructor; [constructor|exact H]|].
  destruct (Z.eqb_spec c 10) as [->|]; [cbn [app]; constructor; [constructor|exact H]|].
  destruct (Z.eqb_spec c 13) as [->|]; [cbn [app]; constructor; [constructor|exact H]|].
  destruct (Z.eqb_spec c 9) as [->|]; [cbn [app]; constructor; [constructor|exact H]|].
  destruct (Z.ltb_spec c 32); [|cbn [app]; constructor; [lia..|exact H]].
  pose proof (Z.div_mod c 16 ltac:(lia)). pose proof (Z.mod_pos_bound c 16 ltac:(lia)). assert (0 <= c / 16 < 2) by (split; [apply Z.div_pos; lia|apply Z.div_lt_upper_bound; lia]).
  pose proof (Chars_hex 48 48 (hex_digit (c / 16)) (hex_digit (c mod 16)) c t s) as K. unfold encode_one in K. replace (c <? 128) with true in K by lia. cbn [app] in *. apply K; [|lia|exact H].
  exists 0, 0, (c / 16), (c mod 16). split; [left; lia|]. split; [left; lia|]. split; [apply hex_digit_ok; lia|]. split; [apply hex_digit_ok; lia|lia].
Qed.
Theorem json_encode_ok : forall s, Forall is_byte s -> exists t, json_encode s = open_string ++ t ++ close_string /\ chars t s.
Proof.
  intros s H. exists (flat_map encode_char s). split; [reflexivity|]. induction H as [|c s Hc Hs IH]; [constructor|]. cbn [flat_map]. apply encode_char_ok; assumption.
Qed.
