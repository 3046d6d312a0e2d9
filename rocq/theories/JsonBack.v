(** Stored JSON turned back: json_translate of what a clean value is stored as spells it. *)
From Verif Require Import Base Bytes CodecModel TokenModel TextModel TextSpec Utf8Spec Utf8Laws JsonModel JsonSpec.

(** Induction over nested values. *)
Section JsonInd.
Context (P : json -> Prop) (HN : P Null) (HB : forall b, P (Boolean b)) (HV : forall v, P (Num v)) (HS : forall s, P (Str s))
  (HA : forall l, Forall P l -> P (Arr l)) (HO : forall l, Forall (fun m => P (snd m)) l -> P (Obj l)).
Fixpoint json_nested (j : json) : P j :=
  match j with
  | Null => HN
  | Boolean b => HB b
  | Num v => HV v
  | Str s => HS s
  | Arr l => HA l ((fix go (l : list json) : Forall P l :=
      match l with [] => Forall_nil _ | x :: r => Forall_cons x (json_nested x) (go r) end) l)
  | Obj l => HO l ((fix go (l : list (bytes * json)) : Forall (fun m => P (snd m)) l :=
      match l with [] => Forall_nil _ | m :: r => Forall_cons m (json_nested (snd m)) (go r) end) l)
  end.
End JsonInd.

Local Arguments Z.eqb !_ !_ : simpl nomatch.
Local Arguments Z.leb !_ !_ : simpl nomatch.
Local Arguments Z.ltb !_ !_ : simpl nomatch.
Notation tr s := (json_translate_from s 0).

(** * Tokens of the store *)
Definition pend (p : bool) : bytes := if p then [32] else [].
Ltac token := intros b i p; cbn; destruct p; reflexivity.
Lemma tr_open_object : forall b i p, tr (open_object ++ b) i p = pend p ++ 123 :: tr b i false. Proof. token. Qed.
Lemma tr_close_object : forall b i p, tr (close_object ++ b) i p = pend p ++ 125 :: tr b i false. Proof. token. Qed.
Lemma tr_open_array : forall b i p, tr (open_array ++ b) i p = pend p ++ 91 :: tr b i false. Proof. token. Qed.
Lemma tr_close_array : forall b i p, tr (close_array ++ b) i p = pend p ++ 93 :: tr b i false. Proof. token. Qed.
Lemma tr_open_string : forall b i p, tr (open_string ++ b) i p = pend p ++ 34 :: tr b true false. Proof. token. Qed.
Lemma tr_close_string : forall b i p, tr (close_string ++ b) i p = pend p ++ 34 :: tr b false false. Proof. token. Qed.
Lemma tr_colon : forall b i p, tr (colon ++ b) i p = pend p ++ 58 :: tr b i false. Proof. token. Qed.
Lemma tr_comma : forall b i p, tr (comma ++ b) i p = pend p ++ 44 :: tr b i false. Proof. token. Qed.
Lemma tr_open_number : forall b i p, tr (open_number ++ b) i p = pend p ++ tr b i false. Proof. token. Qed.
Lemma tr_close_number : forall b i p, tr (close_number ++ b) i p = pend p ++ tr b i false. Proof. token. Qed.
Lemma tr_newline b i p : tr (10 :: b) i p = tr b i true.
Proof. cbn. destruct b as [|x [|y b]]; reflexivity. Qed.
(** A byte that starts no token. *)
Lemma not_next c r t : c <> 239 -> In t [open_object; close_object; open_array; close_array; open_string; close_string; colon; comma; open_number; close_number] ->
  is_next (c :: r) t = false.
Proof.
  intros Hc Ht. assert (E : exists y z, t = [239; y; z]) by (repeat (destruct Ht as [<-|Ht]; [eexists _, _; reflexivity|]); destruct Ht). destruct E as (y & z & ->).
  destruct r as [|b [|d r]]; [reflexivity..|]. cbn [is_next]. replace (c =? 239) with false by lia. reflexivity.
Qed.
Lemma tr_byte c b i : c <> 239 -> c <> 0 -> c <> 10 ->
  tr (c :: b) i false = (if i && (c =? 34) then [92; 34] else if i && (c =? 92) then [92; 92] else [c]) ++ tr b i false.
Proof.
  intros H1 H2 H3. cbn [json_translate_from].
  rewrite !(not_next c b) by (try exact H1; cbn; tauto). cbn [orb]. replace (c =? 0) with false by lia. replace (c =? 10) with false by lia.
  rewrite andb_false_r. cbn [app]. destruct i; cbn [andb]; [|reflexivity]. destruct (c =? 34); [reflexivity|]. destruct (c =? 92); reflexivity.
Qed.
Lemma tr_pending c b : c <> 239 -> c <> 0 -> c <> 10 -> c <> 32 -> tr (c :: b) false true = 32 :: tr (c :: b) false false.
Proof.
  intros H1 H2 H3 H4. rewrite tr_byte by assumption. cbn [json_translate_from].
  rewrite !(not_next c b) by (try exact H1; cbn; tauto). cbn [orb andb]. replace (c =? 0) with false by lia. replace (c =? 10) with false by lia. replace (c =? 32) with false by lia.
  reflexivity.
Qed.

(** * Strings *)
Definition allowed (c : Z) : Prop := 32 <= c < 2097152 /\ ~ (64976 <= c <= 64985).
Lemma tr_codepoint c b : allowed c ->
  exists t, tr (encode_one c ++ b) true false = t ++ tr b true false /\ forall u s, chars u s -> chars (t ++ u) (encode_one c ++ s).
Proof.
  intros [Hc Hr]. unfold encode_one.
  pose proof (Z.mod_pos_bound c 64 ltac:(lia)). pose proof (Z.mod_pos_bound (c / 64) 64 ltac:(lia)). pose proof (Z.mod_pos_bound (c / 4096) 64 ltac:(lia)).
  destruct (Z.ltb_spec c 128); [|destruct (Z.ltb_spec c 2048); [|destruct (Z.ltb_spec c 65536)]]; cbn [app].
  - rewrite tr_byte by lia. cbn [andb]. destruct (Z.eqb_spec c 34) as [->|N1]; [|destruct (Z.eqb_spec c 92) as [->|N2]]; (eexists; split; [reflexivity|]);
      intros u s Hu; cbn [app]; constructor; try exact Hu; try constructor; lia.
  - assert (c / 64 < 32) by (apply Z.div_lt_upper_bound; lia). assert (2 <= c / 64) by (apply Z.div_le_lower_bound; lia).
    rewrite !tr_byte by lia. replace (true && (192 + c / 64 =? 34)) with false by lia. replace (true && (192 + c / 64 =? 92)) with false by lia.
    replace (true && (128 + c mod 64 =? 34)) with false by lia. replace (true && (128 + c mod 64 =? 92)) with false by lia.
    exists [192 + c / 64; 128 + c mod 64]. split; [reflexivity|]. intros u s Hu. cbn [app]. do 2 (constructor; [lia..|]). exact Hu.
  - assert (c / 4096 < 16) by (apply Z.div_lt_upper_bound; lia). assert (0 <= c / 4096) by (apply Z.div_pos; lia).
    exists [224 + c / 4096; 128 + c / 64 mod 64; 128 + c mod 64]. split; [|intros u s Hu; cbn [app]; do 3 (constructor; [lia..|]); exact Hu].
    assert (E : tr (224 + c / 4096 :: 128 + c / 64 mod 64 :: 128 + c mod 64 :: b) true false =
      (224 + c / 4096) :: tr (128 + c / 64 mod 64 :: 128 + c mod 64 :: b) true false).
    { assert (N : forall k, 0 <= k <= 9 -> is_next (224 + c / 4096 :: 128 + c / 64 mod 64 :: 128 + c mod 64 :: b) [239; 183; 144 + k] = false).
      { intros k Hk. cbn [is_next]. apply not_true_iff_false. intros E. apply andb_prop in E. destruct E as [E E3]. apply andb_prop in E. destruct E as [E1 E2].
        apply Hr. pose proof (Z.div_mod c 64 ltac:(lia)). pose proof (Z.div_mod (c / 64) 64 ltac:(lia)).
        replace (c / 64 / 64) with (c / 4096) in * by (rewrite Z.div_div by lia; reflexivity). lia. }
      pose proof (N 0 ltac:(lia)) as N0. pose proof (N 1 ltac:(lia)) as N1. pose proof (N 2 ltac:(lia)) as N2. pose proof (N 3 ltac:(lia)) as N3. pose proof (N 4 ltac:(lia)) as N4.
      pose proof (N 5 ltac:(lia)) as N5. pose proof (N 6 ltac:(lia)) as N6. pose proof (N 7 ltac:(lia)) as N7. pose proof (N 8 ltac:(lia)) as N8. pose proof (N 9 ltac:(lia)) as N9.
      change [239; 183; 144 + 0] with open_object in N0. change [239; 183; 144 + 1] with close_object in N1. change [239; 183; 144 + 2] with open_array in N2. change [239; 183; 144 + 3] with close_array in N3.
      change [239; 183; 144 + 4] with open_string in N4. change [239; 183; 144 + 5] with close_string in N5. change [239; 183; 144 + 6] with colon in N6. change [239; 183; 144 + 7] with comma in N7.
      change [239; 183; 144 + 8] with open_number in N8. change [239; 183; 144 + 9] with close_number in N9.
      cbn [json_translate_from]. rewrite N0, N1, N2, N3, N4, N5, N6, N7, N8, N9. replace (224 + c / 4096 =? 0) with false by lia. replace (224 + c / 4096 =? 10) with false by lia.
      replace (224 + c / 4096 =? 34) with false by lia. replace (224 + c / 4096 =? 92) with false by lia. rewrite andb_false_r. reflexivity. }
    rewrite E. rewrite !tr_byte by lia. 
    replace (true && (128 + c / 64 mod 64 =? 34)) with false by lia. replace (true && (128 + c / 64 mod 64 =? 92)) with false by lia.
    replace (true && (128 + c mod 64 =? 34)) with false by lia. replace (true && (128 + c mod 64 =? 92)) with false by lia. reflexivity.
  - assert (c / 262144 < 8) by (apply Z.div_lt_upper_bound; lia). assert (0 <= c / 262144) by (apply Z.div_pos; lia).
    rewrite !tr_byte by lia. replace (true && (240 + c / 262144 =? 34)) with false by lia. replace (true && (240 + c / 262144 =? 92)) with false by lia.
    replace (true && (128 + c / 4096 mod 64 =? 34)) with false by lia. replace (true && (128 + c / 4096 mod 64 =? 92)) with false by lia.
    replace (true && (128 + c / 64 mod 64 =? 34)) with false by lia. replace (true && (128 + c / 64 mod 64 =? 92)) with false by lia.
    replace (true && (128 + c mod 64 =? 34)) with false by lia. replace (true && (128 + c mod 64 =? 92)) with false by lia.
    eexists [_; _; _; _]. split; [reflexivity|]. intros u s Hu. cbn [app]. do 4 (constructor; [lia..|]). exact Hu.
Qed.
Lemma tr_string s b : clean_string s -> exists t, chars t s /\ tr (s ++ b) true false = t ++ tr b true false.
Proof.
  intros (cs & -> & H). revert H. induction cs as [|c cs IH]; intros H; [exists []; split; [constructor|reflexivity]|].
  destruct IH as (t & A & B); [inversion H; assumption|]. cbn [encode flat_map]. rewrite <- app_assoc.
  destruct (tr_codepoint c (encode cs ++ b)) as (u & E & F); [inversion H; assumption|]. exists (u ++ t). split; [apply F, A|].
  unfold encode in *. rewrite E, B, app_assoc. reflexivity.
Qed.
(** * Numbers and names *)
Definition plain (c : Z) : Prop := 33 <= c < 128.
Lemma tr_plain t b : Forall plain t -> tr (t ++ b) false false = t ++ tr b false false.
Proof.
  induction 1 as [|c t Hc Ht IH]; [reflexivity|]. cbn [app]. unfold plain in Hc. rewrite tr_byte by lia. cbn [andb app]. rewrite IH. reflexivity.
Qed.
Lemma tr_word t b p : Forall plain t -> t <> [] -> tr (t ++ b) false p = pend p ++ t ++ tr b false false.
Proof.
  intros H Hn. destruct p; [|apply tr_plain, H]. destruct t as [|c t]; [contradiction|]. pose proof (tr_plain _ b H) as E. cbn [app] in *.
  assert (Hc : plain c) by (inversion H; assumption). unfold plain in Hc. rewrite tr_pending by lia. rewrite E. reflexivity.
Qed.
Lemma digits_plain t : digits t -> Forall plain t.
Proof. intros [_ H]. apply (Forall_impl plain (fun c (K : 48 <= c <= 57) => ltac:(unfold plain; lia)) H). Qed.
Lemma number_plain t : number_text t -> Forall plain t /\ t <> [].
Proof.
  intros (m & i & f & e & -> & Hm & Hi & _ & Hf & He). split.
  - apply Forall_app. split; [destruct Hm as [->| ->]; repeat constructor; unfold plain; lia|]. apply Forall_app. split; [apply digits_plain, Hi|].
    apply Forall_app. split.
    + destruct Hf as [->|(x & -> & Hx)]; [constructor|]. constructor; [unfold plain; lia|apply digits_plain, Hx].
    + destruct He as [->|(k & g & x & -> & Hk & Hg & Hx)]; [constructor|]. constructor; [unfold plain; lia|]. apply Forall_app. split; [|apply digits_plain, Hx].
      destruct Hg as [->|[->| ->]]; repeat constructor; unfold plain; lia.
  - destruct Hi as [Hi _]. destruct i; [contradiction|]. destruct m; discriminate.
Qed.

(** * Values *)
Definition stored (ps : list bytes) : bytes := flat_map (fun t => t ++ [10]) ps.
Lemma stored_app a b : stored (a ++ b) = stored a ++ stored b. Proof. apply flat_map_app. Qed.
Lemma stored_one t ps b : stored (t :: ps) ++ b = t ++ 10 :: stored ps ++ b.
Proof. unfold stored. cbn [flat_map]. rewrite <- !app_assoc. reflexivity. Qed.
Lemma blank_space : blank [32]. Proof. repeat constructor. Qed.
Section Back.
Context (reads : bytes -> Z -> Prop) (to_string : Z -> bytes).
Notation good := (fun j => clean reads to_string j -> forall b p, exists t, spells reads t j /\
  tr (stored (pieces to_string j) ++ b) false p = pend p ++ t ++ tr b false true).
Lemma word_back j t : pieces to_string j = [t] -> Forall plain t -> t <> [] -> spells reads t j -> forall b p, exists t, spells reads t j /\
  tr (stored (pieces to_string j) ++ b) false p = pend p ++ t ++ tr b false true.
Proof.
  intros E H Hn Sp b p. exists t. split; [exact Sp|]. rewrite E, stored_one, tr_word by assumption. rewrite tr_newline. reflexivity.
Qed.
Ltac plains := unfold plain, lit; cbn; repeat (apply Forall_cons; [lia|]); apply Forall_nil.
Lemma elements_back l : Forall good l -> Forall (clean reads to_string) l -> l <> [] ->
  forall b, exists t, elements reads t l /\
  tr (stored ((fix go (l : list json) (first : bool) : list bytes :=
      match l with
      | [] => []
      | x :: r => (if first then [] else [comma]) ++ pieces to_string x ++ go r false
      end) l true ++ [close_array]) ++ b) false true = t ++ 93 :: tr b false true.
Proof.
  set (go := fix go (l : list json) (first : bool) : list bytes := match l with [] => [] | x :: r => _ end).
  induction l as [|x r IH]; intros Hg Hc Hn b; [contradiction|]. assert (G : good x) by (inversion Hg; assumption). assert (C : clean reads to_string x) by (inversion Hc; assumption).
  cbn [go]. cbn [app]. rewrite <- app_assoc, stored_app, <- app_assoc.
  destruct (G C (stored (go r false ++ [close_array]) ++ b) true) as (t & St & Et). rewrite Et. cbn [pend].
  destruct r as [|y r].
  - cbn [go app]. rewrite stored_one, tr_close_array, tr_newline. cbn [pend]. exists ([32] ++ t ++ [32]). split; [constructor; auto using blank_space|].
    cbn [app]. rewrite <- app_assoc. reflexivity.
  - destruct (IH ltac:(inversion Hg; assumption) ltac:(inversion Hc; assumption) ltac:(discriminate) b) as (u & Su & Eu).
    change (go (y :: r) false) with ([comma] ++ go (y :: r) true). cbn [app]. rewrite stored_one, tr_comma, tr_newline. rewrite Eu. cbn [pend].
    exists (([32] ++ t ++ [32]) ++ 44 :: u). split; [apply El_more; auto using blank_space|].
    cbn [app]. rewrite <- !app_assoc. reflexivity.
Qed.
Lemma members_back l : Forall (fun m => good (snd m)) l -> Forall (fun m => clean_string (fst m) /\ clean reads to_string (snd m)) l -> l <> [] ->
  forall b, exists t, members reads t l /\
  tr (stored ((fix go (l : list (bytes * json)) (first : bool) : list bytes :=
      match l with
      | [] => []
      | (key, x) :: r => (if first then [] else [comma]) ++ (open_string ++ key ++ close_string ++ colon) :: pieces to_string x ++ go r false
      end) l true ++ [close_object]) ++ b) false true = t ++ 125 :: tr b false true.
Proof.
  set (go := fix go (l : list (bytes * json)) (first : bool) : list bytes := match l with [] => [] | _ :: r => _ end).
  induction l as [|[key x] r IH]; intros Hg Hc Hn b; [contradiction|]. assert (G : good x) by (inversion Hg; assumption).
  assert (C : clean_string key /\ clean reads to_string x) by (inversion Hc; assumption). destruct C as [Ck C].
  cbn [go]. rewrite <- !app_assoc. cbn [app]. rewrite stored_one. rewrite <- !app_assoc, tr_open_string. cbn [pend].
  match goal with |- context [tr (key ++ ?z) true false] => destruct (tr_string key z Ck) as (k & Sk & Ek) end.
  rewrite Ek, tr_close_string. cbn [pend app]. rewrite tr_colon, tr_newline. cbn [pend app].
  rewrite stored_app, <- app_assoc.
  destruct (G C (stored (go r false ++ [close_object]) ++ b) true) as (t & St & Et). rewrite Et. cbn [pend].
  destruct r as [|y r].
  - cbn [go app]. rewrite stored_one, tr_close_object, tr_newline. cbn [pend]. exists (([32] ++ 34 :: k ++ [34]) ++ [] ++ 58 :: [32] ++ t ++ [32]).
    split; [constructor; auto using blank_space; constructor|]. do 4 (cbn [app]; rewrite <- ?app_assoc). reflexivity.
  - destruct (IH ltac:(inversion Hg; assumption) ltac:(inversion Hc; assumption) ltac:(discriminate) b) as (u & Su & Eu).
    assert (Eg : go (y :: r) false = comma :: go (y :: r) true) by (destruct y; reflexivity).
    rewrite Eg. cbn [app]. rewrite stored_one, tr_comma, tr_newline. rewrite Eu. cbn [pend].
    exists ((([32] ++ 34 :: k ++ [34]) ++ [] ++ 58 :: [32] ++ t ++ [32]) ++ 44 :: u). split; [apply Mem_more; auto using blank_space; constructor|].
    do 4 (cbn [app]; rewrite <- ?app_assoc). reflexivity.
Qed.
Theorem value_back : forall j, good j.
Proof.
  apply json_nested.
  - intros _. apply (word_back Null (lit "null")); [reflexivity|plains|discriminate|constructor].
  - intros [|] _; [apply (word_back (Boolean true) (lit "true"))|apply (word_back (Boolean false) (lit "false"))]; (reflexivity || discriminate || plains || constructor).
  - intros v H b p. assert (K : number_text (to_string v) /\ reads (to_string v) v) by (inversion H; auto). destruct K as [K1 K2]. destruct (number_plain _ K1) as [P1 P2].
    exists (to_string v). split; [constructor; assumption|]. cbn [pieces]. rewrite stored_one, <- !app_assoc, tr_open_number, tr_plain by exact P1. rewrite tr_close_number, tr_newline. cbn [pend app]. reflexivity.
  - intros s H b p. assert (K : clean_string s) by (inversion H; assumption). cbn [pieces]. rewrite stored_one, <- !app_assoc, tr_open_string.
    match goal with |- context [tr (s ++ ?z) true false] => destruct (tr_string s z K) as (t & A & B) end. rewrite B, tr_close_string, tr_newline. exists (34 :: t ++ [34]). split; [constructor; exact A|].
    cbn [pend app]. rewrite <- app_assoc. reflexivity.
  - intros l IH H b p. assert (K : Forall (clean reads to_string) l) by (inversion H; assumption). cbn [pieces].
    rewrite stored_one, tr_open_array, tr_newline. destruct l as [|x r].
    + cbn [app]. rewrite stored_one, tr_close_array, tr_newline. exists (91 :: [32] ++ [93]). split; [constructor; apply blank_space|reflexivity].
    + destruct (elements_back (x :: r) IH K ltac:(discriminate) b) as (t & St & Et). rewrite Et. exists (91 :: t ++ [93]). split; [constructor; exact St|].
      cbn [app]. rewrite <- app_assoc. reflexivity.
  - intros l IH H b p. assert (K : Forall (fun m => clean_string (fst m) /\ clean reads to_string (snd m)) l) by (inversion H; assumption). cbn [pieces].
    rewrite stored_one, tr_open_object, tr_newline. destruct l as [|x r].
    + cbn [app]. rewrite stored_one, tr_close_object, tr_newline. exists (123 :: [32] ++ [125]). split; [constructor; apply blank_space|reflexivity].
    + destruct (members_back (x :: r) IH K ltac:(discriminate) b) as (t & St & Et). rewrite Et. exists (123 :: t ++ [125]). split; [constructor; exact St|].
      cbn [app]. rewrite <- app_assoc. reflexivity.
Qed.
Theorem translate_stored : forall j, clean reads to_string j -> spells reads (json_translate (stored (pieces to_string j))) j.
Proof.
  intros j H. destruct (value_back j H [] false) as (t & St & E). unfold json_translate. rewrite app_nil_r in E. cbn [pend app] in E.
  rewrite E. cbn [json_translate_from]. rewrite app_nil_r. exact St.
Qed.
End Back.
