(** Scribing JSON as a list of edits, and reading back the text of every annotated value. *)
From Verif Require Import Base Bytes CodecModel PostingModel TokenModel TextModel TextSpec TextProofs DraftProofs TextBack JsonModel JsonSpec JsonBack.

Lemma size_double n : 0 <= n < 2 ^ 53 -> double_of n (size_value n).
Proof.
  intros H. unfold size_value. destruct (n =? 0) eqn:E; [left; lia|]. right. assert (Hn : 0 < n) by lia. pose proof (Z.log2_spec n Hn) as [L1 L2]. pose proof (Z.log2_nonneg n) as L0.
  assert (L3 : Z.log2 n < 53) by (apply Z.log2_lt_pow2; lia). set (e := Z.log2 n) in *.
  assert (P : 2 ^ 52 = 2 ^ e * 2 ^ (52 - e)) by (rewrite <- Z.pow_add_r by lia; f_equal; lia).
  assert (Hp : 0 < 2 ^ (52 - e)) by (apply Z.pow_pos_nonneg; lia). rewrite Z.pow_succ_r in L2 by lia.
  exists e, ((n - 2 ^ e) * 2 ^ (52 - e)). split; [exact L0|]. split; [split; [nia|]|split; [reflexivity|]].
  - rewrite P. apply Z.mul_lt_mono_pos_r; lia.
  - rewrite P. set (u := 2 ^ (52 - e)) in *. set (w := 2 ^ e) in *. ring.
Qed.

Lemma zero_double : double_of 0 zero. Proof. left. split; reflexivity. Qed.
Definition own (j : json) : Z := match j with Null => nan | Boolean true => one | Num v => v | Arr l => size_value (len l) | _ => zero end.
Lemma own_carried j : carried j (own j).
Proof.
  destruct j as [|[|]|v|s|l|l]; cbn [carried own]; try exact zero_double; try reflexivity.
  - exists (2 ^ 51). split; [split; reflexivity|reflexivity].
  - right. exists 0, 0. split; [lia|]. split; [split; [lia|reflexivity]|]. split; reflexivity.
  - intros H. apply size_double. unfold len in *. lia.
Qed.

Section Store.
Context (tokenize : bytes -> list token) (skip : bytes -> Z -> Z) (stop : bytes -> Prop) (starts : bytes -> list Z).
Context (Laws : tokenizer_laws tokenize skip stop starts).
Context (chunk : Z) (featurize : bytes -> Z) (to_string : Z -> bytes).
Notation pieces := (pieces to_string).
Notation do_json := (do_json tokenize chunk featurize to_string).
Notation apply := (apply_edit tokenize chunk).

Definition K (t : bytes) : Z := Z.of_nat (length (starts t)).
Definition count (ps : list bytes) : Z := fold_right (fun t n => K t + n) 0 ps.
Lemma count_app a b : count (a ++ b) = count a + count b.
Proof using. induction a as [|t a IH]; [reflexivity|]. change (K t + count (a ++ b) = K t + count a + count b). rewrite IH. apply Z.add_assoc. Qed.
Lemma count_cons t b : count (t :: b) = K t + count b. Proof. reflexivity. Qed.
Lemma count_nil : count [] = 0. Proof. reflexivity. Qed.
Lemma append_address t d : starts t <> [] ->
  snd (append tokenize chunk t d) = (d_address d, d_address d + K t - 1) /\ d_address (fst (append tokenize chunk t d)) = d_address d + K t.
Proof.
  intros H. assert (Hn : t <> []) by (intros ->; apply H, (starts_nil tokenize skip stop starts Laws)). destruct t as [|c t]; [contradiction|].
  set (tt := c :: t) in *. unfold append. change (match tt with [] => _ | _ :: _ => ?x end) with x.
  pose proof (tokens_at_last _ _ _ (law_tokenize _ _ _ _ Laws tt)) as Tl. destruct (rev (tokenize tt)) as [|t0 l0]; [contradiction|].
  destruct Tl as [_ Ta]. cbn [fst snd d_address]. rewrite Ta. fold (K tt). split; [f_equal; lia|lia].
Qed.

(** * Scribing as edits *)
Fixpoint json_edits (j : json) (path : bytes) (a : Z) {struct j} : list edit :=
  match j with
  | Arr l =>
      Append open_array :: (fix go (l : list json) (index : Z) (a : Z) {struct l} : list edit :=
        match l with
        | [] => []
        | x :: r =>
            let a := if index =? 0 then a else a + K comma in
            (if index =? 0 then [] else [Append comma]) ++ json_edits x (path ++ lit "[" ++ dec index ++ lit "]:") a ++
            go r (index + 1) (a + count (pieces x))
        end) l 0 (a + K open_array) ++
      [Append close_array; Annotate (featurize path) a (a + count (pieces j) - 1) (size_value (len l))]
  | Obj l =>
      Append open_object :: (fix go (l : list (bytes * json)) (first : bool) (a : Z) {struct l} : list edit :=
        match l with
        | [] => []
        | (key, x) :: r =>
            let k := open_string ++ key ++ close_string ++ colon in
            let a := (if first then a else a + K comma) + K k in
            (if first then [] else [Append comma]) ++ Append k :: json_edits x (path ++ key ++ lit ":") a ++
            Annotate (featurize (key ++ lit ":")) a (a + count (pieces x) - 1) zero :: go r false (a + count (pieces x))
        end) l true (a + K open_object) ++
      [Append close_object; Annotate (featurize path) a (a + count (pieces j) - 1) zero]
  | _ => map Append (pieces j) ++
      [Annotate (featurize path) a (a + count (pieces j) - 1) (match j with Null => nan | Boolean true => one | Num v => v | _ => zero end)]
  end.
(** The loops, named. *)
Definition element_pieces := fix go (l : list json) (first : bool) : list bytes :=
  match l with
  | [] => []
  | x :: r => (if first then [] else [comma]) ++ pieces x ++ go r false
  end.
Definition member_pieces := fix go (l : list (bytes * json)) (first : bool) : list bytes :=
  match l with
  | [] => []
  | (key, x) :: r => (if first then [] else [comma]) ++ (open_string ++ key ++ close_string ++ colon) :: pieces x ++ go r false
  end.
Definition element_edits (path : bytes) := fix go (l : list json) (index : Z) (a : Z) {struct l} : list edit :=
  match l with
  | [] => []
  | x :: r =>
      let a := if index =? 0 then a else a + K comma in
      (if index =? 0 then [] else [Append comma]) ++ json_edits x (path ++ lit "[" ++ dec index ++ lit "]:") a ++
      go r (index + 1) (a + count (pieces x))
  end.
Definition member_edits (path : bytes) := fix go (l : list (bytes * json)) (first : bool) (a : Z) {struct l} : list edit :=
  match l with
  | [] => []
  | (key, x) :: r =>
      let k := open_string ++ key ++ close_string ++ colon in
      let a := (if first then a else a + K comma) + K k in
      (if first then [] else [Append comma]) ++ Append k :: json_edits x (path ++ key ++ lit ":") a ++
      Annotate (featurize (key ++ lit ":")) a (a + count (pieces x) - 1) zero :: go r false (a + count (pieces x))
  end.
Definition element_steps (path : bytes) := fix elements (l : list json) (index : Z) (d : draft) {struct l} : draft :=
  match l with
  | [] => d
  | x :: r =>
      let d := if index =? 0 then d else fst (append tokenize chunk comma d) in
      let d := fst (do_json x (path ++ lit "[" ++ dec index ++ lit "]:") d) in
      elements r (index + 1) d
  end.
Definition member_steps (path : bytes) := fix members (l : list (bytes * json)) (first : bool) (d : draft) {struct l} : draft :=
  match l with
  | [] => d
  | (key, x) :: r =>
      let d := if first then d else fst (append tokenize chunk comma d) in
      let d := fst (append tokenize chunk (open_string ++ key ++ close_string ++ colon) d) in
      let (d, pq) := do_json x (path ++ key ++ lit ":") d in
      let d := annotate (featurize (key ++ lit ":")) (fst pq) (snd pq) zero d in
      members r false d
  end.
Lemma pieces_arr l : pieces (Arr l) = open_array :: element_pieces l true ++ [close_array]. Proof. reflexivity. Qed.
Lemma pieces_obj l : pieces (Obj l) = open_object :: member_pieces l true ++ [close_object]. Proof. reflexivity. Qed.
Lemma edits_arr l path a : json_edits (Arr l) path a = Append open_array :: element_edits path l 0 (a + K open_array) ++
  [Append close_array; Annotate (featurize path) a (a + count (pieces (Arr l)) - 1) (size_value (len l))]. Proof. reflexivity. Qed.
Lemma edits_obj l path a : json_edits (Obj l) path a = Append open_object :: member_edits path l true (a + K open_object) ++
  [Append close_object; Annotate (featurize path) a (a + count (pieces (Obj l)) - 1) zero]. Proof. reflexivity. Qed.
Lemma do_arr l path d : do_json (Arr l) path d =
  (let (d, pq0) := append tokenize chunk open_array d in
   let d := element_steps path l 0 d in
   let (d, pq1) := append tokenize chunk close_array d in
   (annotate (featurize path) (fst pq0) (snd pq1) (size_value (len l)) d, (fst pq0, snd pq1))). Proof. reflexivity. Qed.
Lemma do_obj l path d : do_json (Obj l) path d =
  (let (d, pq0) := append tokenize chunk open_object d in
   let d := member_steps path l true d in
   let (d, pq1) := append tokenize chunk close_object d in
   (annotate (featurize path) (fst pq0) (snd pq1) zero d, (fst pq0, snd pq1))). Proof. reflexivity. Qed.

Lemma texts_map ps : texts (map Append ps) = ps.
Proof. induction ps as [|t ps IH]; [reflexivity|]. cbn [map texts flat_map app]. fold (texts (map Append ps)). rewrite IH. reflexivity. Qed.
Lemma texts_cons e es : texts (e :: es) = texts [e] ++ texts es. Proof. apply (texts_app [e] es). Qed.
Lemma scalar_texts j path a v : texts (map Append (pieces j) ++ [Annotate (featurize path) a (a + count (pieces j) - 1) v]) = pieces j.
Proof. rewrite texts_app, texts_map. apply app_nil_r. Qed.
Lemma edits_texts : forall j path a, texts (json_edits j path a) = pieces j.
Proof.
  apply (json_nested (fun j => forall path a, texts (json_edits j path a) = pieces j)); try (intros; reflexivity).
  - intros [|] path a; reflexivity.
  - intros l IH path a. rewrite edits_arr, pieces_arr, texts_cons, texts_app. apply f_equal. apply (f_equal (fun l => l ++ _)).
    assert (G : forall l, Forall (fun x => forall path a, texts (json_edits x path a) = pieces x) l -> forall index a, 0 <= index ->
      texts (element_edits path l index a) = element_pieces l (index =? 0)).
    { clear l IH a. induction l as [|x r IH]; intros H index a Hi; [reflexivity|]. cbn [element_edits element_pieces]. cbv zeta. rewrite !texts_app.
      assert (Hx : forall path a, texts (json_edits x path a) = pieces x) by (inversion H; assumption). rewrite Hx, IH by (try (inversion H; assumption); lia).
      replace (index + 1 =? 0) with false by lia. destruct (index =? 0); reflexivity. }
    exact (G l IH 0 _ ltac:(lia)).
  - intros l IH path a. rewrite edits_obj, pieces_obj, texts_cons, texts_app. apply f_equal. apply (f_equal (fun l => l ++ _)).
    assert (G : forall l, Forall (fun m => forall path a, texts (json_edits (snd m) path a) = pieces (snd m)) l -> forall first a,
      texts (member_edits path l first a) = member_pieces l first).
    { clear l IH a. induction l as [|[key x] r IH]; intros H first a; [reflexivity|]. cbn [member_edits member_pieces]. cbv zeta. rewrite texts_app, texts_cons, texts_app, (texts_cons (Annotate _ _ _ _)).
      assert (Hx : forall path a, texts (json_edits x path a) = pieces x) by (inversion H; assumption). rewrite Hx, IH by (inversion H; assumption).
      destruct first; reflexivity. }
    exact (G l IH true _).
Qed.

(** Every text has a token. *)
Definition tokened (j : json) : Prop := Forall (fun t => starts t <> []) (pieces j).
Definition steps (j : json) : Prop := tokened j -> forall path d,
  do_json j path d = (fold_left apply (json_edits j path (d_address d)) d, (d_address d, d_address d + count (pieces j) - 1)) /\
  d_address (fold_left apply (json_edits j path (d_address d)) d) = d_address d + count (pieces j).
Lemma scalar_steps j t v : pieces j = [t] -> starts t <> [] -> (forall path d, do_json j path d = scalar tokenize chunk featurize t path v d) ->
  (forall path a, json_edits j path a = [Append t; Annotate (featurize path) a (a + count (pieces j) - 1) v]) -> forall path d,
  do_json j path d = (fold_left apply (json_edits j path (d_address d)) d, (d_address d, d_address d + count (pieces j) - 1)) /\
  d_address (fold_left apply (json_edits j path (d_address d)) d) = d_address d + count (pieces j).
Proof.
  intros Ep Hs Ed Ee path d. rewrite Ed, Ee, Ep. cbn [fold_left apply_edit]. rewrite count_cons, count_nil, Z.add_0_r. unfold scalar.
  destruct (append_address t d Hs) as [A B]. destruct (append tokenize chunk t d) as [d1 pq]. cbn [fst snd] in *. subst pq. cbn [fst snd].
  split; [reflexivity|]. rewrite (proj1 (proj2 (annotate_same _ _ _ _ _))). exact B.
Qed.
Lemma json_steps : forall j, steps j.
Proof.
  apply json_nested; unfold steps.
  - intros H. apply (scalar_steps Null (lit "null") nan); try reflexivity. inversion H; assumption.
  - intros [|] H; [apply (scalar_steps (Boolean true) (lit "true") one)|apply (scalar_steps (Boolean false) (lit "false") zero)]; try reflexivity; inversion H; assumption.
  - intros v H. eapply scalar_steps; try reflexivity. inversion H; assumption.
  - intros s H. eapply scalar_steps; try reflexivity. inversion H; assumption.
  - intros l IH H path d. unfold tokened in H. rewrite pieces_arr in H.
    assert (H1 : starts open_array <> []) by (inversion H; assumption). assert (H2 : Forall (fun t => starts t <> []) (element_pieces l true ++ [close_array])) by (inversion H; assumption).
    apply Forall_app in H2. destruct H2 as [H2 H3]. assert (H4 : starts close_array <> []) by (inversion H3; assumption). clear H H3.
    assert (G : forall l, Forall steps l -> forall index d, 0 <= index -> Forall (fun t => starts t <> []) (element_pieces l (index =? 0)) ->
      element_steps path l index d = fold_left apply (element_edits path l index (d_address d)) d /\
      d_address (element_steps path l index d) = d_address d + count (element_pieces l (index =? 0))).
    { clear l IH d H2. induction l as [|x r IH]; intros Hl index d Hi Hp; [split; [reflexivity|cbn; lia]|].
      assert (Hx : steps x) by (inversion Hl; assumption). cbn [element_steps element_edits element_pieces] in *. cbv zeta.
      apply Forall_app in Hp. destruct Hp as [Hp1 Hp2]. apply Forall_app in Hp2. destruct Hp2 as [Hp2 Hp3].
      set (d1 := if index =? 0 then d else fst (append tokenize chunk comma d)).
      assert (D1 : d_address d1 = (if index =? 0 then d_address d else d_address d + K comma) /\ d1 = fold_left apply (if index =? 0 then [] else [Append comma]) d).
      { unfold d1. destruct (index =? 0); [split; reflexivity|]. split; [|reflexivity]. apply append_address. inversion Hp1; assumption. }
      destruct D1 as [D1 D2]. destruct (Hx Hp2 (path ++ lit "[" ++ dec index ++ lit "]:") d1) as [E1 E2]. rewrite E1. cbn [fst].
      set (d2 := fold_left apply _ d1) in *. destruct (IH ltac:(inversion Hl; assumption) (index + 1) d2 ltac:(lia)) as [F1 F2].
      { replace (index + 1 =? 0) with false by lia. exact Hp3. }
      split.
      - rewrite F1, !fold_left_app, <- D1, <- D2. fold d2. rewrite E2. reflexivity.
      - rewrite F2, E2, D1. replace (index + 1 =? 0) with false by lia. rewrite !count_app. destruct (index =? 0); unfold count; cbn [fold_right]; lia. }
    rewrite do_arr, edits_arr. destruct (append_address open_array d H1) as [A1 B1].
    cbn [fold_left]. change (apply d (Append open_array)) with (fst (append tokenize chunk open_array d)). destruct (append tokenize chunk open_array d) as [d1 pq0]. cbn [fst snd] in *. subst pq0.
    destruct (G l IH 0 d1 ltac:(lia) H2) as [E1 E2]. rewrite fold_left_app, <- B1, <- E1. set (d2 := element_steps path l 0 d1) in *. cbv zeta.
    destruct (append_address close_array d2 H4) as [A2 B2]. cbn [fold_left]. change (apply d2 (Append close_array)) with (fst (append tokenize chunk close_array d2)).
    destruct (append tokenize chunk close_array d2) as [d3 pq1]. cbn [fst snd] in *. subst pq1. cbn [fst snd].
    assert (Ec : d_address d2 + K close_array = d_address d + count (pieces (Arr l))).
    { rewrite pieces_arr, count_cons, count_app, count_cons, count_nil. rewrite E2, B1. change (0 =? 0) with true. lia. }
    change (fold_left apply [Annotate ?f ?p ?q ?v] ?d) with (annotate f p q v d). cbn [apply_edit]. rewrite Ec. split; [reflexivity|].
    rewrite (proj1 (proj2 (annotate_same _ _ _ _ _))), B2. exact Ec.
  - intros l IH H path d. unfold tokened in H. rewrite pieces_obj in H.
    assert (H1 : starts open_object <> []) by (inversion H; assumption). assert (H2 : Forall (fun t => starts t <> []) (member_pieces l true ++ [close_object])) by (inversion H; assumption).
    apply Forall_app in H2. destruct H2 as [H2 H3]. assert (H4 : starts close_object <> []) by (inversion H3; assumption). clear H H3.
    assert (G : forall l, Forall (fun m => steps (snd m)) l -> forall first d, Forall (fun t => starts t <> []) (member_pieces l first) ->
      member_steps path l first d = fold_left apply (member_edits path l first (d_address d)) d /\
      d_address (member_steps path l first d) = d_address d + count (member_pieces l first)).
    { clear l IH d H2. induction l as [|[key x] r IH]; intros Hl first d Hp; [split; [reflexivity|cbn; lia]|].
      assert (Hx : steps x) by (inversion Hl; assumption). cbn [member_steps member_edits member_pieces] in *. cbv zeta.
      set (k := open_string ++ key ++ close_string ++ colon) in *.
      apply Forall_app in Hp. destruct Hp as [Hp1 Hp2]. assert (Hk : starts k <> []) by (inversion Hp2; assumption).
      assert (Hp4 : Forall (fun t => starts t <> []) (pieces x ++ member_pieces r false)) by (inversion Hp2; assumption).
      apply Forall_app in Hp4. destruct Hp4 as [Hp3 Hp4].
      set (d1 := if first then d else fst (append tokenize chunk comma d)).
      assert (D1 : d_address d1 = (if first then d_address d else d_address d + K comma) /\ d1 = fold_left apply (if first then [] else [Append comma]) d).
      { unfold d1. destruct first; [split; reflexivity|]. split; [|reflexivity]. apply append_address. inversion Hp1; assumption. }
      destruct D1 as [D1 D2]. destruct (append_address k d1 Hk) as [_ B1]. set (dk := fst (append tokenize chunk k d1)) in *.
      destruct (Hx Hp3 (path ++ key ++ lit ":") dk) as [E1 E2]. rewrite E1. cbn [fst snd].
      set (d2 := fold_left apply _ dk) in *. set (d3 := annotate _ _ _ zero d2). assert (D3 : d_address d3 = d_address d2) by apply annotate_same.
      destruct (IH ltac:(inversion Hl; assumption) false d3 Hp4) as [F1 F2].
      split.
      - rewrite F1, fold_left_app, <- D2, <- D1. cbn [fold_left]. change (apply d1 (Append k)) with dk. rewrite fold_left_app, <- B1. fold d2. cbn [fold_left apply_edit]. rewrite <- E2. unfold d3 at 2.
        rewrite D3, E2. reflexivity.
      - rewrite F2, D3, E2, B1, D1. rewrite count_app, count_cons, count_app. destruct first; unfold count; cbn [fold_right]; lia. }
    rewrite do_obj, edits_obj. destruct (append_address open_object d H1) as [A1 B1].
    cbn [fold_left]. change (apply d (Append open_object)) with (fst (append tokenize chunk open_object d)). destruct (append tokenize chunk open_object d) as [d1 pq0]. cbn [fst snd] in *. subst pq0.
    destruct (G l IH true d1 H2) as [E1 E2]. rewrite fold_left_app, <- B1, <- E1. set (d2 := member_steps path l true d1) in *. cbv zeta.
    destruct (append_address close_object d2 H4) as [A2 B2]. cbn [fold_left]. change (apply d2 (Append close_object)) with (fst (append tokenize chunk close_object d2)).
    destruct (append tokenize chunk close_object d2) as [d3 pq1]. cbn [fst snd] in *. subst pq1. cbn [fst snd].
    assert (Ec : d_address d2 + K close_object = d_address d + count (pieces (Obj l))).
    { rewrite pieces_obj, count_cons, count_app, count_cons, count_nil. rewrite E2, B1. lia. }
    cbn [apply_edit]. rewrite Ec. split; [reflexivity|].
    rewrite (proj1 (proj2 (annotate_same _ _ _ _ _))), B2. exact Ec.
Qed.

(** * What is annotated *)
(** The texts of [u] are among the texts [ps], after [count A] tokens. *)
Definition among (ps : list bytes) (u : json) (o : Z) : Prop := exists A B, ps = A ++ pieces u ++ B /\ o = count A.
Definition marks (es : list edit) (a : Z) (f o : Z) (u : json) (V : Z -> Prop) : Prop :=
  exists v, In (Annotate f (a + o) (a + o + count (pieces u) - 1) v) es /\ V v.
(** What is annotated. *)
Lemma among_more P Q ps u o : among ps u o -> among (P ++ ps ++ Q) u (count P + o).
Proof. intros (A & B & -> & ->). exists (P ++ A), (B ++ Q). split; [rewrite <- !app_assoc; reflexivity|symmetry; apply count_app]. Qed.
Lemma among_all u : among (pieces u) u 0.
Proof. exists [], []. split; [cbn [app]; symmetry; apply app_nil_r|reflexivity]. Qed.

(** Where the values of elements and members are. *)
Lemma element_at path l : forall i x index a, nth_error l i = Some x -> 0 <= index -> exists P Q E F,
  element_pieces l (index =? 0) = P ++ pieces x ++ Q /\
  element_edits path l index a = E ++ json_edits x (path ++ lit "[" ++ dec (index + Z.of_nat i) ++ lit "]:") (a + count P) ++ F.
Proof.
  induction l as [|y r IH]; intros i x index a Hi Hx; [destruct i; discriminate|]. cbn [element_pieces element_edits]. cbv zeta.
  destruct i as [|i]; cbn [nth_error] in Hi.
  - injection Hi as ->. exists (if index =? 0 then [] else [comma]), (element_pieces r false), (if index =? 0 then [] else [Append comma]).
    eexists. split; [reflexivity|]. rewrite Z.add_0_r.
    replace (a + count (if index =? 0 then [] else [comma])) with (if index =? 0 then a else a + K comma) by (destruct (index =? 0); unfold count; cbn [fold_right]; lia).
    reflexivity.
  - destruct (IH i x (index + 1) ((if index =? 0 then a else a + K comma) + count (pieces y)) Hi ltac:(lia)) as (P & Q & E & F & H1 & H2).
    replace (index + 1 =? 0) with false in H1 by lia.
    set (Y := json_edits y _ _).
    exists ((if index =? 0 then [] else [comma]) ++ pieces y ++ P), Q, ((if index =? 0 then [] else [Append comma]) ++ Y ++ E), F.
    split; [rewrite H1, <- !app_assoc; reflexivity|]. rewrite H2, <- !app_assoc. rewrite !count_app.
    replace (index + 1 + Z.of_nat i) with (index + Z.of_nat (S i)) by lia.
    replace (a + (count (if index =? 0 then [] else [comma]) + (count (pieces y) + count P))) with ((if index =? 0 then a else a + K comma) + count (pieces y) + count P)
      by (destruct (index =? 0); unfold count; cbn [fold_right]; lia).
    reflexivity.
Qed.
Lemma member_at path l key x : In (key, x) l -> forall first a, exists P Q E F,
  member_pieces l first = P ++ pieces x ++ Q /\
  member_edits path l first a = E ++ json_edits x (path ++ key ++ lit ":") (a + count P) ++
    Annotate (featurize (key ++ lit ":")) (a + count P) (a + count P + count (pieces x) - 1) zero :: F.
Proof.
  induction l as [|[k y] r IH]; intros Hi first a; [destruct Hi|]. cbn [member_pieces member_edits]. cbv zeta.
  set (kt := open_string ++ k ++ close_string ++ colon). destruct Hi as [Hi|Hi].
  - injection Hi as -> ->. exists ((if first then [] else [comma]) ++ [kt]), (member_pieces r false), ((if first then [] else [Append comma]) ++ [Append kt]).
    eexists. split; [rewrite <- !app_assoc; reflexivity|].
    assert (Ea : a + count ((if first then [] else [comma]) ++ [kt]) = (if first then a else a + K comma) + K kt) by (rewrite count_app; destruct first; unfold count; cbn [fold_right]; lia).
    rewrite Ea.
    rewrite <- app_assoc. reflexivity.
  - destruct (IH Hi false ((if first then a else a + K comma) + K kt + count (pieces y))) as (P & Q & E & F & H1 & H2).
    set (Y := json_edits y _ _). set (Z := Annotate _ _ _ zero).
    exists ((if first then [] else [comma]) ++ kt :: pieces y ++ P), Q, ((if first then [] else [Append comma]) ++ Append kt :: Y ++ Z :: E), F.
    split; [rewrite H1, <- !app_assoc; cbn [app]; rewrite <- !app_assoc; reflexivity|]. rewrite H2, <- !app_assoc. cbn [app]. rewrite <- !app_assoc. cbn [app].
    rewrite count_app, count_cons, count_app.
    replace (a + (count (if first then [] else [comma]) + (K kt + (count (pieces y) + count P)))) with ((if first then a else a + K comma) + K kt + count (pieces y) + count P)
      by (destruct first; unfold count; cbn [fold_right]; lia).
    reflexivity.
Qed.
Lemma marks_self j path a : marks (json_edits j path a) a (featurize path) 0 j (carried j).
Proof.
  exists (own j). split; [|apply own_carried]. rewrite Z.add_0_r. destruct j; try (apply in_or_app; right; left; reflexivity).
  - rewrite edits_arr. right. apply in_or_app. right. right. left. reflexivity.
  - rewrite edits_obj. right. apply in_or_app. right. right. left. reflexivity.
Qed.
(** Every value is annotated with its path, and with its name. *)
Lemma inside_marked j path u p : inside j path u p -> forall a, exists o, among (pieces j) u o /\ marks (json_edits j path a) a (featurize p) o u (carried u).
Proof.
  induction 1 as [j path|l path i x u p Hx Hi IH|l path key x u p Hx Hi IH]; intros a.
  - exists 0. split; [apply among_all|apply marks_self].
  - destruct (element_at path l i x 0 (a + K open_array) Hx ltac:(lia)) as (P & Q & E & F & H1 & H2). rewrite Z.add_0_l in H2.
    destruct (IH (a + K open_array + count P)) as (o & Ao & (v & Mo & Vo)). exists (count (open_array :: P) + o). split.
    + rewrite pieces_arr. change (0 =? 0) with true in H1. rewrite H1. replace (open_array :: (P ++ pieces x ++ Q) ++ [close_array]) with ((open_array :: P) ++ pieces x ++ (Q ++ [close_array])) by (cbn [app]; rewrite <- !app_assoc; reflexivity).
      apply among_more, Ao.
    + exists v. split; [|exact Vo]. rewrite edits_arr, H2. right. apply in_or_app. left. apply in_or_app. right. apply in_or_app. left. rewrite count_cons.
      replace (a + (K open_array + count P + o)) with (a + K open_array + count P + o) by lia. exact Mo.
  - destruct (member_at path l key x Hx true (a + K open_object)) as (P & Q & E & F & H1 & H2).
    destruct (IH (a + K open_object + count P)) as (o & Ao & (v & Mo & Vo)). exists (count (open_object :: P) + o). split.
    + rewrite pieces_obj. rewrite H1. replace (open_object :: (P ++ pieces x ++ Q) ++ [close_object]) with ((open_object :: P) ++ pieces x ++ (Q ++ [close_object])) by (cbn [app]; rewrite <- !app_assoc; reflexivity).
      apply among_more, Ao.
    + exists v. split; [|exact Vo]. rewrite edits_obj, H2. right. apply in_or_app. left. apply in_or_app. right. apply in_or_app. left. rewrite count_cons.
      replace (a + (K open_object + count P + o)) with (a + K open_object + count P + o) by lia. exact Mo.
Qed.
(** Nested edits and pieces of a value inside another. *)
Lemma inside_edits j path u p : inside j path u p -> forall a, exists P Q E F,
  pieces j = P ++ pieces u ++ Q /\ json_edits j path a = E ++ json_edits u p (a + count P) ++ F.
Proof.
  induction 1 as [j path|l path i x u p Hx Hi IH|l path key x u p Hx Hi IH]; intros a.
  - exists [], [], [], []. rewrite count_nil, Z.add_0_r. cbn [app]. rewrite !app_nil_r. split; reflexivity.
  - destruct (element_at path l i x 0 (a + K open_array) Hx ltac:(lia)) as (P & Q & E & F & H1 & H2). rewrite Z.add_0_l in H2.
    destruct (IH (a + K open_array + count P)) as (P' & Q' & E' & F' & H3 & H4).
    exists (open_array :: P ++ P'), (Q' ++ Q ++ [close_array]), (Append open_array :: E ++ E'),
      (F' ++ F ++ [Append close_array; Annotate (featurize path) a (a + count (pieces (Arr l)) - 1) (size_value (len l))]). split.
    + rewrite pieces_arr. change (0 =? 0) with true in H1. rewrite H1, H3. cbn [app]. rewrite <- !app_assoc. reflexivity.
    + rewrite edits_arr, H2, H4, count_cons, count_app. replace (a + (K open_array + (count P + count P'))) with (a + K open_array + count P + count P') by lia.
      cbn [app]. rewrite <- !app_assoc. reflexivity.
  - destruct (member_at path l key x Hx true (a + K open_object)) as (P & Q & E & F & H1 & H2).
    destruct (IH (a + K open_object + count P)) as (P' & Q' & E' & F' & H3 & H4).
    set (Z := Annotate _ _ _ zero) in H2.
    exists (open_object :: P ++ P'), (Q' ++ Q ++ [close_object]), (Append open_object :: E ++ E'),
      (F' ++ Z :: F ++ [Append close_object; Annotate (featurize path) a (a + count (pieces (Obj l)) - 1) zero]). split.
    + rewrite pieces_obj. rewrite H1, H3. cbn [app]. rewrite <- !app_assoc. reflexivity.
    + rewrite edits_obj, H2, H4, count_cons, count_app. replace (a + (K open_object + (count P + count P'))) with (a + K open_object + count P + count P') by lia.
      cbn [app]. rewrite <- !app_assoc. cbn [app]. reflexivity.
Qed.
Lemma member_marked j path u key : member_of j path u key -> forall a, exists o, among (pieces j) u o /\ marks (json_edits j path a) a (featurize (key ++ lit ":")) o u (double_of 0).
Proof.
  intros (l & p & Hi & Hl) a. destruct (inside_edits _ _ _ _ Hi a) as (P & Q & E & F & H1 & H2).
  destruct (member_at p l key u Hl true (a + count P + K open_object)) as (P' & Q' & E' & F' & H3 & H4).
  exists (count (P ++ open_object :: P')). split.
  - exists (P ++ open_object :: P'), (Q' ++ [close_object] ++ Q). split; [|reflexivity]. rewrite H1, pieces_obj, H3. rewrite <- !app_assoc. cbn [app]. rewrite <- !app_assoc. reflexivity.
  - exists zero. split; [|exact zero_double]. rewrite H2, edits_obj, H4. apply in_or_app. right. apply in_or_app. left. right. apply in_or_app. left. apply in_or_app. right. apply in_or_app. right. left.
    rewrite count_app, count_cons. replace (a + (count P + (K open_object + count P'))) with (a + count P + K open_object + count P') by lia. reflexivity.
Qed.
(** And nothing else is. *)
Definition explained (j : json) (path : bytes) (a f p q y : Z) : Prop := exists u o, among (pieces j) u o /\ p = a + o /\ q = a + o + count (pieces u) - 1 /\
  ((exists r, inside j path u r /\ f = featurize r /\ carried u y) \/ (exists key, member_of j path u key /\ f = featurize (key ++ lit ":") /\ double_of 0 y)).
Lemma explained_in j path x path' P Q a f p q y : (forall u r, inside x path' u r -> inside j path u r) -> pieces j = P ++ pieces x ++ Q ->
  explained x path' (a + count P) f p q y -> explained j path a f p q y.
Proof.
  intros Hx Hp (u & o & Ho & -> & -> & H). exists u, (count P + o). split; [rewrite Hp; apply among_more, Ho|]. split; [lia|]. split; [lia|].
  destruct H as [(r & H1 & H2)|(key & (l & r & H1 & H3) & H2)]; [left; exists r; auto|]. right. exists key. split; [exists l, r; auto|exact H2].
Qed.
Lemma explained_self j path a : explained j path a (featurize path) a (a + count (pieces j) - 1) (own j).
Proof. exists j, 0. split; [apply among_all|]. rewrite !Z.add_0_r. split; [reflexivity|]. split; [reflexivity|]. left. exists path. split; [constructor|]. split; [reflexivity|apply own_carried]. Qed.
Lemma scalar_explained j path a : forall f p q w, In (Annotate f p q w) (map Append (pieces j) ++ [Annotate (featurize path) a (a + count (pieces j) - 1) (own j)]) -> explained j path a f p q w.
Proof.
  intros f p q w H. apply in_app_or in H. destruct H as [H|[H|[]]]; [apply in_map_iff in H; destruct H as (t & H & _); discriminate|].
  injection H as <- <- <- <-. apply explained_self.
Qed.
Lemma edits_explained : forall j path a f p q v, In (Annotate f p q v) (json_edits j path a) -> explained j path a f p q v.
Proof.
  apply (json_nested (fun j => forall path a f p q v, In (Annotate f p q v) (json_edits j path a) -> explained j path a f p q v)).
  - intros path a f p q v. exact (scalar_explained Null path a f p q v).
  - intros [|] path a f p q v; [exact (scalar_explained (Boolean true) path a f p q v)|exact (scalar_explained (Boolean false) path a f p q v)].
  - intros w path a f p q v. exact (scalar_explained (Num w) path a f p q v).
  - intros s path a f p q v. exact (scalar_explained (Str s) path a f p q v).
  - intros l IH path a f p q v H. rewrite edits_arr in H. destruct H as [H|H]; [discriminate|]. apply in_app_or in H.
    destruct H as [H|[H|[H|[]]]]; [|discriminate|injection H as <- <- <- <-; apply explained_self].
    assert (G : forall done r, Forall (fun x => forall path a f p q v, In (Annotate f p q v) (json_edits x path a) -> explained x path a f p q v) r ->
      l = done ++ r -> forall P, element_pieces l true = P ++ element_pieces r (Z.of_nat (length done) =? 0) ->
      In (Annotate f p q v) (element_edits path r (Z.of_nat (length done)) (a + K open_array + count P)) -> explained (Arr l) path a f p q v).
    { clear IH H. intros done r. revert done. induction r as [|x r IH]; intros done Hr El P HP H; [destruct H|].
      assert (Hx : forall path a f p q v, In (Annotate f p q v) (json_edits x path a) -> explained x path a f p q v) by (inversion Hr; assumption).
      cbn [element_edits element_pieces] in *. cbv zeta in H. set (first := Z.of_nat (length done) =? 0) in *.
      set (P1 := P ++ (if first then [] else [comma])).
      assert (E1 : (if first then a + K open_array + count P else a + K open_array + count P + K comma) = a + count (open_array :: P1)).
      { unfold P1. rewrite count_cons, count_app. destruct first; unfold count; cbn [fold_right]; lia. }
      rewrite E1 in H. apply in_app_or in H. destruct H as [H|H]; [destruct first; [destruct H|destruct H as [H|[]]; discriminate]|].
      apply in_app_or in H. destruct H as [H|H].
      - apply Hx in H. revert H. apply (explained_in _ _ _ _ _ (element_pieces r false ++ [close_array])).
        + intros u s. apply (In_element l path (length done)). rewrite El, nth_error_app2, Nat.sub_diag by lia. reflexivity.
        + rewrite pieces_arr, HP. unfold P1. cbn [app]. rewrite <- !app_assoc. reflexivity.
      - apply (IH (done ++ [x]) ltac:(inversion Hr; assumption) ltac:(rewrite <- app_assoc; exact El) (P1 ++ pieces x)).
        + rewrite app_length. cbn [length]. replace (Z.of_nat (length done + 1) =? 0) with false by lia. rewrite HP. unfold P1. rewrite <- !app_assoc. reflexivity.
        + rewrite app_length. cbn [length]. replace (Z.of_nat (length done + 1)) with (Z.of_nat (length done) + 1) by lia.
          replace (a + K open_array + count (P1 ++ pieces x)) with (a + count (open_array :: P1) + count (pieces x)) by (rewrite count_app, count_cons; lia). exact H. }
    apply (G [] l IH eq_refl [] eq_refl). rewrite count_nil, Z.add_0_r. exact H.
  - intros l IH path a f p q v H. rewrite edits_obj in H. destruct H as [H|H]; [discriminate|]. apply in_app_or in H.
    destruct H as [H|[H|[H|[]]]]; [|discriminate|injection H as <- <- <- <-; apply explained_self].
    assert (G : forall done r first, Forall (fun m => forall path a f p q v, In (Annotate f p q v) (json_edits (snd m) path a) -> explained (snd m) path a f p q v) r ->
      l = done ++ r -> forall P, member_pieces l true = P ++ member_pieces r first ->
      In (Annotate f p q v) (member_edits path r first (a + K open_object + count P)) -> explained (Obj l) path a f p q v).
    { clear IH H. intros done r. revert done. induction r as [|[key x] r IH]; intros done first Hr El P HP H; [destruct H|].
      assert (Hx : forall path a f p q v, In (Annotate f p q v) (json_edits x path a) -> explained x path a f p q v) by (inversion Hr; assumption).
      assert (Hl : In (key, x) l) by (rewrite El; apply in_or_app; right; left; reflexivity).
      cbn [member_edits member_pieces] in *. cbv zeta in H. set (kt := open_string ++ key ++ close_string ++ colon) in *.
      set (P1 := P ++ (if first then [] else [comma]) ++ [kt]).
      assert (E1 : (if first then a + K open_object + count P else a + K open_object + count P + K comma) + K kt = a + count (open_object :: P1)).
      { unfold P1. rewrite count_cons, !count_app. destruct first; unfold count; cbn [fold_right]; lia. }
      rewrite E1 in H. apply in_app_or in H. destruct H as [H|H]; [destruct first; [destruct H|destruct H as [H|[]]; discriminate]|].
      destruct H as [H|H]; [discriminate|]. apply in_app_or in H.
      assert (Ep : pieces (Obj l) = (open_object :: P1) ++ pieces x ++ (member_pieces r false ++ [close_object])).
      { rewrite pieces_obj, HP. unfold P1. cbn [app]. rewrite <- !app_assoc. cbn [app]. rewrite <- !app_assoc. reflexivity. }
      destruct H as [H|[H|H]].
      - apply Hx in H. revert H. apply (explained_in _ _ _ _ _ (member_pieces r false ++ [close_object])); [|exact Ep]. intros u s. apply (In_member l path key x _ _ Hl).
      - injection H as <- <- <- <-. exists x, (count (open_object :: P1)). split; [eexists _, _; split; [exact Ep|reflexivity]|]. split; [reflexivity|]. split; [reflexivity|].
        right. exists key. split; [|split; [reflexivity|exact zero_double]]. exists l, path. split; [constructor|exact Hl].
      - apply (IH (done ++ [(key, x)]) false ltac:(inversion Hr; assumption) ltac:(rewrite <- app_assoc; exact El) (P1 ++ pieces x)).
        + rewrite HP. unfold P1. rewrite <- !app_assoc. reflexivity.
        + replace (a + K open_object + count (P1 ++ pieces x)) with (a + count (open_object :: P1) + count (pieces x)) by (rewrite count_app, count_cons; lia). exact H. }
    apply (G [] l true IH eq_refl [] eq_refl). rewrite count_nil, Z.add_0_r. exact H.
Qed.
End Store.
