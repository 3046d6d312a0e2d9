(** C51: the description of a forager reads back as the forager that was described. *)
From Verif Require Import Base Bytes RecipeModel ForagerModel ForagerSpec ForagerProofs.
Local Arguments chr s%string_scope.

(** What is written for a name, a tag and parameters reads back as they are, also with white
    space and NULs after it, as text from an index may have. *)
Theorem C51_round_trip : forall name tag ps tail nuls,
  of_bytes name -> of_bytes tag -> map_of_bytes ps -> is_map ps -> white tail -> Forall (eq 0) nuls ->
  json2forager (forager2json name tag ps ++ tail ++ nuls) = Ok (Some (name, tag, ps)).
Proof. exact reads_back. Qed.
Print Assumptions C51_round_trip.
Example C51_round_trip_case :
  let name := lit "tf-idf" in let tag := [34; 92; 10; 1; 200; 0] in
  let ps := [([], lit "x"); (lit "gcl", lit "(... a "); (lit "k", [31])] in
  of_bytes name /\ of_bytes tag /\ map_of_bytes ps /\ is_map ps /\
  forager2json name tag ps =
    lit "{" ++ [10] ++ lit "  ""name"": ""tf-idf""," ++ [10] ++ lit "  ""tag"": ""\""\\\n\u0001" ++ [200] ++ lit "\u0000""," ++ [10] ++
    lit "  ""parameters"": {" ++ [10] ++ lit "    """": ""x""," ++ [10] ++ lit "    ""gcl"": ""(... a ""," ++ [10] ++
    lit "    ""k"": ""\u001f""" ++ [10] ++ lit "  }" ++ [10] ++ lit "}" ++ [10] /\
  json2forager (forager2json name tag ps ++ [10] ++ [0; 0]) = Ok (Some (name, tag, ps)).
Proof.
  cbv zeta. repeat (split; [solve [repeat constructor; try (cbn; lia); intros k v; cbn; intuition congruence]|]).
  split; [repeat split; intros k v I; cbn in I; repeat (destruct I as [I|I]; [injection I as <- <-; reflexivity|]); destruct I|].
  split; [vm_compute; reflexivity|]. vm_compute. reflexivity.
Qed.

(** Any JSON object reads as what its members say, whatever the order, the white space, the
    spelling of the strings and the members that are not asked for. *)
Theorem C51_reads : forall x l, describes x l ->
  match last_name l with
  | Some n => exists ps, json2forager x = Ok (Some (n, last_tag l, ps)) /\ is_map ps /\
      forall k v, In (k, v) ps <-> last_value k (all_parameters l) = Some v
  | None => json2forager x = Ok None
  end.
Proof. exact reads_description. Qed.
Print Assumptions C51_reads.
Definition other_text : bytes :=
  lit " { ""extra"" : [ 1 , -2.5e+3,{""a"":null} ] ,""parameters"":{""b"":""\u0041"",""a"":""\/"" , ""b"":""c""},""\u006eame"":""n"" } ".
Example C51_reads_case :
  describes other_text [Nothing; Parameters [(lit "b", lit "A"); (lit "a", lit "/"); (lit "b", lit "c")]; Name (lit "n")] /\
  json2forager other_text = Ok (Some (lit "n", [], [(lit "a", lit "/"); (lit "b", lit "c")])).
Proof.
  split; [|vm_compute; reflexivity].
  assert (P : forall s, forallb (fun c => (32 <=? c) && negb (c =? 34) && negb (c =? 92)) s = true -> spells s s).
  { induction s as [|c s IH]; intros F; [constructor|]. cbn [forallb] in F. apply andb_prop in F as [F1 F2]. apply Spells_plain; [lia|lia|lia|now apply IH]. }
  assert (T : forall s, forallb (fun c => (32 <=? c) && negb (c =? 34) && negb (c =? 92)) s = true -> string_text ([34] ++ s ++ [34]) s).
  { intros s F. exists s. split; [reflexivity|now apply P]. }
  assert (W : forall w, forallb is_space w = true -> white w) by exact white_all.
  assert (D : forall s, s <> [] -> forallb (fun c => (48 <=? c) && (c <=? 57)) s = true -> digit_text s).
  { intros s N F. split; [exact N|]. apply Forall_forall. intros c I. rewrite forallb_forall in F. apply F in I. lia. }
  exists [32], (lit " ""extra"" : [ 1 , -2.5e+3,{""a"":null} ] ,""parameters"":{""b"":""\u0041"",""a"":""\/"" , ""b"":""c""},""\u006eame"":""n"" "), [32], [].
  split; [vm_compute; reflexivity|]. split; [apply W; reflexivity|]. split; [|split; [apply W; reflexivity|constructor]].
  change (member_list ([32] ++ ([34] ++ lit "extra" ++ [34]) ++ [32] ++ lit ":" ++ [32] ++ lit "[ 1 , -2.5e+3,{""a"":null} ]" ++ [32] ++ lit "," ++
    ([] ++ ([34] ++ lit "parameters" ++ [34]) ++ [] ++ lit ":" ++ [] ++ lit "{""b"":""\u0041"",""a"":""\/"" , ""b"":""c""}" ++ [] ++ lit "," ++
    ([] ++ ([34] ++ lit "\u006eame" ++ [34]) ++ [] ++ lit ":" ++ [] ++ lit """n""" ++ [32])))
    [Nothing; Parameters [(lit "b", lit "A"); (lit "a", lit "/"); (lit "b", lit "c")]; Name (lit "n")]).
  eapply ML_more; [apply W; reflexivity|apply T; reflexivity|apply W; reflexivity|apply W; reflexivity| |apply W; reflexivity|].
  - apply M_other; try discriminate.
    change (json (lit "[" ++ ([32] ++ lit "1" ++ [32] ++ lit "," ++ ([32] ++ lit "-2.5e+3" ++ [] ++ lit "," ++ ([] ++ lit "{""a"":null}" ++ [32]))) ++ lit "]")).
    apply J_array, E_more; [apply W; reflexivity| |apply W; reflexivity|].
    { apply J_number. exists [], (lit "1"), [], []. split; [reflexivity|]. split; [now left|]. split; [apply D; [discriminate|reflexivity]|]. auto. }
    apply E_more; [apply W; reflexivity| |apply W; reflexivity|].
    { apply J_number. exists (lit "-"), (lit "2"), (lit ".5"), (lit "e+3"). split; [reflexivity|]. split; [right; now left|]. split; [apply D; [discriminate|reflexivity]|].
      split; [right; exists (lit "5"); split; [reflexivity|apply D; [discriminate|reflexivity]]|].
      right. exists (lit "e"), (lit "+"), (lit "3"). split; [reflexivity|]. split; [now left|]. split; [right; now right|apply D; [discriminate|reflexivity]]. }
    apply E_one; [constructor| |apply W; reflexivity].
    change (json (lit "{" ++ ([] ++ ([34] ++ lit "a" ++ [34]) ++ [] ++ lit ":" ++ [] ++ lit "null" ++ []) ++ lit "}")).
    eapply J_object, P_one; [constructor|apply T; reflexivity|constructor|constructor|apply J_null|constructor].
  - eapply ML_more; [constructor|apply T; reflexivity|constructor|constructor| |constructor|].
    + apply M_parameters. right. exists (lit """b"":""\u0041"",""a"":""\/"" , ""b"":""c"""). split; [reflexivity|].
      change (string_members ([] ++ ([34] ++ lit "b" ++ [34]) ++ [] ++ lit ":" ++ [] ++ ([34] ++ lit "\u0041" ++ [34]) ++ [] ++ lit "," ++
        ([] ++ ([34] ++ lit "a" ++ [34]) ++ [] ++ lit ":" ++ [] ++ ([34] ++ lit "\/" ++ [34]) ++ [32] ++ lit "," ++
        ([32] ++ ([34] ++ lit "b" ++ [34]) ++ [] ++ lit ":" ++ [] ++ ([34] ++ lit "c" ++ [34]) ++ [])))
        [(lit "b", lit "A"); (lit "a", lit "/"); (lit "b", lit "c")]).
      apply S_more; [constructor|apply T; reflexivity|constructor|constructor| |constructor|].
      { exists (lit "\u0041"). split; [reflexivity|].
        apply (Spells_code _ _ _ _ 0 0 4 1 [] []); [apply (Hex_digit 0)|apply (Hex_digit 0)|apply (Hex_digit 4)|apply (Hex_digit 1)|constructor]; lia. }
      apply S_more; [constructor|apply T; reflexivity|constructor|constructor| |apply W; reflexivity|].
      { exists (lit "\/"). split; [reflexivity|]. apply Spells_short; [cbn; auto|constructor]. }
      apply S_one; [apply W; reflexivity|apply T; reflexivity|constructor|constructor|apply T; reflexivity|constructor].
    + eapply (ML_one [] _ (lit "name")); [constructor| |constructor|constructor| |apply W; reflexivity].
      * exists (lit "\u006eame"). split; [reflexivity|].
        apply (Spells_code _ _ _ _ 0 0 6 14 (lit "ame") (lit "ame")); [apply (Hex_digit 0)|apply (Hex_digit 0)|apply (Hex_digit 6)|apply (Hex_lower 14)|apply P; reflexivity]; lia.
      * apply M_name, (T (lit "n")); reflexivity.
Qed.

(** Reading ends on any text. *)
Theorem C51_ends : forall x, exists o, json2forager x = Ok o.
Proof. exact reading_ends. Qed.
Print Assumptions C51_ends.
Example C51_ends_case : json2forager (lit "{""name"":[[[{") = Ok None /\ json2forager [] = Ok None /\
  json2forager (lit "{""name"":""a""}x") = Ok None /\ json2forager (lit "{""tag"":""a""}") = Ok None.
Proof. repeat split; vm_compute; reflexivity. Qed.

(** Two foragers with names that are not empty and have no colon have different labels.  Missing:
    the empty name, which is accepted and means tf-idf. *)
Theorem C51_labels_partial : forall n t n' t', n <> [] -> n' <> [] -> no_colon n -> no_colon n' ->
  forager_label n t = forager_label n' t' -> n = n' /\ t = t'.
Proof. exact labels_differ. Qed.
Print Assumptions C51_labels_partial.
Example C51_labels_case : no_colon (lit "null") /\ no_colon (lit "tf-idf") /\
  forager_label (lit "tf-idf") (lit "a:b") = lit "tf-idf:a:b:" /\ forager_label (lit "null") [] = lit "null:".
Proof. split; [intros I; cbn in I; intuition lia|]. split; [intros I; cbn in I; intuition lia|]. split; vm_compute; reflexivity. Qed.

(** Not for the empty name: foragers of different kinds, or with different tags, then share a
    label, and so the annotations kept under it. *)
Theorem C51_labels_refuted : exists n t n' t', (n, t) <> (n', t') /\
  In n [lit "null"; []; lit "tf-idf"] /\ In n' [lit "null"; []; lit "tf-idf"] /\ forager_label n t = forager_label n' t'.
Proof. exists [], (lit "null"), (lit "null"), []. split; [discriminate|]. split; [cbn; auto|]. split; [cbn; auto|]. vm_compute. reflexivity. Qed.
Print Assumptions C51_labels_refuted.
