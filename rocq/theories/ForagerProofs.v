(** Reading descriptions of foragers. *)
From Verif Require Import Base Bytes RecipeModel ForagerModel ForagerSpec.
From Verif Require RecipeProofs.
Local Arguments chr s%string_scope.

Ltac eqz := repeat match goal with
  | |- context [?a =? ?b] => first
      [ let r := eval vm_compute in (a =? b) in (match r with true => idtac | false => idtac end); change (a =? b) with r ]
  end; cbv iota.
Lemma skip_white w s : white w -> skip (w ++ s) = skip s.
Proof.
  induction 1 as [|c w W F IH]; [reflexivity|]. cbn [skip app].
  replace (is_space c) with true; [exact IH|]. symmetry. unfold is_space. lia.
Qed.
Lemma skip_at c r : is_space c = false -> skip (c :: r) = c :: r.
Proof. intros E. cbn [skip]. now rewrite E. Qed.
Lemma consume_at w c r : white w -> is_space c = false -> consume c (w ++ c :: r) = Some r.
Proof. intros W E. unfold consume. rewrite skip_white by exact W. rewrite skip_at by exact E. now rewrite Z.eqb_refl. Qed.
Lemma consume_not w c x r : white w -> is_space x = false -> x <> c -> consume c (w ++ x :: r) = None.
Proof.
  intros W E N. unfold consume. rewrite skip_white by exact W. rewrite skip_at by exact E.
  destruct (Z.eqb_spec x c); [contradiction|reflexivity].
Qed.

Lemma hexval_digit h d : hex_digit h d -> hexval h = d /\ 0 <= d < 16.
Proof. intros [e D|e D|e D]; change (chr "0") with 48; change (chr "a") with 97; change (chr "A") with 65; unfold hexval; split; try lia;
  repeat match goal with |- context [if ?b then _ else _] => destruct b eqn:? end; lia. Qed.
Lemma string_body_spells b s : spells b s -> forall r t, string_body (b ++ 34 :: t) r = Some (r ++ s, t).
Proof.
  induction 1 as [|c x s C1 C2 C3 _ IH|e c x s E _ IH|h0 h1 h2 h3 d0 d1 d2 d3 x s H0 H1 H2 H3 _ IH]; intros r t.
  - cbn. now rewrite app_nil_r.
  - cbn [app string_body]. destruct (Z.eqb_spec c 34); [contradiction|]. destruct (Z.eqb_spec c 92); [contradiction|].
    destruct (Z.ltb_spec c 32); [lia|]. rewrite IH, <- app_assoc. reflexivity.
  - cbn [app string_body]. destruct (Z.eqb_spec 92 34); [lia|]. rewrite Z.eqb_refl.
    unfold short_escapes in E. cbn [In] in E.
    destruct E as [E|[E|[E|[E|[E|[E|[E|[E|[]]]]]]]]]; injection E as <- <-; eqz; rewrite IH, <- app_assoc; reflexivity.
  - apply hexval_digit in H0 as [H0 B0], H1 as [H1 B1], H2 as [H2 B2], H3 as [H3 B3].
    cbn [app string_body]. destruct (Z.eqb_spec 92 34); [lia|]. rewrite Z.eqb_refl. eqz.
    rewrite H0, H1, H2, H3.
    replace (d0 <? 0) with false by lia. replace (d1 <? 0) with false by lia.
    replace (d2 <? 0) with false by lia. replace (d3 <? 0) with false by lia. cbn [orb].
    replace (4096 * d0 + 256 * d1 + 16 * d2 + d3) with (d0 * 16 ^ 3 + d1 * 16 ^ 2 + d2 * 16 + d3) by lia.
    rewrite IH, <- app_assoc. reflexivity.
Qed.
Lemma parse_string_text w x s t : white w -> string_text x s -> parse_string (w ++ x ++ t) = Some (s, t).
Proof.
  intros W (b & -> & B). unfold parse_string. rewrite skip_white by exact W. cbn [app]. rewrite skip_at by reflexivity.
  rewrite Z.eqb_refl, <- app_assoc. cbn [app]. now rewrite (string_body_spells _ _ B).
Qed.

(** What may follow a value. *)
Definition stops (t : bytes) : Prop := exists c r, t = c :: r /\ (c = 44 \/ c = 93 \/ c = 125 \/ c = 32 \/ 9 <= c <= 13).
Lemma stops_white w c r : white w -> c = 44 \/ c = 93 \/ c = 125 -> stops (w ++ c :: r).
Proof. intros [|x w' X _] C; [exists c, r|exists x, (w' ++ c :: r)]; split; auto; intuition lia. Qed.
Lemma digits_app d t : Forall (fun c => 48 <= c <= 57) d -> digits (d ++ t) = digits t.
Proof. induction 1 as [|c d C F IH]; [reflexivity|]. cbn [app digits]. replace (is_digit c) with true; [exact IH|]. unfold is_digit. lia. Qed.
Lemma digits_stop c r : ~ (48 <= c <= 57) -> digits (c :: r) = c :: r.
Proof. intros N. cbn [digits]. replace (is_digit c) with false; [reflexivity|]. unfold is_digit. lia. Qed.
Lemma some_digits_text d t : digit_text d -> some_digits (d ++ t) = Some (digits t).
Proof.
  intros [N F]. destruct F as [|c d C F]; [contradiction|]. cbn [app some_digits].
  replace (is_digit c) with true by (unfold is_digit; lia). f_equal. now apply digits_app.
Qed.
Lemma sign_text_app sg d t : sign_text sg -> digit_text d -> sign (sg ++ d ++ t) = d ++ t.
Proof.
  intros S [N F]. destruct F as [|c d C F]; [contradiction|]. destruct S as [->|[->| ->]]; try reflexivity.
  cbn [app sign]. destruct (Z.eqb_spec c (chr "-")) as [->|_]; [change (chr "-") with 45 in C; lia|].
  destruct (Z.eqb_spec c (chr "+")) as [->|_]; [change (chr "+") with 43 in C; lia|]. reflexivity.
Qed.
Lemma skip_number_text x t : number_text x -> stops t -> skip (x ++ t) = x ++ t /\ skip_number (x ++ t) = Some t /\
  (forall c r, x = c :: r -> c <> 34 /\ c <> 123 /\ c <> 91 /\ c <> 116 /\ c <> 102 /\ c <> 110 /\ c <> 93 /\ c <> 125 /\ is_space c = false) /\ x <> [].
Proof.
  intros (sg & ip & fp & ep & -> & SG & IP & FP & EP) (c & r & -> & C).
  assert (HD : exists c0 r0, sg ++ ip ++ fp ++ ep = c0 :: r0 /\ (c0 = 45 \/ c0 = 43 \/ 48 <= c0 <= 57)).
  { destruct IP as [N F]. destruct F as [|c0 d C0 F]; [contradiction|].
    destruct SG as [->|[->| ->]]; cbn [lit app]; eexists _, _; (split; [reflexivity|]); auto. }
  destruct HD as (c0 & r0 & HD & C0).
  assert (SP : is_space c0 = false) by (unfold is_space; lia).
  split; [rewrite HD; cbn [app]; now apply skip_at|]. split; [|split; [|rewrite HD; discriminate]].
  2:{ intros c1 r1 E. rewrite HD in E. injection E as <- <-. repeat split; try lia; exact SP. }
  unfold skip_number. rewrite HD at 1. cbn [app]. rewrite skip_at by exact SP.
  change (c0 :: r0 ++ c :: r) with ((c0 :: r0) ++ c :: r). rewrite <- HD.
  rewrite <- !app_assoc. rewrite sign_text_app by assumption. rewrite some_digits_text by exact IP.
  assert (ND : ~ 48 <= c <= 57) by lia.
  assert (T : digits (ep ++ c :: r) = ep ++ c :: r /\
    match ep ++ c :: r with c :: r => if (c =? chr "e") || (c =? chr "E") then some_digits (sign r) else Some (c :: r) | [] => Some [] end = Some (c :: r) /\
    exists c2 r2, ep ++ c :: r = c2 :: r2 /\ c2 <> 46).
  { destruct EP as [->|(e & sg' & d & -> & E & SG' & D)].
    - cbn [app]. split; [now apply digits_stop|]. split; [|exists c, r; split; [reflexivity|lia]].
      destruct (Z.eqb_spec c (chr "e")) as [->|_]; [change (chr "e") with 101 in C; lia|].
      destruct (Z.eqb_spec c (chr "E")) as [->|_]; [change (chr "E") with 69 in C; lia|]. reflexivity.
    - rewrite <- !app_assoc. destruct E as [-> | ->].
      + cbn [lit app]. split; [apply digits_stop; cbn; lia|]. split; [|eexists _, _; split; [reflexivity|cbn; lia]].
        cbn -[sign some_digits app]. rewrite sign_text_app by assumption. rewrite some_digits_text by exact D. eqz. cbn [orb]. f_equal. now apply digits_stop.
      + cbn [lit app]. split; [apply digits_stop; cbn; lia|]. split; [|eexists _, _; split; [reflexivity|cbn; lia]].
        cbn -[sign some_digits app]. rewrite sign_text_app by assumption. rewrite some_digits_text by exact D. eqz. cbn [orb]. f_equal. now apply digits_stop. }
  destruct T as (T1 & T2 & c2 & r2 & T3 & N2).
  destruct FP as [->|(f & -> & F)].
  - cbn [app]. rewrite T1. rewrite T3 in *. cbv zeta. destruct (Z.eqb_spec c2 (chr ".")) as [->|_]; [exfalso; apply N2; reflexivity|]. exact T2.
  - rewrite <- app_assoc. change (lit "." ++ f ++ ep ++ c :: r) with (chr "." :: f ++ ep ++ c :: r).
    rewrite digits_stop by (cbn; lia). cbv zeta iota. rewrite Z.eqb_refl.
    rewrite some_digits_text by exact F. rewrite T1. rewrite T3 in *. exact T2.
Qed.
Lemma after_literal_app l t : after_literal l (l ++ t) = Some t.
Proof. induction l as [|c l IH]; [reflexivity|]. cbn [app after_literal]. now rewrite Z.eqb_refl. Qed.

Lemma json_head v : json v -> exists c r, v = c :: r /\ is_space c = false /\ c <> 93 /\ c <> 125.
Proof.
  destruct 1 as [x s (b & -> & _)|x N| | | |w W|x E|w W|x P]; try (eexists _, _; split; [reflexivity|cbn; repeat split; lia]).
  - edestruct (skip_number_text x [44] N) as (_ & _ & H & NE); [exists 44, []; auto|].
    destruct x as [|c r]; [contradiction|]. exists c, r. split; [reflexivity|]. destruct (H c r eq_refl) as (?&?&?&?&?&?&?&?&?). auto.
Qed.

Scheme json_m := Minimality for json Sort Prop
  with elements_m := Minimality for elements Sort Prop
  with pairs_m := Minimality for pairs Sort Prop.
Combined Scheme json_all from json_m, elements_m, pairs_m.

Ltac norm := repeat rewrite <- app_assoc; cbn [app]; repeat rewrite <- app_assoc.
Lemma lit_comma : lit "," = [44]. Proof. reflexivity. Qed.
Lemma lit_colon : lit ":" = [58]. Proof. reflexivity. Qed.
Lemma lit_lb : lit "[" = [91]. Proof. reflexivity. Qed.
Lemma lit_rb : lit "]" = [93]. Proof. reflexivity. Qed.
Lemma lit_lc : lit "{" = [123]. Proof. reflexivity. Qed.
Lemma lit_rc : lit "}" = [125]. Proof. reflexivity. Qed.
Ltac lits := repeat rewrite ?lit_comma, ?lit_colon, ?lit_lb, ?lit_rb, ?lit_lc, ?lit_rc in *;
  change (chr ",") with 44 in *; change (chr ":") with 58 in *; change (chr "[") with 91 in *; change (chr "]") with 93 in *;
  change (chr "{") with 123 in *; change (chr "}") with 125 in *.

Lemma skip_value_white n w s : white w -> skip_value n (w ++ s) = skip_value n s.
Proof. intros W. destruct n as [|n]; [reflexivity|]. cbn [skip_value]. now rewrite skip_white. Qed.

Lemma reads_all :
  (forall x, json x -> forall n t, (2 * length x + 1 <= n)%nat -> stops t -> skip_value n (x ++ t) = Ok (Some t)) /\
  (forall x, elements x -> (forall t, consume 93 (x ++ t) = None) /\ forall n t, (2 * length x + 2 <= n)%nat -> array_items n (x ++ 93 :: t) = Ok (Some t)) /\
  (forall x, pairs x -> (forall t, consume 125 (x ++ t) = None) /\ forall n t, (2 * length x + 2 <= n)%nat -> object_items n (x ++ 125 :: t) = Ok (Some t)).
Proof.
  apply json_all.
  - (* string *) intros x s X n t N S. destruct n as [|n]; [lia|].
    pose proof (parse_string_text [] x s t (Forall_nil _) X) as Q. cbn [app] in Q.
    destruct X as (b & -> & B). cbn [app] in Q |- *. cbn [skip_value]. rewrite skip_at by reflexivity. rewrite Z.eqb_refl. rewrite Q. reflexivity.
  - (* number *) intros x X n t N S. destruct n as [|n]; [lia|]. destruct (skip_number_text x t X S) as (E & R & H & NE).
    cbn [skip_value]. rewrite E. destruct x as [|c r]; [contradiction|]. destruct (H c r eq_refl) as (?&?&?&?&?&?&?&?&?). cbn [app] in *.
    replace (c =? 34) with false by lia. change (chr "{") with 123. change (chr "[") with 91. change (chr "t") with 116. change (chr "f") with 102. change (chr "n") with 110.
    replace (c =? 123) with false by lia. replace (c =? 91) with false by lia. replace (c =? 116) with false by lia.
    replace (c =? 102) with false by lia. replace (c =? 110) with false by lia. now rewrite R.
  - intros n t N S. destruct n as [|n]; [cbn in N; lia|]. reflexivity.
  - intros n t N S. destruct n as [|n]; [cbn in N; lia|]. reflexivity.
  - intros n t N S. destruct n as [|n]; [cbn in N; lia|]. reflexivity.
  - intros w W n t N S. destruct n as [|n]; [lia|]. lits. norm. cbn [skip_value]. rewrite skip_at by reflexivity. eqz.
    lits. eqz. rewrite consume_at by (assumption || reflexivity). reflexivity.
  - intros x _ [C R] n t N S. destruct n as [|n]; [lia|]. lits. norm. cbn [skip_value]. rewrite skip_at by reflexivity. lits. eqz.
    rewrite C. apply R. rewrite !app_length in N. cbn [length] in N. lia.
  - intros w W n t N S. destruct n as [|n]; [lia|]. lits. norm. cbn [skip_value]. rewrite skip_at by reflexivity. lits. eqz.
    rewrite consume_at by (assumption || reflexivity). reflexivity.
  - intros x _ [C R] n t N S. destruct n as [|n]; [lia|]. lits. norm. cbn [skip_value]. rewrite skip_at by reflexivity. lits. eqz.
    rewrite C. apply R. rewrite !app_length in N. cbn [length] in N. lia.
  - intros w v w' W J IH W'. split.
    { intros t. destruct (json_head v J) as (c & r & -> & A & B & _). norm. now apply consume_not. }
    intros n t N. rewrite !app_length in N. destruct n as [|n]; [lia|]. norm. cbn [array_items]. rewrite skip_value_white by exact W.
    rewrite IH by (try lia; apply stops_white; auto). cbn [bind]. lits. rewrite consume_at by (assumption || reflexivity). reflexivity.
  - intros w v w' x W J IH W' _ [_ IHx]. split.
    { intros t. destruct (json_head v J) as (c & r & -> & A & B & _). norm. now apply consume_not. }
    intros n t N. rewrite !app_length in N. lits. cbn [length] in N. destruct n as [|n]; [lia|]. norm. cbn [array_items]. rewrite skip_value_white by exact W.
    rewrite IH by (try lia; apply stops_white; auto). cbn [bind]. lits. rewrite consume_not by (assumption || reflexivity || lia).
    rewrite consume_at by (assumption || reflexivity). apply IHx. lia.
  - intros w1 k s w2 w3 v w4 W1 K W2 W3 J IH W4. split.
    { intros t. destruct K as (b & -> & _). norm. now apply consume_not. }
    intros n t N. rewrite !app_length in N. lits. cbn [length] in N. destruct n as [|n]; [lia|]. norm. cbn [object_items].
    rewrite (parse_string_text _ _ _ _ W1 K). lits. rewrite consume_at by (assumption || reflexivity). rewrite skip_value_white by exact W3.
    rewrite IH by (try lia; apply stops_white; auto). cbn [bind]. rewrite consume_at by (assumption || reflexivity). reflexivity.
  - intros w1 k s w2 w3 v w4 x W1 K W2 W3 J IH W4 _ [_ IHx]. split.
    { intros t. destruct K as (b & -> & _). norm. now apply consume_not. }
    intros n t N. rewrite !app_length in N. lits. cbn [length] in N. destruct n as [|n]; [lia|]. norm. cbn [object_items].
    rewrite (parse_string_text _ _ _ _ W1 K). lits. rewrite consume_at by (assumption || reflexivity). rewrite skip_value_white by exact W3.
    rewrite IH by (try lia; apply stops_white; auto). cbn [bind]. rewrite consume_not by (assumption || reflexivity || lia).
    rewrite consume_at by (assumption || reflexivity). apply IHx. lia.
Qed.
Definition reads_value := proj1 reads_all.

Definition puts (m : params) (l : list (bytes * bytes)) : params := fold_left (fun m '(k, v) => put k v m) l m.
Lemma reads_parameters x l : string_members x l -> (forall t, consume 125 (x ++ t) = None) /\
  forall n t ps, (length x < n)%nat -> parameter_items n (x ++ 125 :: t) ps = Ok (Some (puts ps l, t)).
Proof.
  induction 1 as [w1 k s w2 w3 v u w4 W1 K W2 W3 V W4|w1 k s w2 w3 v u w4 x l W1 K W2 W3 V W4 _ [_ IH]].
  - split. { intros t. destruct K as (b & -> & _). norm. now apply consume_not. }
    intros n t ps N. destruct n as [|n]; [lia|]. lits. norm. cbn [parameter_items].
    rewrite (parse_string_text _ _ _ _ W1 K). lits. rewrite consume_at by (assumption || reflexivity).
    rewrite (parse_string_text _ _ _ _ W3 V). rewrite consume_at by (assumption || reflexivity). reflexivity.
  - split. { intros t. destruct K as (b & -> & _). norm. now apply consume_not. }
    intros n t ps N. rewrite !app_length in N. lits. cbn [length] in N. destruct n as [|n]; [lia|]. norm. cbn [parameter_items].
    rewrite (parse_string_text _ _ _ _ W1 K). lits. rewrite consume_at by (assumption || reflexivity).
    rewrite (parse_string_text _ _ _ _ W3 V). rewrite consume_not by (assumption || reflexivity || lia).
    rewrite consume_at by (assumption || reflexivity). rewrite IH by lia. reflexivity.
Qed.

Definition tell (d : description) (m : said) : description :=
  match m with
  | Name s => Desc s (d_tag d) (d_params d) true
  | Tag s => Desc (d_name d) s (d_params d) (d_named d)
  | Parameters l => Desc (d_name d) (d_tag d) (puts (d_params d) l) (d_named d)
  | Nothing => d
  end.
Lemma reads_member k v m : member_text k v m -> forall n w t d, (2 * length v + 1 <= n)%nat -> white w -> stops t ->
  member n k (w ++ v ++ t) d = Ok (Some (tell d m, t)).
Proof.
  intros M n w t d N W S. unfold member. destruct M as [v s V|v s V|v l O|v J NO|k v K1 K2 K3 J].
  - rewrite eqb_bytes_refl, (parse_string_text _ _ _ _ W V). reflexivity.
  - replace (eqb_bytes (lit "tag") (lit "name")) with false by reflexivity. rewrite eqb_bytes_refl, (parse_string_text _ _ _ _ W V). reflexivity.
  - replace (eqb_bytes (lit "parameters") (lit "name")) with false by reflexivity.
    replace (eqb_bytes (lit "parameters") (lit "tag")) with false by reflexivity. rewrite eqb_bytes_refl.
    destruct O as [(-> & u & U & ->)|(b & -> & B)]; lits; norm; rewrite consume_at by (assumption || reflexivity); unfold parse_parameters; lits.
    + rewrite consume_at by (assumption || reflexivity). reflexivity.
    + destruct (reads_parameters _ _ B) as [C R]. rewrite C. rewrite R by (rewrite !app_length in N; cbn [length] in N; lia). reflexivity.
  - replace (eqb_bytes (lit "parameters") (lit "name")) with false by reflexivity.
    replace (eqb_bytes (lit "parameters") (lit "tag")) with false by reflexivity. rewrite eqb_bytes_refl.
    destruct (json_head v J) as (c & r & -> & A & B). lits.
    replace (consume 123 (w ++ (c :: r) ++ t)) with (@None bytes)
      by (symmetry; apply consume_not; [exact W|exact A|intros ->; apply (NO r); reflexivity]).
    rewrite skip_value_white by exact W. rewrite (reads_value _ J) by (exact N || exact S). reflexivity.
  - rewrite (proj2 (eqb_bytes_neq _ _) K1), (proj2 (eqb_bytes_neq _ _) K2), (proj2 (eqb_bytes_neq _ _) K3). rewrite skip_value_white by exact W. rewrite (reads_value _ J) by (exact N || exact S). reflexivity.
Qed.
Lemma reads_members x l : member_list x l -> (forall t, consume 125 (x ++ t) = None) /\
  forall n t d, (2 * length x + 2 <= n)%nat -> members n (x ++ 125 :: t) d = Ok (Some (fold_left tell l d, t)).
Proof.
  induction 1 as [w1 k s w2 w3 v m w4 W1 K W2 W3 V W4|w1 k s w2 w3 v m w4 x l W1 K W2 W3 V W4 _ [_ IH]].
  - split. { intros t. destruct K as (b & -> & _). norm. now apply consume_not. }
    intros n t d N. rewrite !app_length in N. lits. cbn [length] in N. destruct n as [|n]; [lia|]. norm. cbn [members].
    rewrite (parse_string_text _ _ _ _ W1 K). lits. rewrite consume_at by (assumption || reflexivity).
    rewrite (reads_member _ _ _ V) by (try lia; auto using stops_white). cbn [bind].
    rewrite consume_at by (assumption || reflexivity). reflexivity.
  - split. { intros t. destruct K as (b & -> & _). norm. now apply consume_not. }
    intros n t d N. rewrite !app_length in N. lits. cbn [length] in N. destruct n as [|n]; [lia|]. norm. cbn [members].
    rewrite (parse_string_text _ _ _ _ W1 K). lits. rewrite consume_at by (assumption || reflexivity).
    rewrite (reads_member _ _ _ V) by (try lia; auto using stops_white). cbn [bind].
    rewrite consume_not by (assumption || reflexivity || lia). rewrite consume_at by (assumption || reflexivity). rewrite IH by lia. reflexivity.
Qed.
Lemma tell_all l : forall d o, d_named d = match o with Some _ => true | None => false end -> (forall s, o = Some s -> d_name d = s) ->
  let d' := fold_left tell l d in
  let o' := fold_left (fun o m => match m with Name s => Some s | _ => o end) l o in
  d_named d' = match o' with Some _ => true | None => false end /\ (forall s, o' = Some s -> d_name d' = s) /\
  d_tag d' = fold_left (fun o m => match m with Tag s => s | _ => o end) l (d_tag d) /\
  d_params d' = puts (d_params d) (all_parameters l).
Proof.
  induction l as [|m l IH]; intros d o D1 D2; cbn [fold_left].
  - cbv zeta. unfold all_parameters, puts. cbn. auto.
  - destruct m as [s|s|ps|].
    + destruct (IH (tell d (Name s)) (Some s)) as (A & B & C & E); [reflexivity|now intros ? [= <-]|]. cbv zeta. auto.
    + destruct (IH (tell d (Tag s)) o) as (A & B & C & E); [exact D1|exact D2|]. cbv zeta. auto.
    + destruct (IH (tell d (Parameters ps)) o) as (A & B & C & E); [exact D1|exact D2|]. cbv zeta. repeat (split; [assumption|]).
      rewrite E. cbn [tell d_params]. unfold all_parameters, puts. cbn [flat_map]. now rewrite fold_left_app.
    + destruct (IH (tell d Nothing) o) as (A & B & C & E); [exact D1|exact D2|]. cbv zeta. auto.
Qed.
Lemma skip_nulls_all z : Forall (eq 0) z -> skip_nulls z = [].
Proof. induction 1 as [|c z C F IH]; [reflexivity|]. subst c. exact IH. Qed.
Definition as_map (l : list (bytes * bytes)) : params := puts [] l.
Theorem reads_description0 x l : describes x l ->
  json2forager x = Ok (match last_name l with Some n => Some (n, last_tag l, as_map (all_parameters l)) | None => None end).
Proof.
  intros (w & b & w' & z & -> & W & B & W' & ZZ). unfold json2forager. lits. norm. rewrite consume_at by (assumption || reflexivity).
  destruct (reads_members _ _ B) as [C R]. rewrite C. rewrite R by (rewrite !app_length; cbn [length]; rewrite !app_length; lia). cbn [bind].
  rewrite skip_white by exact W'.
  replace (skip_nulls (skip z)) with (@nil Z) by (symmetry; destruct ZZ as [|c z <- ZZ]; [reflexivity|]; rewrite skip_at by reflexivity; apply (skip_nulls_all (0 :: z)); now constructor).
  destruct (tell_all l (Desc [] [] [] false) None) as (A1 & A2 & A3 & A4); [reflexivity|discriminate|]. cbv zeta in *.
  fold (last_name l) in *. rewrite A1. destruct (last_name l) as [s|] eqn:E; [|reflexivity].
  rewrite (A2 s eq_refl), A3, A4. reflexivity.
Qed.

(** ** The text that is written *)
Lemma hex_hex d : 0 <= d < 16 -> hex_digit (hex d) d.
Proof.
  intros D.
  assert (E : d <= 9 -> hex d = chr "0" + d).
  { intros L. assert (C : forallb (fun d => hex d =? chr "0" + d) [0;1;2;3;4;5;6;7;8;9] = true) by reflexivity.
    rewrite forallb_forall in C. apply Z.eqb_eq, C. cbn [In]. lia. }
  assert (F : 10 <= d -> hex d = chr "a" + (d - 10)).
  { intros L. assert (C : forallb (fun d => hex d =? chr "a" + (d - 10)) [10;11;12;13;14;15] = true) by reflexivity.
    rewrite forallb_forall in C. apply Z.eqb_eq, C. cbn [In]. lia. }
  destruct (Z_le_gt_dec d 9) as [L|G]; [rewrite E by lia; apply Hex_digit; lia|rewrite F by lia; apply Hex_lower; lia].
Qed.
Lemma spells_escaped s : of_bytes s -> spells (flat_map escaped s) s.
Proof.
  induction 1 as [|c s [C1 C2] F IH]; [constructor|]. cbn [flat_map]. unfold escaped.
  repeat match goal with |- context [if ?a =? ?b then _ else _] => destruct (Z.eqb_spec a b) as [->|?];
    [apply Spells_short; [cbn; tauto|exact IH]|] end.
  destruct (Z.ltb_spec c 32) as [L|G].
  - cbn [app]. replace (c :: s) with ((let code := 0 * 16 ^ 3 + 0 * 16 ^ 2 + (c / 16) * 16 + c mod 16 in if code <=? 255 then code else chr "?") :: s).
    + apply Spells_code; [apply (Hex_digit 0); lia|apply (Hex_digit 0); lia|apply hex_hex|apply hex_hex|exact IH].
      * split; [apply Z.div_pos; lia|apply Z.div_lt_upper_bound; lia].
      * apply Z.mod_pos_bound. lia.
    + cbv zeta. replace (0 * 16 ^ 3 + 0 * 16 ^ 2 + (c / 16) * 16 + c mod 16) with c by (pose proof (Z.div_mod c 16); lia).
      destruct (Z.leb_spec c 255); [reflexivity|lia].
  - cbn [app]. apply Spells_plain; assumption.
Qed.
Lemma quoted_text s : of_bytes s -> string_text (quoted s) s.
Proof. intros B. exists (flat_map escaped s). split; [reflexivity|now apply spells_escaped]. Qed.
Lemma white_all w : forallb is_space w = true -> white w.
Proof. intros F. rewrite forallb_forall in F. apply Forall_forall. intros c I. apply F in I. unfold is_space in I. lia. Qed.
Lemma members_white u x l : white u -> string_members x l -> string_members (u ++ x) l.
Proof.
  intros U S. destruct S as [w1 k s w2 w3 v t w4 W1 K W2 W3 V W4|w1 k s w2 w3 v t w4 x l W1 K W2 W3 V W4 S]; rewrite (app_assoc u w1).
  - apply S_one; auto. now apply Forall_app.
  - apply S_more; auto. now apply Forall_app.
Qed.
Lemma parameter_lines_text ps : forall k v, map_of_bytes ((k, v) :: ps) -> forall w, white w ->
  string_members (parameter_lines ((k, v) :: ps) ++ w) ((k, v) :: ps).
Proof.
  induction ps as [|[k' v'] ps IH]; intros k v M w W; apply Forall_cons_iff in M as [[K V] M'].
  - cbn [parameter_lines]. rewrite app_nil_r. rewrite <- !app_assoc.
    change (lit "    " ++ quoted k ++ lit ": " ++ quoted v ++ w) with (lit "    " ++ quoted k ++ [] ++ lit ":" ++ [32] ++ quoted v ++ w).
    apply S_one; try apply quoted_text; try (apply white_all; reflexivity); assumption.
  - change (parameter_lines ((k, v) :: (k', v') :: ps)) with
      (lit "    " ++ quoted k ++ lit ": " ++ quoted v ++ [44; 10] ++ parameter_lines ((k', v') :: ps)).
    rewrite <- !app_assoc.
    change (lit "    " ++ quoted k ++ lit ": " ++ quoted v ++ [44; 10] ++ parameter_lines ((k', v') :: ps) ++ w) with
      (lit "    " ++ quoted k ++ [] ++ lit ":" ++ [32] ++ quoted v ++ [] ++ lit "," ++ ([10] ++ parameter_lines ((k', v') :: ps) ++ w)).
    apply S_more; try apply quoted_text; try (apply white_all; reflexivity); try assumption.
    apply members_white; [apply white_all; reflexivity|]. exact (IH k' v' M' w W).
Qed.
Lemma parameters_text ps : map_of_bytes ps -> string_object (lit "{" ++ [10] ++ parameter_lines ps ++ [10] ++ lit "  " ++ lit "}") ps.
Proof.
  intros M. destruct ps as [|[k v] ps].
  - left. split; [reflexivity|]. exists ([10; 10] ++ lit "  "). split; [apply white_all; reflexivity|reflexivity].
  - right. exists ([10] ++ parameter_lines ((k, v) :: ps) ++ [10] ++ lit "  "). split; [now rewrite <- !app_assoc|].
    pose proof (parameter_lines_text ps k v M ([10] ++ lit "  ") ltac:(apply white_all; reflexivity)) as S.
    apply members_white; [apply white_all; reflexivity|]. exact S.
Qed.
Theorem written_describes name tag ps tail nuls : of_bytes name -> of_bytes tag -> map_of_bytes ps -> white tail -> Forall (eq 0) nuls ->
  describes (forager2json name tag ps ++ tail ++ nuls) [Name name; Tag tag; Parameters ps].
Proof.
  intros N T P W Z.
  exists [], ([10] ++ lit "  " ++ ([34] ++ lit "name" ++ [34]) ++ [] ++ lit ":" ++ [32] ++ quoted name ++ [] ++ lit "," ++
          ([10] ++ lit "  ") ++ ([34] ++ lit "tag" ++ [34]) ++ [] ++ lit ":" ++ [32] ++ quoted tag ++ [] ++ lit "," ++
          ([10] ++ lit "  ") ++ ([34] ++ lit "parameters" ++ [34]) ++ [] ++ lit ":" ++ [32] ++
          (lit "{" ++ [10] ++ parameter_lines ps ++ [10] ++ lit "  " ++ lit "}") ++ [10]), (10 :: tail), nuls.
  assert (K : forall s, Forall (fun c => 32 <= c /\ c <> 34 /\ c <> 92) s -> string_text ([34] ++ s ++ [34]) s).
  { intros s F. exists s. split; [reflexivity|]. induction F as [|c s (A & B & C) F IH]; [constructor|]. now apply Spells_plain. }
  split; [|split; [constructor|split; [|split; [now constructor; [lia|]|assumption]]]].
  - unfold forager2json. norm. reflexivity.
  - rewrite app_assoc.
    eapply ML_more; [apply white_all; reflexivity|apply K; repeat (constructor; [cbn; lia|]); constructor|constructor|apply white_all; reflexivity|apply M_name; now apply quoted_text|constructor|].
    eapply ML_more; [apply white_all; reflexivity|apply K; repeat (constructor; [cbn; lia|]); constructor|constructor|apply white_all; reflexivity|apply M_tag; now apply quoted_text|constructor|].
    eapply ML_one; [apply white_all; reflexivity|apply K; repeat (constructor; [cbn; lia|]); constructor|constructor|apply white_all; reflexivity|apply M_parameters; now apply parameters_text|apply white_all; reflexivity].
Qed.
Lemma puts_map l : forall m, is_map l -> (forall k v k' v', In (k, v) m -> In (k', v') l -> before k k' = true) -> puts m l = m ++ l.
Proof.
  unfold puts. induction l as [|[k v] l IH]; intros m L M; cbn [fold_left]; [now rewrite app_nil_r|]. destruct L as [L1 L2].
  rewrite RecipeProofs.put_last by (intros k' v' I; now apply (M k' v' k v); [|left]).
  rewrite IH; [now rewrite <- app_assoc|exact L2|].
  intros k1 v1 k2 v2 I1 I2. apply in_app_or in I1 as [I1|[[= <- <-]|[]]]; [now apply (M k1 v1 k2 v2); [|right]|now apply (L1 k2 v2)].
Qed.
Theorem reads_back name tag ps tail nuls : of_bytes name -> of_bytes tag -> map_of_bytes ps -> is_map ps -> white tail -> Forall (eq 0) nuls ->
  json2forager (forager2json name tag ps ++ tail ++ nuls) = Ok (Some (name, tag, ps)).
Proof.
  intros N T P M W Z. rewrite (reads_description0 _ _ (written_describes name tag ps tail nuls N T P W Z)).
  unfold last_name, last_tag, all_parameters, as_map. cbn [fold_left flat_map]. rewrite app_nil_r.
  do 4 f_equal. apply (puts_map ps []); [exact M|intros ? ? ? ? []].
Qed.

Lemma put_in k v m : is_map m -> forall k' v', In (k', v') (put k v m) <-> (k' = k /\ v' = v) \/ (k' <> k /\ In (k', v') m).
Proof.
  induction m as [|[a b] m IH]; intros M k' v'; cbn [put].
  - cbn [In]. split; [intros [[= <- <-]|[]]; auto|intros [[-> ->]|[_ []]]; auto].
  - destruct M as [M1 M2]. destruct (eqb_bytes k a) eqn:E.
    + apply eqb_bytes_eq in E as ->. cbn [In]. split.
      * intros [[= <- <-]|I]; [auto|]. right. split; [|auto]. intros ->. apply M1 in I. now rewrite RecipeProofs.before_irrefl in I.
      * intros [[-> ->]|[N [[= <- <-]|I]]]; [auto|contradiction|auto].
    + apply eqb_bytes_neq in E. destruct (before k a) eqn:B.
      * cbn [In]. split.
        -- intros [[= <- <-]|I]; [auto|]. right. split; [|exact I]. intros ->. destruct I as [[= <- <-]|I]; [contradiction|].
           apply M1 in I. pose proof (RecipeProofs.before_trans _ _ _ B I) as H. now rewrite RecipeProofs.before_irrefl in H.
        -- intros [[-> ->]|[N I]]; auto.
      * cbn [In]. rewrite (IH M2). split.
        -- intros [[= <- <-]|[H|[N I]]]; auto.
        -- intros [[-> ->]|[N [H|I]]]; auto.
Qed.
Lemma put_map k v m : is_map m -> is_map (put k v m).
Proof.
  induction m as [|[a b] m IH]; intros M; cbn [put]; [split; [intros ? ? []|exact I]|].
  destruct (eqb_bytes k a) eqn:E; [apply eqb_bytes_eq in E as ->; exact M|]. apply eqb_bytes_neq in E.
  destruct M as [M1 M2]. destruct (before k a) eqn:B.
  - split; [|split; assumption]. intros k' v' [[= <- <-]|I]; [exact B|]. apply M1 in I. exact (RecipeProofs.before_trans _ _ _ B I).
  - split; [|now apply IH]. intros k' v' I. apply (put_in _ _ _ M2) in I as [[-> ->]|[_ I]]; [now apply RecipeProofs.before_total|now apply (M1 k' v')].
Qed.
Lemma puts_spec l : forall m, is_map m -> is_map (puts m l) /\
  forall k v, In (k, v) (puts m l) <-> match fold_left (fun o '(k', v) => if eqb_bytes k' k then Some v else o) l None with Some x => v = x | None => In (k, v) m end.
Proof.
  unfold puts. induction l as [|[a b] l IH]; intros m M; cbn [fold_left]; [split; [exact M|reflexivity]|].
  destruct (IH (put a b m) (put_map _ _ _ M)) as [I1 I2]. split; [exact I1|]. intros k v. rewrite I2.
  assert (F : forall l o, fold_left (fun o '(k', v) => if eqb_bytes k' k then Some v else o) l o =
    match fold_left (fun (o : option bytes) '(k', v) => if eqb_bytes k' k then Some v else o) l None with Some x => Some x | None => o end).
  { clear. induction l as [|[a b] l IH]; intros o; cbn [fold_left]; [reflexivity|]. rewrite IH, (IH (if eqb_bytes a k then Some b else None)).
    destruct (fold_left _ l None); [reflexivity|]. now destruct (eqb_bytes a k). }
  rewrite (F l (if eqb_bytes a k then Some b else None)). destruct (fold_left _ l None) as [x|]; [reflexivity|].
  rewrite (put_in _ _ _ M). destruct (eqb_bytes a k) eqn:E.
  - apply eqb_bytes_eq in E as ->. split; [intros [[_ ->]|[N _]]; [reflexivity|contradiction]|intros ->; auto].
  - apply eqb_bytes_neq in E. split; [intros [[-> _]|[_ I]]; [contradiction|exact I]|intros I; right; split; [congruence|exact I]].
Qed.
Theorem reads_description x l : describes x l ->
  match last_name l with
  | Some n => exists ps, json2forager x = Ok (Some (n, last_tag l, ps)) /\ is_map ps /\
      forall k v, In (k, v) ps <-> last_value k (all_parameters l) = Some v
  | None => json2forager x = Ok None
  end.
Proof.
  intros D. rewrite (reads_description0 _ _ D). destruct (last_name l) as [n|]; [|reflexivity].
  destruct (puts_spec (all_parameters l) [] I) as [A B]. exists (as_map (all_parameters l)). split; [reflexivity|]. split; [exact A|].
  intros k v. unfold as_map. rewrite B. unfold last_value. destruct (fold_left _ (all_parameters l) None) as [y|]; cbn [In];
    split; try discriminate; [intros ->; reflexivity|now intros [= <-]|intros []].
Qed.

(** ** Reading ends *)
Lemma skip_le s : (length (skip s) <= length s)%nat. Proof. apply RecipeProofs.skip_length. Qed.
Lemma consume_less c s t : consume c s = Some t -> (length t < length s)%nat.
Proof. unfold consume. pose proof (skip_le s). destruct (skip s) as [|x r]; [discriminate|]. destruct (x =? c); [|discriminate]. intros [= <-]. cbn in *. lia. Qed.
Lemma string_body_less n : forall s r v t, (length s <= n)%nat -> string_body s r = Some (v, t) -> (length t < length s)%nat.
Proof.
  induction n as [|n IH]; intros s r v t L E.
  - destruct s; [discriminate|cbn in L; lia].
  - destruct s as [|c s]; [discriminate|]. cbn [length] in L. cbn [string_body] in E.
    destruct (c =? 34); [injection E as <- <-; cbn; lia|].
    destruct (c =? 92).
    + destruct s as [|e s]; [discriminate|]. cbn [length] in *.
      repeat match type of E with (if ?b then _ else _) = _ => destruct b end;
        try (apply IH in E; [lia|lia]); try discriminate.
      destruct s as [|h0 [|h1 [|h2 [|h3 s]]]]; try discriminate. cbn [length] in *.
      match type of E with (if ?b then _ else _) = _ => destruct b end; [discriminate|]. apply IH in E; [lia|lia].
    + destruct (c <? 32); [discriminate|]. apply IH in E; cbn [length]; lia.
Qed.
Lemma parse_string_less s v t : parse_string s = Some (v, t) -> (length t < length s)%nat.
Proof.
  unfold parse_string. pose proof (skip_le s). destruct (skip s) as [|c r]; [discriminate|]. destruct (c =? 34); [|discriminate].
  intros E. apply (string_body_less (length r)) in E; [|lia]. cbn in *. lia.
Qed.
Lemma digits_le s : (length (digits s) <= length s)%nat.
Proof. induction s as [|c s IH]; [constructor|]. cbn [digits]. destruct (is_digit c); cbn [length]; lia. Qed.
Lemma some_digits_less s t : some_digits s = Some t -> (length t < length s)%nat.
Proof. destruct s as [|c s]; [discriminate|]. cbn. destruct (is_digit c); [|discriminate]. intros [= <-]. pose proof (digits_le s). lia. Qed.
Lemma sign_le s : (length (sign s) <= length s)%nat.
Proof. destruct s as [|c s]; [constructor|]. cbn [sign]. destruct (_ || _); cbn; lia. Qed.
Lemma skip_number_less s t : skip_number s = Some t -> (length t < length s)%nat.
Proof.
  unfold skip_number. pose proof (skip_le s). pose proof (sign_le (skip s)). destruct (some_digits (sign (skip s))) as [s1|] eqn:E1; [|discriminate].
  apply some_digits_less in E1. cbv zeta.
  match goal with |- match ?X with _ => _ end = _ -> _ => destruct X as [s2|] eqn:E2 end; [|discriminate].
  assert (L2 : (length s2 <= length s1)%nat).
  { destruct s1 as [|c r]; [injection E2 as <-; lia|]. destruct (c =? chr "."); [apply some_digits_less in E2; cbn; lia|injection E2 as <-; lia]. }
  destruct s2 as [|c r]; [intros [= <-]; lia|]. destruct (_ || _).
  - intros E. apply some_digits_less in E. pose proof (sign_le r). cbn in *. lia.
  - intros [= <-]. lia.
Qed.
Lemma after_literal_le l : forall s t, after_literal l s = Some t -> (length t <= length s)%nat.
Proof. induction l as [|x l IH]; intros s t E; cbn in E; [injection E as <-; lia|]. destruct s as [|c s]; [discriminate|]. destruct (c =? x); [|discriminate]. apply IH in E. cbn. lia. Qed.
Definition ends (r : res (option bytes)) (s : bytes) : Prop := exists o, r = Ok o /\ forall t, o = Some t -> (length t < length s)%nat.
Lemma skipping_ends n :
  (forall s, (2 * length s + 1 <= n)%nat -> ends (skip_value n s) s) /\ (forall s, (2 * length s + 2 <= n)%nat -> ends (array_items n s) s) /\ (forall s, (2 * length s + 2 <= n)%nat -> ends (object_items n s) s).
Proof.
  induction n as [|n (IHv & IHa & IHo)]; [repeat split; intros; lia|].
  assert (NO : forall s, ends (Ok None) s) by (intros s; exists None; split; [reflexivity|discriminate]).
  split; [|split]; intros s L.
  - cbn [skip_value]. pose proof (skip_le s) as K. destruct (skip s) as [|c r]; [apply NO|]. cbn [length] in K.
    assert (LT : forall o, (forall t, o = Some t -> (length t < length (c :: r))%nat) -> ends (Ok o) s).
    { intros o H. exists o. split; [reflexivity|]. intros t E. apply H in E. cbn in E. lia. }
    assert (LE : forall x, ends x r -> ends x s). { intros x (o & -> & H). apply LT. intros t E. apply H in E. cbn. lia. }
    destruct (c =? 34).
    { apply LT. intros t. destruct (parse_string (c :: r)) as [[v u]|] eqn:E; [|discriminate]. intros [= <-]. now apply parse_string_less in E. }
    destruct (c =? chr "{").
    { destruct (consume _ r) as [t|] eqn:E; [|apply LE, IHo; lia]. apply LE. exists (Some t). split; [reflexivity|]. intros ? [= <-]. now apply consume_less in E. }
    destruct (c =? chr "[").
    { destruct (consume _ r) as [t|] eqn:E; [|apply LE, IHa; lia]. apply LE. exists (Some t). split; [reflexivity|]. intros ? [= <-]. now apply consume_less in E. }
    assert (AL : forall x l, ends (Ok (after_literal (x :: l) (c :: r))) s).
    { intros x l. apply LT. intros t E. cbn in E. destruct (c =? x); [|discriminate]. apply after_literal_le in E. cbn. lia. }
    destruct (c =? chr "t"); [apply AL|]. destruct (c =? chr "f"); [apply AL|]. destruct (c =? chr "n"); [apply AL|].
    apply LT. intros t E. now apply skip_number_less.
  - cbn [array_items]. destruct (IHv s ltac:(lia)) as (o & -> & H). cbn [bind]. destruct o as [s1|]; [|apply NO].
    specialize (H s1 eq_refl). destruct (consume _ s1) as [t|] eqn:E.
    { exists (Some t). split; [reflexivity|]. intros ? [= <-]. apply consume_less in E. lia. }
    destruct (consume (chr ",") s1) as [t|] eqn:E'; [|apply NO]. apply consume_less in E'.
    destruct (IHa t ltac:(lia)) as (o & -> & H'). exists o. split; [reflexivity|]. intros u U. apply H' in U. lia.
  - cbn [object_items]. destruct (parse_string s) as [[k s1]|] eqn:E0; [|apply NO]. apply parse_string_less in E0.
    destruct (consume _ s1) as [s2|] eqn:E1; [|apply NO]. apply consume_less in E1.
    destruct (IHv s2 ltac:(lia)) as (o & -> & H). cbn [bind]. destruct o as [s3|]; [|apply NO].
    specialize (H s3 eq_refl). destruct (consume (chr "}") s3) as [t|] eqn:E.
    { exists (Some t). split; [reflexivity|]. intros ? [= <-]. apply consume_less in E. lia. }
    destruct (consume (chr ",") s3) as [t|] eqn:E'; [|apply NO]. apply consume_less in E'.
    destruct (IHo t ltac:(lia)) as (o & -> & H'). exists o. split; [reflexivity|]. intros u U. apply H' in U. lia.
Qed.
Definition ends2 {A} (r : res (option (A * bytes))) (s : bytes) : Prop := exists o, r = Ok o /\ forall a t, o = Some (a, t) -> (length t < length s)%nat.
Lemma parameters_end n : forall s ps, (length s < n)%nat -> ends2 (parameter_items n s ps) s.
Proof.
  induction n as [|n IH]; intros s ps L; [lia|].
  assert (NO : ends2 (A := params) (Ok None) s) by (exists None; split; [reflexivity|discriminate]).
  cbn [parameter_items]. destruct (parse_string s) as [[k s1]|] eqn:E0; [|apply NO]. apply parse_string_less in E0.
  destruct (consume _ s1) as [s2|] eqn:E1; [|apply NO]. apply consume_less in E1.
  destruct (parse_string s2) as [[v s3]|] eqn:E2; [|apply NO]. apply parse_string_less in E2.
  destruct (consume (chr "}") s3) as [t|] eqn:E.
  { eexists. split; [reflexivity|]. intros ? ? [= <- <-]. apply consume_less in E. lia. }
  destruct (consume (chr ",") s3) as [t|] eqn:E'; [|apply NO]. apply consume_less in E'.
  destruct (IH t (put k v ps) ltac:(lia)) as (o & -> & H'). exists o. split; [reflexivity|]. intros a u U. apply H' in U. lia.
Qed.
Lemma member_ends n k s d : (2 * length s + 1 <= n)%nat -> ends2 (member n k s d) s.
Proof.
  intros L. unfold member.
  assert (V : ends2 (let* r := skip_value n s in Ok (match r with Some u => Some (d, u) | None => None end)) s).
  { destruct (proj1 (skipping_ends n) s L) as (o & -> & H). cbn [bind]. eexists. split; [reflexivity|]. intros a t E.
    destruct o as [u|]; [|discriminate]. injection E as <- <-. now apply H. }
  assert (S : forall f : bytes -> description, ends2 (Ok (match parse_string s with Some (v, t) => Some (f v, t) | None => None end)) s).
  { intros f. eexists. split; [reflexivity|]. intros a t E. destruct (parse_string s) as [[v u]|] eqn:P; [|discriminate]. injection E as <- <-. now apply parse_string_less in P. }
  destruct (eqb_bytes k (lit "name")); [apply S|]. destruct (eqb_bytes k (lit "tag")); [apply S|].
  destruct (eqb_bytes k (lit "parameters")); [|exact V]. destruct (consume (chr "{") s) as [t|] eqn:E; [|exact V]. apply consume_less in E.
  unfold parse_parameters. destruct (consume (chr "}") t) as [u|] eqn:E'.
  { apply consume_less in E'. eexists. split; [reflexivity|]. intros a x [= <- <-]. lia. }
  destruct (parameters_end n t (d_params d) ltac:(lia)) as (o & -> & H). cbn [bind]. eexists. split; [reflexivity|].
  intros a x X. destruct o as [[ps u]|]; [|discriminate]. injection X as <- <-. specialize (H _ _ eq_refl). lia.
Qed.
Lemma members_end n : forall s d, (2 * length s + 2 <= n)%nat -> ends2 (members n s d) s.
Proof.
  induction n as [|n IH]; intros s d L; [lia|].
  assert (NO : ends2 (A := description) (Ok None) s) by (exists None; split; [reflexivity|discriminate]).
  cbn [members]. destruct (parse_string s) as [[k s1]|] eqn:E0; [|apply NO]. apply parse_string_less in E0.
  destruct (consume _ s1) as [s2|] eqn:E1; [|apply NO]. apply consume_less in E1.
  destruct (member_ends n k s2 d ltac:(lia)) as (o & -> & H). cbn [bind]. destruct o as [[d' s3]|]; [|apply NO]. specialize (H _ _ eq_refl).
  destruct (consume (chr "}") s3) as [t|] eqn:E.
  { eexists. split; [reflexivity|]. intros ? ? [= <- <-]. apply consume_less in E. lia. }
  destruct (consume (chr ",") s3) as [t|] eqn:E'; [|apply NO]. apply consume_less in E'.
  destruct (IH t d' ltac:(lia)) as (o & -> & H'). exists o. split; [reflexivity|]. intros a u U. apply H' in U. lia.
Qed.
Theorem reading_ends x : exists o, json2forager x = Ok o.
Proof.
  unfold json2forager. destruct (consume (chr "{") x) as [s|] eqn:E; [|now eexists]. apply consume_less in E. cbv zeta.
  destruct (consume (chr "}") s) as [t|] eqn:E'; [cbn [bind]; now eexists|].
  destruct (members_end (2 * length x + 2) s (Desc [] [] [] false) ltac:(lia)) as (o & -> & _). cbn [bind]. now eexists.
Qed.

(** ** Labels *)
Lemma colon_split a b x y : no_colon a -> no_colon b -> a ++ [chr ":"] ++ x = b ++ [chr ":"] ++ y -> a = b /\ x = y.
Proof.
  revert b. induction a as [|c a IH]; intros b A B E; destruct b as [|d b]; cbn [app] in E.
  - injection E as <-. auto.
  - injection E as <- _. exfalso. apply B. now left.
  - injection E as -> _. exfalso. apply A. now left.
  - injection E as <- E. destruct (IH b) as [-> ->]; auto; intros I; [apply A|apply B]; now right.
Qed.
Theorem labels_differ n t n' t' : n <> [] -> n' <> [] -> no_colon n -> no_colon n' -> forager_label n t = forager_label n' t' -> n = n' /\ t = t'.
Proof.
  intros N N' C C' E. unfold forager_label in E. destruct n as [|c n]; [contradiction|]. destruct n' as [|c' n']; [contradiction|].
  rewrite <- !app_assoc in E. cbv zeta in E. cbn [app] in E.
  destruct (colon_split (c :: n) (c' :: n') _ _ C C' E) as [-> E']. split; [reflexivity|].
  destruct t as [|d t]; destruct t' as [|d' t']; try reflexivity; try discriminate.
  now apply app_inj_tail in E' as [E' _].
Qed.
