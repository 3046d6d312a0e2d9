(** Splitting into lines and fields. *)
From Verif Require Import Base Bytes TsvModel TsvSpec.
From Verif Require RecipeModel.
Local Notation is_space := RecipeModel.is_space.

Lemma split_lines_from_ok n : forall s line, (length s <= n)%nat -> plain_line line ->
  exists ls, split_lines_from s line = ls /\ text_lines (line ++ s) ls.
Proof.
  induction n as [|n IH]; intros s line L P.
  - destruct s; [|cbn in L; lia]. eexists. split; [reflexivity|]. rewrite app_nil_r. cbn. destruct line as [|c l]; [constructor|]. apply TL_last; [exact P|discriminate].
  - destruct s as [|c r].
    { eexists. split; [reflexivity|]. rewrite app_nil_r. cbn. destruct line as [|c l]; [constructor|]. apply TL_last; [exact P|discriminate]. }
    cbn [length] in L. cbn [split_lines_from]. destruct ((c =? 10) || (c =? 13)) eqn:E.
    + assert (N : forall r', (length r' <= n)%nat -> text_lines r' (split_lines_from r' [])).
      { intros r' L'. destruct (IH r' [] L') as (ls & <- & T); [split; intros []|]. exact T. }
      assert (C : c = 10 \/ c = 13) by lia. destruct C as [-> | ->].
      * eexists. split; [reflexivity|]. change (10 =? 13) with false. cbv iota.
        replace (match r with 10 :: _ => line :: split_lines_from r [] | _ => line :: split_lines_from r [] end) with (line :: split_lines_from r [])
          by (destruct r as [|x r']; [reflexivity|]; destruct x as [|[[[[]|[]|]|[[]|[]|]|]|[[[]|[]|]|[[]|[]|]|]|]|]; reflexivity).
        change (10 :: r) with ([10] ++ r). apply TL_lf; [exact P|apply N; lia].
      * eexists. split; [reflexivity|]. change (13 =? 13) with true. cbv iota.
        destruct (list_eq_dec Z.eq_dec (firstn 1 r) [10]) as [H|H].
        -- destruct r as [|x r']; [discriminate|]. cbn in H. injection H as ->. cbn [length] in L.
           change (13 :: 10 :: r') with ([13; 10] ++ r'). apply TL_crlf; [exact P|apply N; lia].
        -- replace (match r with 10 :: r' => line :: split_lines_from r' [] | _ => line :: split_lines_from r [] end) with (line :: split_lines_from r []).
           ++ change (13 :: r) with ([13] ++ r). apply TL_cr; [exact P| |apply N; lia]. intros r' ->. apply H. reflexivity.
           ++ destruct r as [|x r']; [reflexivity|]. cbn in H.
              destruct x as [|[[[[]|[]|]|[[]|[]|]|]|[[[]|[]|]|[[]|[]|]|]|]|]; try reflexivity; exfalso; apply H; reflexivity.
    + destruct (IH r (line ++ [c])) as (ls & <- & T); [lia| |].
      * split; intros I; apply in_app_or in I as [I|[->|[]]]; [now apply (proj1 P)|lia|now apply (proj2 P)|lia].
      * eexists. split; [reflexivity|]. now rewrite <- app_assoc in T.
Qed.
Theorem split_lines_ok s : text_lines s (split_lines s).
Proof. destruct (split_lines_from_ok (length s) s []) as (ls & <- & T); [lia|split; intros []|]. exact T. Qed.
(** A text has one list of lines. *)
Lemma first_break l l' (a b : bytes) c d : plain_line l -> plain_line l' -> c = 10 \/ c = 13 -> d = 10 \/ d = 13 ->
  l ++ c :: a = l' ++ d :: b -> l = l' /\ c = d /\ a = b.
Proof.
  revert l'. induction l as [|x l IH]; intros l' [P1 P2] [Q1 Q2] C D E; destruct l' as [|y l']; cbn [app] in E.
  - injection E as -> ->. auto.
  - injection E as -> E. exfalso. destruct C as [-> | ->]; [apply Q1|apply Q2]; now left.
  - injection E as -> E. exfalso. destruct D as [-> | ->]; [apply P1|apply P2]; now left.
  - injection E as -> E. destruct (IH l') as (-> & -> & ->); auto; split; intros I; [apply P1|apply P2|apply Q1|apply Q2]; now right.
Qed.
Lemma no_break l l' (b : bytes) d : plain_line l -> d = 10 \/ d = 13 -> l = l' ++ d :: b -> False.
Proof. intros [P Q] D ->. destruct D as [-> | ->]; [apply P|apply Q]; apply in_or_app; right; now left. Qed.
Theorem text_lines_unique s ls : text_lines s ls -> forall ls', text_lines s ls' -> ls = ls'.
Proof.
  induction 1 as [|l P N|l r ls P T IH|l r ls P T IH|l r ls P NL T IH]; intros ls' T'.
  - inversion T'; subst; try reflexivity; try contradiction; destruct l; discriminate.
  - inversion T' as [|l' P' N'|l' r' ls0 P' T0|l' r' ls0 P' T0|l' r' ls0 P' N' T0]; subst; try reflexivity; try contradiction;
      exfalso; eapply (no_break _ l' _ _ P); try (cbn [app]; reflexivity); auto.
  - inversion T' as [E|l' P' N' E|l' r' ls0 P' T0 E|l' r' ls0 P' T0 E|l' r' ls0 P' N' T0 E]; subst.
    + destruct l; discriminate.
    + exfalso. eapply (no_break _ l _ 10 P'); [auto|reflexivity].
    + cbn [app] in E. apply first_break in E as (-> & _ & ->); auto. f_equal. now apply IH.
    + cbn [app] in E. apply first_break in E as (_ & E & _); auto. discriminate.
    + cbn [app] in E. apply first_break in E as (_ & E & _); auto. discriminate.
  - inversion T' as [E|l' P' N' E|l' r' ls0 P' T0 E|l' r' ls0 P' T0 E|l' r' ls0 P' N' T0 E]; subst.
    + destruct l; discriminate.
    + exfalso. eapply (no_break _ l _ 13 P'); [auto|reflexivity].
    + cbn [app] in E. apply first_break in E as (_ & E & _); auto. discriminate.
    + cbn [app] in E. apply first_break in E as (-> & _ & E); auto. injection E as ->. f_equal. now apply IH.
    + cbn [app] in E. apply first_break in E as (_ & _ & E); auto. exfalso. now apply (N' r).
  - inversion T' as [E|l' P' N' E|l' r' ls0 P' T0 E|l' r' ls0 P' T0 E|l' r' ls0 P' N' T0 E]; subst.
    + destruct l; discriminate.
    + exfalso. eapply (no_break _ l _ 13 P'); [auto|reflexivity].
    + cbn [app] in E. apply first_break in E as (_ & E & _); auto. discriminate.
    + cbn [app] in E. apply first_break in E as (_ & _ & E); auto. exfalso. now apply (NL r').
    + cbn [app] in E. apply first_break in E as (-> & _ & ->); auto. f_equal. now apply IH.
Qed.

Lemma begins_iff a s : begins a s = true <-> exists b, s = a ++ b.
Proof.
  revert s. induction a as [|x a IH]; intros s; cbn [begins]; [split; [intros _; now exists s|reflexivity]|].
  destruct s as [|c s]; [split; [discriminate|intros (b & E); discriminate]|]. rewrite andb_true_iff, IH. split.
  - intros [E (b & ->)]. exists b. cbn. f_equal. lia.
  - intros (b & E). injection E as -> ->. split; [lia|now exists b].
Qed.
Lemma skipn_app_len {A} (a b : list A) : skipn (length a) (a ++ b) = b.
Proof. rewrite skipn_app, skipn_all, Nat.sub_diag. reflexivity. Qed.
Lemma find_cut_ok sep s : match find_cut sep s with
  | Some (f, r) => s = f ++ sep ++ r /\ forall a b, s = a ++ sep ++ b -> (length f <= length a)%nat
  | None => ~ occurs_in sep s end.
Proof.
  induction s as [|c s IH]; cbn [find_cut].
  - destruct (begins sep []) eqn:E.
    + apply begins_iff in E as (b & E). split; [|cbn; lia]. symmetry in E. apply app_eq_nil in E as [-> ->]. reflexivity.
    + intros (a & b & H). destruct a; [|discriminate]. cbn in H. assert (begins sep [] = true) by (apply begins_iff; now exists b). congruence.
  - destruct (begins sep (c :: s)) eqn:E.
    + apply begins_iff in E as (b & E). split; [|cbn; lia]. rewrite E, skipn_app_len. reflexivity.
    + assert (NB : forall b, c :: s <> sep ++ b) by (intros b H; assert (begins sep (c :: s) = true) by (apply begins_iff; now exists b); congruence).
      destruct (find_cut sep s) as [[f r]|].
      * destruct IH as [-> M]. split; [reflexivity|]. intros a b H. destruct a as [|x a]; [exfalso; now apply (NB b)|]. cbn [app] in H. injection H as -> H. cbn. apply M in H. lia.
      * intros (a & b & H). destruct a as [|x a]; [now apply (NB b)|]. cbn [app] in H. injection H as -> H. apply IH. now exists a, b.
Qed.
Lemma split_by_ok sep : sep <> [] -> forall n s, (length s < n)%nat -> separated sep s (split_by n sep s).
Proof.
  intros NE. induction n as [|n IH]; intros s L; [lia|]. cbn [split_by]. pose proof (find_cut_ok sep s) as F. destruct (find_cut sep s) as [[f r]|].
  - destruct F as [-> M]. apply Sep_more; [exact M|]. apply IH. rewrite !app_length in L. destruct sep; [contradiction|]. cbn [length] in L. lia.
  - now apply Sep_one.
Qed.
Lemma space_iff c : is_space c = true <-> space c. Proof. unfold RecipeModel.is_space, space. lia. Qed.
Lemma not_space_iff c : is_space c = false <-> ~ space c. Proof. rewrite <- space_iff. destruct (is_space c); split; congruence. Qed.
Lemma words_cons c s fs : space c -> words s fs -> words (c :: s) fs.
Proof.
  intros C W. destruct W as [w F|w f F N G|w f x r fs F N G X W].
  - apply W_none. now constructor.
  - apply (W_last (c :: w) f); auto.
  - apply (W_more (c :: w) f x r fs); auto.
Qed.
Lemma split_white_ok s : forall word, Forall (fun c => ~ space c) word -> words (word ++ s) (split_white s word).
Proof.
  induction s as [|c s IH]; intros word F; cbn [split_white].
  - rewrite app_nil_r. destruct word as [|x w]; [apply W_none; constructor|]. apply (W_last [] (x :: w)); [constructor|discriminate|exact F].
  - destruct (is_space c) eqn:E.
    + apply space_iff in E. destruct word as [|x w].
      * cbn [app]. apply words_cons; [exact E|]. now apply (IH []).
      * apply (W_more [] (x :: w) c s); [constructor|discriminate|exact F|exact E|]. now apply (IH []).
    + apply not_space_iff in E. specialize (IH (word ++ [c])). rewrite <- app_assoc in IH. apply IH. apply Forall_app. split; [exact F|now constructor].
Qed.
Theorem split_tsv_ok line sep : fields_of sep line (split_tsv line sep).
Proof.
  unfold fields_of, split_tsv. destruct sep as [|x sep]; [apply (split_white_ok line []); constructor|].
  apply split_by_ok; [discriminate|lia].
Qed.
(** A line has one list of fields. *)
Lemma separated_unique sep s fs : sep <> [] -> separated sep s fs -> forall gs, separated sep s gs -> fs = gs.
Proof.
  intros NE. induction 1 as [s N|f r fs M S IH]; intros gs T.
  - inversion T as [s' N' E|g r' gs' M' T' E]; subst; [reflexivity|]. exfalso. apply N. now exists g, r'.
  - inversion T as [s' N' E|g r' gs' M' T' E]; subst; [exfalso; apply N'; now exists f, r|].
    assert (length f = length g).
    { apply Nat.le_antisymm; [apply (M g r')|apply (M' f r)]; auto. }
    assert (f = g /\ r = r') as [-> ->].
    { clear - E H. revert g E H. induction f as [|x f IH]; intros [|y g] E H; try discriminate; cbn [app] in E.
      - split; [reflexivity|]. now apply app_inv_head in E.
      - injection E as -> E. injection H as H. destruct (IH g E H) as [-> ->]. auto. }
    f_equal. now apply IH.
Qed.
Lemma span_unique (P : Z -> Prop) a b c d : Forall P a -> Forall P c -> (b = [] \/ exists x b', b = x :: b' /\ ~ P x) -> (d = [] \/ exists x d', d = x :: d' /\ ~ P x) ->
  a ++ b = c ++ d -> a = c /\ b = d.
Proof.
  revert c. induction a as [|x a IH]; intros c A C B D E; destruct c as [|y c]; cbn [app] in E.
  - auto.
  - destruct B as [->|(x & b' & -> & N)]; [discriminate|]. injection E as -> _. inversion C; contradiction.
  - destruct D as [->|(y & d' & -> & N)]; [discriminate|]. injection E as <- _. inversion A; contradiction.
  - injection E as <- E. inversion A; inversion C; subst. destruct (IH c) as [-> ->]; auto.
Qed.
Lemma words_unique s fs : words s fs -> forall gs, words s gs -> fs = gs.
Proof.
  induction 1 as [w F|w f F N G|w f c r fs F N G C W IH]; intros gs T.
  - inversion T as [w' F' E|w' g F' N' G' E|w' g c r gs' F' N' G' C T' E]; subst; [reflexivity| |]; exfalso.
    + apply Forall_app in F as [_ F]. destruct g as [|x g]; [contradiction|]. inversion F; inversion G'; contradiction.
    + apply Forall_app in F as [_ F]. destruct g as [|x g]; [contradiction|]. inversion F; inversion G'; contradiction.
  - assert (NF : forall t, f ++ t = [] \/ exists x b', f ++ t = x :: b' /\ ~ space x).
    { intros t. destruct f as [|x f]; [contradiction|]. inversion G; subst. right. eexists _, _. cbn. eauto. }
    specialize (NF []). rewrite app_nil_r in NF.
    inversion T as [w' F' E|w' g F' N' G' E|w' g c r gs' F' N' G' C T' E]; subst.
    + exfalso. apply Forall_app in F' as [_ F']. destruct f as [|x f]; [contradiction|]. inversion F'; inversion G; contradiction.
    + apply span_unique with (P := space) in E as [-> ->]; auto. destruct g as [|x g]; [contradiction|]. inversion G'; subst. right. eauto.
    + exfalso. apply span_unique with (P := space) in E as [-> E]; auto; [|destruct g as [|x g]; [contradiction|]; inversion G'; subst; right; cbn; eauto].
      subst f. apply Forall_app in G as [_ G]. inversion G. contradiction.
  - assert (NF : forall t, f ++ t = [] \/ exists x b', f ++ t = x :: b' /\ ~ space x).
    { intros t. destruct f as [|x f]; [contradiction|]. inversion G; subst. right. eexists _, _. cbn. eauto. }
    inversion T as [w' F' E|w' g F' N' G' E|w' g c' r' gs' F' N' G' C' T' E]; subst.
    + exfalso. apply Forall_app in F' as [_ F']. apply Forall_app in F' as [F' _]. destruct f as [|x f]; [contradiction|]. inversion F'; inversion G; contradiction.
    + exfalso. apply span_unique with (P := space) in E as [-> E]; auto; [|destruct g as [|x g]; [contradiction|]; inversion G'; subst; right; cbn; eauto].
      subst g. apply Forall_app in G' as [_ G']. inversion G'. contradiction.
    + apply span_unique with (P := space) in E as [-> E]; auto; [|destruct g as [|x g]; [contradiction|]; inversion G'; subst; right; cbn; eauto].
      apply span_unique with (P := fun c => ~ space c) in E as [-> E]; auto; [|right; cbn; eexists _, _; split; [reflexivity|tauto]|right; cbn; eexists _, _; split; [reflexivity|tauto]].
      injection E as -> ->. f_equal. now apply IH.
Qed.
Theorem fields_unique sep line fs gs : fields_of sep line fs -> fields_of sep line gs -> fs = gs.
Proof. unfold fields_of. destruct sep as [|x sep]; intros A B; [exact (words_unique _ _ A _ B)|exact (separated_unique (x :: sep) _ _ ltac:(discriminate) A _ B)]. Qed.
(** Put together again. *)
Theorem separated_joins sep s fs : separated sep s fs -> concat (record_texts sep fs) = s.
Proof.
  induction 1 as [s N|f r fs M S IH]; cbn [record_texts concat]; [now rewrite app_nil_r|].
  destruct fs as [|g fs]; [inversion S|]. change (concat ((f ++ sep) :: record_texts sep (g :: fs)) = f ++ sep ++ r).
  cbn [concat]. rewrite IH, <- app_assoc. reflexivity.
Qed.
