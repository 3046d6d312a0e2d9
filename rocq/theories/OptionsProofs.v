(** Proofs about options. *)
From Verif Require Import Base Bytes RecipeModel RecipeSpec RecipeProofs RecipeDna MakeModel OptionsModel OptionsSpec.

Lemma pieces_sep sep s x : ~ In sep x -> forall cur, pieces_from sep cur (x ++ sep :: s) = (cur ++ x) :: pieces_from sep [] s.
Proof.
  induction x as [|c x IH]; intros N cur; cbn [app pieces_from].
  - rewrite Z.eqb_refl, app_nil_r. reflexivity.
  - destruct (Z.eqb_spec c sep) as [->|_]; [destruct N; left; reflexivity|]. rewrite IH; [|intros J; apply N; right; exact J].
    rewrite <- app_assoc. reflexivity.
Qed.
Lemma pieces_last sep x : ~ In sep x -> forall cur, pieces_from sep cur x = [cur ++ x].
Proof.
  induction x as [|c x IH]; intros N cur; cbn [app pieces_from]; [rewrite app_nil_r; reflexivity|].
  destruct (Z.eqb_spec c sep) as [->|_]; [destruct N; left; reflexivity|]. rewrite IH; [|intros J; apply N; right; exact J].
  rewrite <- app_assoc. reflexivity.
Qed.
Lemma pieces_1 sep x : ~ In sep x -> pieces sep x = [x].
Proof. intros N. unfold pieces. rewrite pieces_last by exact N. cbn. destruct x; reflexivity. Qed.
Lemma pieces_2 sep x z : ~ In sep x -> ~ In sep z -> z <> [] -> pieces sep (x ++ sep :: z) = [x; z].
Proof. intros N M Z. unfold pieces. rewrite pieces_sep by exact N. rewrite pieces_last by exact M. cbn. destruct z; [congruence|reflexivity]. Qed.
Lemma pieces_3 sep x y z : ~ In sep x -> ~ In sep y -> ~ In sep z -> z <> [] -> pieces sep (x ++ sep :: y ++ sep :: z) = [x; y; z].
Proof.
  intros N K M Z. unfold pieces. rewrite pieces_sep by exact N. rewrite pieces_sep by exact K. rewrite pieces_last by exact M. cbn.
  destruct z; [congruence|reflexivity].
Qed.
Lemma name_free x c : name x -> identifier c = false -> ~ In c x.
Proof. intros [_ H] E J. rewrite (H c J) in E. discriminate. Qed.
Lemma name_colon x : name x -> ~ In colon x.
Proof. intros H. apply (name_free x); [exact H|reflexivity]. Qed.
Lemma name_at x : name x -> ~ In at_sign x.
Proof. intros H. apply (name_free x); [exact H|reflexivity]. Qed.
Lemma in_lit c s x : In c (lit s ++ x) -> In c (lit s) \/ In c x.
Proof. apply in_app_or. Qed.
Lemma k_name_name : name k_name.
Proof. split; [discriminate|]. intros c J. cbn in J. repeat destruct J as [<-|J]; try reflexivity. destruct J. Qed.
Lemma k_recipe_name : name k_recipe.
Proof. split; [discriminate|]. intros c J. cbn in J. repeat destruct J as [<-|J]; try reflexivity. destruct J. Qed.
Lemma value_says z : value z -> says z (Str z) /\ texts clean (Str z).
Proof. intros (_ & _ & _ & C & K). split; [split; [reflexivity|exact K]|exact C]. Qed.

(** Putting a setting. *)
Lemma put_says m l k v t : ordered m -> pairs says m l -> every (texts clean) l -> name k -> says v t -> texts clean t ->
  ordered (put k v m) /\ pairs says (put k v m) (put k t l) /\ every (texts clean) (put k t l).
Proof. intros O P C N S T. split; [apply put_ordered; assumption|]. split; [apply pairs_put; assumption|apply every_put; assumption]. Qed.
Lemma put_frozen m l k v t : ordered m -> pairs says m l -> every (texts clean) l -> name k -> says v t -> texts clean t ->
  says (freeze (put k v m)) (Map (put k t l)) /\ texts clean (Map (put k t l)).
Proof. intros O P C N S T. destruct (put_says m l k v t O P C N S T) as (A & B & D). split; [apply freeze_says; assumption|exact D]. Qed.
Lemma cooked v m : cook v = Some m -> ordered m.
Proof. intros E. apply (cook_spec v m E). Qed.

Definition outcome (recipe text : bytes) (after : option (list (bytes * conf))) : Prop :=
  match after with
  | Some l' => exists recipe', interpret_option recipe text = Ok (Some recipe') /\ says recipe' (Map l') /\ texts clean (Map l')
  | None => interpret_option recipe text = Ok None
  end.
Lemma says_str v w : says v (Str w) -> cook v = None.
Proof. intros [_ H]. exact H. Qed.
Lemma text_split x s : x ++ lit ":" ++ s = x ++ colon :: s.
Proof. reflexivity. Qed.
Lemma text_name x s : x ++ lit ":name:" ++ s = x ++ colon :: k_name ++ colon :: s.
Proof. reflexivity. Qed.
Lemma text_at x s : x ++ lit "@" ++ s = x ++ at_sign :: s.
Proof. reflexivity. Qed.
Lemma not_empty (x : bytes) c s : eqb_bytes (x ++ c :: s) [] = false.
Proof. apply eqb_bytes_neq. destruct x; discriminate. Qed.
Lemma no_at_2 x z : name x -> ~ In at_sign z -> pieces at_sign (x ++ colon :: z) = [x ++ colon :: z].
Proof.
  intros N M. apply pieces_1. intros J. apply in_app_or in J. destruct J as [J|[J|J]]; [exact (name_at x N J)|discriminate|exact (M J)].
Qed.
Theorem interpreted recipe l o : says recipe (Map l) -> texts clean (Map l) -> proper o -> whole (item_of o) l ->
  outcome recipe (spelled o) (change o l).
Proof.
  intros (m & E & P) C Pr W. pose proof (cooked _ _ E) as O. unfold outcome, interpret_option.
  destruct o as [x z|x z|x y z|x z]; cbn [proper item_of spelled change] in *.
  - destruct Pr as (Nx & V). pose proof (value_says z V) as (Sz & Tz). destruct V as (Z0 & Z1 & Z2 & _).
    rewrite text_split, not_empty, E, (no_at_2 x z Nx Z2), (pieces_2 colon x z (name_colon x Nx) Z1 Z0). unfold set_option.
    pose proof (pairs_get says x l m P) as G. destruct (get x m) as [v|], (get x l) as [t|] eqn:Gl; try contradiction; [|reflexivity].
    destruct t as [u|part]; [rewrite (says_str _ _ G); reflexivity|]. destruct G as (im & Ei & Pi). rewrite Ei.
    pose proof (get_every _ _ _ _ C Gl) as Cp.
    destruct (put_frozen im part k_recipe z (Str z) (cooked _ _ Ei) Pi Cp k_recipe_name Sz Tz) as (S1 & T1).
    destruct (put_frozen m l x _ _ O P C Nx S1 T1) as (S2 & T2). eexists. split; [reflexivity|]. split; assumption.
  - destruct Pr as (Nx & V). pose proof (value_says z V) as (Sz & Tz). destruct V as (Z0 & Z1 & Z2 & _).
    assert (A : ~ In at_sign (k_name ++ colon :: z)).
    { intros J. apply in_app_or in J. destruct J as [J|[J|J]]; [exact (name_at _ k_name_name J)|discriminate|exact (Z2 J)]. }
    rewrite text_name, not_empty, E, (no_at_2 x _ Nx A), (pieces_3 colon x k_name z (name_colon x Nx) (name_colon _ k_name_name) Z1 Z0). unfold set_option.
    pose proof (pairs_get says x l m P) as G. destruct (get x m) as [v|], (get x l) as [t|] eqn:Gl; try contradiction; [|reflexivity].
    destruct t as [u|part]; [rewrite (says_str _ _ G); reflexivity|]. destruct G as (im & Ei & Pi). rewrite Ei, eqb_bytes_refl.
    pose proof (get_every _ _ _ _ C Gl) as Cp.
    destruct (put_says im part k_name z (Str z) (cooked _ _ Ei) Pi Cp k_name_name Sz Tz) as (O1 & P1 & C1).
    assert (S0 : says [] (Str [])) by (split; reflexivity). assert (T0 : texts clean (Str [])) by (intros c []).
    destruct (put_frozen _ _ k_recipe [] (Str []) O1 P1 C1 k_recipe_name S0 T0) as (S1 & T1).
    destruct (put_frozen m l x _ _ O P C Nx S1 T1) as (S2 & T2). eexists. split; [reflexivity|]. split; assumption.
  - destruct Pr as (Nx & Ny & Y & V). pose proof (value_says z V) as (Sz & Tz). destruct V as (Z0 & Z1 & Z2 & _).
    assert (A : ~ In at_sign (y ++ colon :: z)).
    { intros J. apply in_app_or in J. destruct J as [J|[J|J]]; [exact (name_at _ Ny J)|discriminate|exact (Z2 J)]. }
    change (x ++ lit ":" ++ y ++ lit ":" ++ z) with (x ++ colon :: y ++ colon :: z).
    rewrite not_empty, E, (no_at_2 x _ Nx A), (pieces_3 colon x y z (name_colon x Nx) (name_colon _ Ny) Z1 Z0). unfold set_option.
    pose proof (pairs_get says x l m P) as G. destruct (get x m) as [v|], (get x l) as [t|] eqn:Gl; try contradiction; [|reflexivity].
    destruct t as [u|part]; [rewrite (says_str _ _ G); reflexivity|]. destruct G as (im & Ei & Pi). rewrite Ei.
    assert (Q : eqb_bytes y k_name = false) by (apply eqb_bytes_neq; exact Y). rewrite Q.
    pose proof (get_every _ _ _ _ C Gl) as Cp. pose proof (W part Gl) as Wp.
    pose proof (pairs_get says k_recipe part im Pi) as G. change (lit "recipe") with k_recipe in *.
    destruct (get k_recipe im) as [r|], (get k_recipe part) as [t|] eqn:Gr; try contradiction; try congruence.
    destruct t as [u|rl]; [rewrite (says_str _ _ G); reflexivity|]. destruct G as (rm & Er & Pr). rewrite Er.
    pose proof (get_every _ _ _ _ Cp Gr) as Cr.
    pose proof (pairs_get says y rl rm Pr) as G. destruct (get y rm) as [w|], (get y rl) as [t|]; try contradiction; [|reflexivity].
    destruct (put_frozen rm rl y z (Str z) (cooked _ _ Er) Pr Cr Ny Sz Tz) as (S0 & T0).
    destruct (put_frozen im part k_recipe _ _ (cooked _ _ Ei) Pi Cp k_recipe_name S0 T0) as (S1 & T1).
    destruct (put_frozen m l x _ _ O P C Nx S1 T1) as (S2 & T2). eexists. split; [reflexivity|]. split; assumption.
  - destruct Pr as (Nx & V). pose proof (value_says z V) as (Sz & Tz). destruct V as (Z0 & Z1 & Z2 & _).
    rewrite text_at, not_empty, E, (pieces_2 at_sign x z (name_at x Nx) Z2 Z0). unfold wrap_option.
    pose proof (pairs_get says x l m P) as G. destruct (get x m) as [v|], (get x l) as [t|] eqn:Gl; try contradiction; [|reflexivity].
    pose proof (get_every _ _ _ _ C Gl) as Ct.
    destruct (put_says [] [] k_name z (Str z) I I I k_name_name Sz Tz) as (O1 & P1 & C1).
    destruct (put_frozen _ _ k_recipe v t O1 P1 C1 k_recipe_name G Ct) as (S1 & T1).
    change (put k_recipe t (put k_name (Str z) [])) with [(lit "name", Str z); (lit "recipe", t)] in S1, T1.
    destruct (put_frozen m l x _ _ O P C Nx S1 T1) as (S2 & T2). eexists. split; [reflexivity|]. split; assumption.
Qed.
Theorem all_interpreted l os l' : changes l os l' -> forall recipe, says recipe (Map l) -> texts clean (Map l) ->
  exists recipe', interpret_all recipe (map spelled os) = Ok (Some recipe') /\ says recipe' (Map l') /\ texts clean (Map l').
Proof.
  induction 1 as [l|l o l1 os l2 Pr W Ch _ IH]; intros recipe S C; [exists recipe; auto|].
  pose proof (interpreted recipe l o S C Pr W) as H. rewrite Ch in H. destruct H as (r1 & E1 & S1 & C1).
  destruct (IH r1 S1 C1) as (r2 & E2 & S2). exists r2. cbn [map interpret_all]. rewrite E1. cbn [bind]. auto.
Qed.

(** What is shown. *)
Theorem extracted recipe l q t : says recipe (Map l) -> sensible q -> shown q l = Some t ->
  exists v, extract_option recipe (asked q) = Ok (Some v) /\ says v t.
Proof.
  intros (m & E & P) Sq H. unfold extract_option. rewrite E.
  assert (Nx : name (match q with Q_recipe x | Q_name x | Q_in x _ => x end)) by (destruct q; cbn in Sq; tauto).
  unfold shown in H. set (x := match q with Q_recipe x | Q_name x | Q_in x _ => x end) in *.
  assert (Ps : exists rest, pieces colon (asked q) = x :: rest /\
    rest = match q with Q_recipe _ => [] | Q_name _ => [k_name] | Q_in _ y => [y] end).
  { destruct q as [x'|x'|x' y]; cbn [asked] in *; subst x; eexists; (split; [|reflexivity]).
    - apply pieces_1, name_colon, Nx.
    - apply (pieces_2 colon x' k_name); [apply name_colon, Nx|apply name_colon, k_name_name|discriminate].
    - destruct Sq as (_ & Ny & _). apply (pieces_2 colon x' y); [apply name_colon, Nx|apply name_colon, Ny|apply Ny]. }
  destruct Ps as (rest & -> & ->).
  pose proof (pairs_get says x l m P) as G. destruct (get x m) as [v|], (get x l) as [t0|]; try contradiction; [|discriminate].
  destruct t0 as [u|part]; [discriminate|]. destruct G as (im & Ei & Pi). rewrite Ei.
  pose proof (pairs_get says k_name part im Pi) as Gn. pose proof (pairs_get says k_recipe part im Pi) as Gr.
  change (lit "name") with k_name in H. change (lit "recipe") with k_recipe in H.
  destruct (get k_name im) as [n|], (get k_name part) as [tn|]; try contradiction; [|discriminate].
  destruct (get k_recipe im) as [r|], (get k_recipe part) as [tr|]; try contradiction; [|discriminate].
  destruct q as [x'|x'|x' y].
  - injection H as <-. exists r. auto.
  - rewrite eqb_bytes_refl. injection H as <-. exists n. auto.
  - destruct Sq as (_ & _ & Y). assert (Q : eqb_bytes y k_name = false) by (apply eqb_bytes_neq; exact Y). rewrite Q.
    destruct tr as [u|rl]; [discriminate|]. destruct Gr as (rm & Er & Pr). rewrite Er.
    pose proof (pairs_get says y rl rm Pr) as G. rewrite H in G. destruct (get y rm) as [w|]; [|contradiction]. exists w. auto.
Qed.
Lemma get_same {A} k (v : A) l : get k (put k v l) = Some v.
Proof. rewrite get_put, eqb_bytes_refl. reflexivity. Qed.
Lemma get_other {A} k k' (v : A) l : eqb_bytes k' k = false -> get k' (put k v l) = get k' l.
Proof. intros E. rewrite get_put, E. reflexivity. Qed.
Definition has_name (x : bytes) (l : list (bytes * conf)) : Prop := forall part, get x l = Some (Map part) -> get (lit "name") part <> None.
Lemma change_shown o l l' : has_name (item_of o) l -> change o l = Some l' -> shown (fst (sets o)) l' = Some (Str (snd (sets o))).
Proof.
  intros N H. destruct o as [x z|x z|x y z|x z]; cbn [change item_of sets fst snd] in *.
  - destruct (get x l) as [[u|part]|] eqn:G; try discriminate. injection H as <-. unfold shown. rewrite get_same, get_same, get_other by reflexivity.
    specialize (N part G). destruct (get (lit "name") part); [reflexivity|congruence].
  - destruct (get x l) as [[u|part]|] eqn:G; try discriminate. injection H as <-. unfold shown. rewrite get_same, get_same, get_other by reflexivity.
    rewrite get_same. reflexivity.
  - destruct (get x l) as [[u|part]|] eqn:G; try discriminate. destruct (get (lit "recipe") part) as [[u|r]|] eqn:R; try discriminate.
    destruct (get y r) eqn:Y; [|discriminate]. injection H as <-. unfold shown. rewrite get_same, get_same, get_other by reflexivity.
    specialize (N part G). destruct (get (lit "name") part); [apply get_same|congruence].
  - destruct (get x l) as [t|] eqn:G; try discriminate. injection H as <-. unfold shown. rewrite get_same. reflexivity.
Qed.
Theorem set_shown recipe l o l' : says recipe (Map l) -> texts clean (Map l) -> proper o -> whole (item_of o) l -> has_name (item_of o) l -> change o l = Some l' ->
  exists recipe', interpret_option recipe (spelled o) = Ok (Some recipe') /\ extract_option recipe' (asked (fst (sets o))) = Ok (Some (snd (sets o))).
Proof.
  intros S C Pr W N Ch. pose proof (interpreted recipe l o S C Pr W) as H. rewrite Ch in H. destruct H as (r1 & E1 & S1 & _).
  exists r1. split; [exact E1|]. assert (Sn : sensible (fst (sets o))) by (destruct o; cbn in *; tauto).
  destruct (extracted r1 l' _ _ S1 Sn (change_shown o l l' N Ch)) as (v & E2 & S2 & _). rewrite E2, S2. reflexivity.
Qed.
