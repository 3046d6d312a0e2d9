(** JSON texts without escapes hold clean strings only. *)
From Verif Require Import Base Bytes Utf8Spec Utf8Words JsonModel JsonSpec JsonBack JsonUtf8.

(** Encoded text can be cut before and after an ASCII character. *)
Lemma encode_high c x : codepoint c -> 128 <= c -> In x (encode_one c) -> 128 <= x.
Proof.
  intros C H. unfold encode_one, codepoint in *. replace (c <? 128) with false by lia.
  pose proof (Z.mod_pos_bound c 64 ltac:(lia)). pose proof (Z.mod_pos_bound (c / 64) 64 ltac:(lia)). pose proof (Z.mod_pos_bound (c / 4096) 64 ltac:(lia)).
  pose proof (Z.div_pos c 64 ltac:(lia) ltac:(lia)). pose proof (Z.div_pos c 4096 ltac:(lia) ltac:(lia)). pose proof (Z.div_pos c 262144 ltac:(lia) ltac:(lia)).
  destruct (c <? 2048); [|destruct (c <? 65536)]; cbn [In]; lia.
Qed.
Lemma encode_cut cs : Forall codepoint cs -> forall a x b, 0 <= x < 128 -> encode cs = a ++ x :: b ->
  exists cs1 cs2, cs = cs1 ++ x :: cs2 /\ a = encode cs1 /\ b = encode cs2.
Proof.
  induction 1 as [|c cs Hc Hcs IH]; intros a x b Hx E; [destruct a; discriminate|]. cbn [encode flat_map] in E. fold (encode cs) in E.
  destruct (Z.lt_ge_cases c 128) as [L|L].
  - unfold encode_one in E. replace (c <? 128) with true in E by lia. cbn [app] in E. destruct a as [|y a]; cbn [app] in E.
    + injection E as E0 E1. exists [], cs. split; [rewrite E0; reflexivity|]. split; [reflexivity|symmetry; exact E1].
    + injection E as -> E1. destruct (IH a x b Hx E1) as (cs1 & cs2 & -> & -> & ->). exists (y :: cs1), cs2. split; [reflexivity|]. split; [|reflexivity].
      cbn [encode flat_map]. unfold encode_one at 1. replace (y <? 128) with true by lia. reflexivity.
  - assert (G : forall u, (forall z, In z u -> 128 <= z) -> forall a, u ++ encode cs = a ++ x :: b -> exists a', a = u ++ a' /\ encode cs = a' ++ x :: b).
    { induction u as [|z u IHu]; intros Hu a' E'; [exists a'; auto|]. destruct a' as [|y a']; cbn [app] in E'.
      - injection E' as E0 _. specialize (Hu z (or_introl eq_refl)). lia.
      - injection E' as -> E'. destruct (IHu (fun z Hz => Hu z (or_intror Hz)) a' E') as (a2 & -> & Q). exists a2. auto. }
    destruct (G (encode_one c) (fun z Hz => encode_high c z Hc L Hz) a E) as (a' & -> & E'). destruct (IH a' x b Hx E') as (cs1 & cs2 & -> & -> & ->).
    exists (c :: cs1), cs2. split; [reflexivity|]. split; reflexivity.
Qed.
(** Encoded text of allowed codepoints and no backslash. *)
Definition fine (t : bytes) : Prop := exists cs, t = encode cs /\ Forall (fun c => codepoint c /\ ~ (64976 <= c <= 64985) /\ c <> 92) cs.
Lemma fine_cut a x b : fine (a ++ x :: b) -> 0 <= x < 128 -> fine a /\ fine b.
Proof.
  intros (cs & E & H) Hx. assert (C : Forall codepoint cs) by (refine (Forall_impl _ _ H); intros c K; apply K).
  destruct (encode_cut cs C a x b Hx (eq_sym E)) as (cs1 & cs2 & -> & -> & ->). apply Forall_app in H. destruct H as [H1 H2].
  split; [exists cs1; auto|]. exists cs2. split; [reflexivity|]. inversion H2; assumption.
Qed.
Lemma fine_in t : fine t -> ~ In 92 t.
Proof.
  intros (cs & -> & H) I. apply in_flat_map in I. destruct I as (c & I1 & I2). destruct (proj1 (Forall_forall _ _) H c I1) as (C & _ & N).
  destruct (Z.lt_ge_cases c 128) as [L|L]; [|pose proof (encode_high c 92 C L I2); lia]. unfold encode_one in I2. replace (c <? 128) with true in I2 by lia. destruct I2 as [I2|[]]. congruence.
Qed.
Lemma fine_blank w : blank w -> forall t, fine (w ++ t) -> fine t.
Proof.
  induction 1 as [|c w Hc Hw IH]; intros t H; [exact H|]. apply IH. apply (fine_cut [] c (w ++ t) H). lia.
Qed.
Lemma fine_blank_end w : blank w -> forall t, fine (t ++ w) -> fine t.
Proof.
  induction 1 as [|c w Hc Hw IH]; intros t H; [rewrite app_nil_r in H; exact H|]. apply (fine_cut t c w H). lia.
Qed.
Lemma fine_chars t s : chars t s -> fine t -> clean_string s.
Proof.
  intros H F. assert (E : s = t /\ Forall (fun c => 32 <= c) t).
  { pose proof (fine_in t F) as N. clear F. induction H; [auto| |exfalso; apply N; left; reflexivity..].
    destruct IHchars as [-> Q]; [intros I; apply N; right; exact I|]. split; [reflexivity|constructor; assumption]. }
  destruct E as [-> G]. destruct F as (cs & -> & F). exists cs. split; [reflexivity|]. apply Forall_forall. intros c I.
  destruct (proj1 (Forall_forall _ _) F c I) as (C & R & _). split; [|exact R]. split; [|apply C].
  destruct (Z.lt_ge_cases c 32) as [L|L]; [|exact L]. pose proof (proj1 (Forall_forall _ _) G c) as Q. cbv beta in Q. apply Q. apply in_flat_map. exists c. split; [exact I|].
  unfold encode_one. replace (c <? 128) with true by lia. left. reflexivity.
Qed.
Section Input.
Context (reads : bytes -> Z -> Prop).
Scheme spells_mut := Minimality for spells Sort Prop
  with elements_mut := Minimality for elements Sort Prop
  with members_mut := Minimality for members Sort Prop.
Theorem fine_strings : forall t v, spells reads t v -> fine t -> strings clean_string v.
Proof.
  apply (spells_mut reads (fun t v => fine t -> strings clean_string v) (fun t l => fine t -> Forall (strings clean_string) l)
    (fun t l => fine t -> Forall (fun m => clean_string (fst m) /\ strings clean_string (snd m)) l)); try (intros; constructor; fail).
  - intros t s H F. constructor. apply (fine_chars t s H). apply (fine_cut [] 34 (t ++ [34])) in F; [|lia]. destruct F as [_ F]. apply (fine_cut t 34 []) in F; [apply F|lia].
  - intros w Hw F. constructor. constructor.
  - intros t l H IH F. constructor. apply IH. apply (fine_cut [] 91 (t ++ [93])) in F; [|lia]. destruct F as [_ F]. apply (fine_cut t 93 []) in F; [apply F|lia].
  - intros w Hw F. constructor. constructor.
  - intros t l H IH F. constructor. apply IH. apply (fine_cut [] 123 (t ++ [125])) in F; [|lia]. destruct F as [_ F]. apply (fine_cut t 125 []) in F; [apply F|lia].
  - intros w t w' x Hw Hw' H IH F. constructor; [|constructor]. apply IH. apply (fine_blank_end w' Hw'). apply (fine_blank w Hw). exact F.
  - intros w t w' x u l Hw Hw' H IH H2 IH2 F. apply (fine_cut _ 44 u) in F; [|lia]. destruct F as [F1 F2]. constructor; [|apply IH2, F2].
    apply IH. apply (fine_blank_end w' Hw'). apply (fine_blank w Hw). exact F1.
  - intros w k key w1 w2 t w' x Hw H1 H2 Hw' Hk H IH F. constructor; [|constructor]. rewrite <- app_assoc in F. apply (fine_blank w Hw) in F. cbn [app] in F.
    apply (fine_cut [] 34) in F; [|lia]. destruct F as [_ F]. rewrite <- app_assoc in F. cbn [app] in F. apply (fine_cut k 34) in F; [|lia]. destruct F as [Fk F].
    split; [exact (fine_chars k key Hk Fk)|]. apply (fine_blank w1 H1) in F. apply (fine_cut [] 58) in F; [|lia]. destruct F as [_ F]. apply (fine_blank w2 H2) in F. apply (fine_blank_end w' Hw') in F. exact (IH F).
  - intros w k key w1 w2 t w' x u l Hw H1 H2 Hw' Hk H IH H3 IH3 F. apply (fine_cut _ 44 u) in F; [|lia]. destruct F as [F F2]. constructor; [|apply IH3, F2].
    rewrite <- app_assoc in F. apply (fine_blank w Hw) in F. cbn [app] in F.
    apply (fine_cut [] 34) in F; [|lia]. destruct F as [_ F]. rewrite <- app_assoc in F. cbn [app] in F. apply (fine_cut k 34) in F; [|lia]. destruct F as [Fk F].
    split; [exact (fine_chars k key Hk Fk)|]. apply (fine_blank w1 H1) in F. apply (fine_cut [] 58) in F; [|lia]. destruct F as [_ F]. apply (fine_blank w2 H2) in F. apply (fine_blank_end w' Hw') in F. exact (IH F).
Qed.
(** Any text of codepoints, none a NUL or a backslash, after json_scribe has prepared it. *)
Theorem input_clean : forall cs v w t w', Forall (fun c => 0 < c < 2097152 /\ c <> 92) cs -> prepared (encode cs) = w ++ t ++ w' -> blank w -> blank w' -> spells reads t v ->
  strings clean_string v.
Proof.
  intros cs v w t w' H E Hw Hw' Sp. assert (F : fine (prepared (encode cs))).
  { rewrite prepared_encode by (refine (Forall_impl _ _ H); intros c K; apply K). exists (map mapped cs). split; [reflexivity|]. apply Forall_forall. intros c I. apply in_map_iff in I. destruct I as (d & <- & I).
    destruct (proj1 (Forall_forall _ _) H d I) as [R N]. unfold mapped, codepoint. destruct ((64976 <=? d) && (d <=? 65023)) eqn:Q; lia. }
  rewrite E in F. apply (fine_blank w Hw) in F. apply (fine_blank_end w' Hw') in F. exact (fine_strings t v Sp F).
Qed.
End Input.
