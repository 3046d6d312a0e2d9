(** Proofs about adding text to a single-file index. *)
From Verif Require Import Base Bytes CodecModel CodecSpec ChunkModel ChunkSpec ChunkLife ChunkStep TokenModel PlainModel PlainSpec.
From Verif Require TextSpec TextProofs DraftProofs FileSpec PlainRead.
Import TextProofs DraftProofs.

(** * Records *)
Definition key (r : record) : Z * Z := (r_pq r, r_start r).
Fixpoint marks (a off : Z) (os : list Z) : list (Z * Z) :=
  match os with
  | [] => []
  | o :: r => (if a mod TXT_BLOCKING =? 0 then [(a, off + o)] else []) ++ marks (a + 1) off r
  end.
Lemma marks_app off a : forall x y, marks a off (x ++ y) = marks a off x ++ marks (a + Z.of_nat (length x)) off y.
Proof.
  intros x. revert a. induction x as [|o x IH]; intros a y.
  - cbn [app marks length]. f_equal. lia.
  - cbn [app marks length]. rewrite IH, app_assoc. f_equal. f_equal. lia.
Qed.
Lemma marks_shift k y : forall a, marks a 0 (map (fun o => o + k) y) = marks a k y.
Proof. induction y as [|o y IH]; intros a; [reflexivity|]. cbn [map marks]. rewrite IH. do 3 f_equal. destruct (_ =? _); [|reflexivity]. do 2 f_equal. lia. Qed.
Lemma marks_nth os : forall a k, 0 <= a ->
  nth_error (marks a 0 os) k =
  option_map (fun o => (a + (- a) mod TXT_BLOCKING + TXT_BLOCKING * Z.of_nat k, o))
    (nth_error os (Z.to_nat ((- a) mod TXT_BLOCKING + TXT_BLOCKING * Z.of_nat k))).
Proof.
  assert (HB : TXT_BLOCKING = 1024) by reflexivity.
  induction os as [|o os IH]; intros a k Ha.
  - cbn [marks]. rewrite !(proj2 (nth_error_None _ _)) by (cbn; lia). reflexivity.
  - cbn [marks]. rewrite HB in *. destruct (a mod 1024 =? 0) eqn:E.
    + assert (E1 : (- a) mod 1024 = 0) by (rewrite Z_mod_zero_opp_full; lia).
      assert (E2 : (- (a + 1)) mod 1024 = 1023).
      { replace (- (a + 1)) with (- a + - 1) by lia. rewrite Zplus_mod, E1. reflexivity. }
      rewrite E1. destruct k as [|k].
      * change (Z.to_nat (0 + 1024 * Z.of_nat 0)) with 0%nat. cbn [nth_error app option_map]. do 2 f_equal; lia.
      * cbn [app nth_error]. rewrite IH by lia. rewrite E2.
        replace (Z.to_nat (0 + 1024 * Z.of_nat (S k))) with (S (Z.to_nat (1023 + 1024 * Z.of_nat k))) by lia.
        cbn [nth_error]. destruct (nth_error os _); [|reflexivity]. cbn [option_map]. do 2 f_equal. lia.
    + cbn [app]. rewrite IH by lia.
      assert (Hm := Z.mod_pos_bound a 1024 ltac:(lia)).
      assert (E1 : (- a) mod 1024 = 1024 - a mod 1024) by (rewrite Z_mod_nz_opp_full; lia).
      assert (E2 : (- (a + 1)) mod 1024 = 1023 - a mod 1024).
      { replace (- (a + 1)) with (1023 - a mod 1024 + (- (a / 1024) - 1) * 1024).
        - rewrite Z_mod_plus_full. apply Z.mod_small. lia.
        - pose proof (Z.div_mod a 1024 ltac:(lia)). lia. }
      rewrite E1, E2.
      replace (Z.to_nat (1024 - a mod 1024 + 1024 * Z.of_nat k)) with (S (Z.to_nat (1023 - a mod 1024 + 1024 * Z.of_nat k))) by lia.
      cbn [nth_error]. destruct (nth_error os _); [|reflexivity]. cbn [option_map]. do 2 f_equal. lia.
Qed.
Lemma marks_recorded starts T l : map key l = marks 0 0 (starts T) -> recorded starts T l.
Proof.
  intros H. assert (X : forall k, nth_error (map key l) k = option_map (fun o => (TXT_BLOCKING * Z.of_nat k, o)) (nth_error (starts T) (Z.to_nat TXT_BLOCKING * k))).
  { intros k. rewrite H, marks_nth by lia. change ((- 0) mod TXT_BLOCKING) with 0.
    replace (Z.to_nat (0 + TXT_BLOCKING * Z.of_nat k)) with (Z.to_nat TXT_BLOCKING * k)%nat by (unfold TXT_BLOCKING; lia).
    destruct (nth_error (starts T) _); [|reflexivity]. cbn [option_map]. do 2 f_equal; lia. }
  split; intros k; specialize (X k); rewrite nth_error_map in *; destruct (nth_error l k) as [r|]; cbn [option_map] in *;
    destruct (nth_error (starts T) _); cbn [option_map] in *; unfold key in *; congruence.
Qed.

(** * The tokens of a text *)
Definition put_tokens (x : list (Z * Z)) (b : builder) : builder := Builder (b_io b) (b_txt b) (b_address b) (b_offset b) (b_tokens b ++ x).
Definition named (base : Z) (toks : list token) : list (Z * Z) :=
  map (fun k => (t_feature k, base + t_address k)) (filter (fun k => negb (t_feature k =? 0)) toks).
Lemma put_nil b : put_tokens [] b = b.
Proof. destruct b. unfold put_tokens. cbn. rewrite app_nil_r. reflexivity. Qed.
Lemma put_put x y b : put_tokens y (put_tokens x b) = put_tokens (x ++ y) b.
Proof. unfold put_tokens. cbn. rewrite app_assoc. reflexivity. Qed.
Lemma named_cons base t r : named base (t :: r) = (if t_feature t =? 0 then [] else [(t_feature t, base + t_address t)]) ++ named base r.
Proof. unfold named. cbn [filter map]. destruct (t_feature t =? 0); reflexivity. Qed.
Lemma named_app base x y : named base (x ++ y) = named base x ++ named base y.
Proof. unfold named. rewrite filter_app, map_app. reflexivity. Qed.
Lemma build_one t r last_pq b : build_tokens (t :: r) last_pq b =
  let a := t_address t + b_address b in
  let b := put_tokens (if t_feature t =? 0 then [] else [(t_feature t, b_address b + t_address t)]) b in
  if (a mod TXT_BLOCKING =? 0) && negb (a =? last_pq) then
    build_tokens r a (Builder (b_io b) (b_txt b ++ [Rec a (b_offset b + t_offset t) (b_offset b + t_offset t + t_length t - 1)]) (b_address b) (b_offset b) (b_tokens b))
  else build_tokens r last_pq b.
Proof.
  cbn [build_tokens]. change ShardModel.null_feature with 0. destruct (t_feature t =? 0); [rewrite put_nil; reflexivity|].
  unfold put_tokens. cbn [b_io b_txt b_address b_offset b_tokens]. replace (t_address t + b_address b) with (b_address b + t_address t) by lia. reflexivity.
Qed.
Lemma build_group a g : forall last_pq b rest, Forall (fun t => t_address t = a) g ->
  ((a + b_address b) mod TXT_BLOCKING = 0 -> last_pq = a + b_address b) ->
  build_tokens (g ++ rest) last_pq b = build_tokens rest last_pq (put_tokens (named (b_address b) g) b).
Proof.
  induction g as [|t g IH]; intros last_pq b rest H Hl; [cbn [app]; change (named (b_address b) []) with (@nil (Z * Z)); rewrite put_nil; reflexivity|].
  inversion H; subst. rewrite <- app_comm_cons, build_one. cbv zeta.
  replace ((_ mod _ =? 0) && negb (_ =? last_pq)) with false.
  2: { symmetry. apply andb_false_iff. destruct ((t_address t + b_address b) mod TXT_BLOCKING =? 0) eqn:E; [right|left; reflexivity]. lia. }
  rewrite IH; [|assumption|exact Hl]. rewrite put_put, named_cons. reflexivity.
Qed.
Lemma build_ok os : forall a toks last_pq b, TextSpec.tokens_at a os toks -> last_pq < a + b_address b ->
  exists l, build_tokens toks last_pq b = Builder (b_io b) (b_txt b ++ l) (b_address b) (b_offset b) (b_tokens b ++ named (b_address b) toks) /\
    map key l = marks (a + b_address b) (b_offset b) os.
Proof.
  induction os as [|o os IH]; intros a toks last_pq b H Hl.
  - cbn in H. subst toks. exists []. cbn. rewrite !app_nil_r. destruct b; auto.
  - cbn [TextSpec.tokens_at] in H. destruct H as (g & rest & -> & Hg & Hf & Hr). destruct g as [|t g]; [congruence|].
    inversion Hf as [|? ? [Ha Ho] Hf']; subst x l. assert (Hg' : Forall (fun t => t_address t = a) g) by (eapply Forall_impl; [|exact Hf']; cbn; tauto).
    rewrite <- app_comm_cons, build_one. cbv zeta. cbn [marks]. rewrite Ha.
    set (b1 := put_tokens _ b). destruct ((a + b_address b) mod TXT_BLOCKING =? 0) eqn:E.
    + replace (negb (a + b_address b =? last_pq)) with true by lia. cbn [andb].
      rewrite (build_group a); [|exact Hg'|reflexivity].
      match goal with |- exists _, build_tokens rest ?q ?b2 = _ /\ _ => destruct (IH (a + 1) rest q b2 Hr) as (l & E1 & E2); [cbn; lia|] end.
      rewrite E1. exists (Rec (a + b_address b) (b_offset b + o) (b_offset b + o + t_length t - 1) :: l). split.
      * unfold b1, put_tokens. cbn [b_io b_txt b_address b_offset b_tokens]. rewrite Ho.
        rewrite named_cons, named_app, <- !app_assoc. rewrite Ha. reflexivity.
      * cbn [map app]. f_equal. rewrite E2. unfold b1. cbn [put_tokens b_address b_offset]. f_equal; lia.
    + rewrite andb_false_l. rewrite (build_group a); [|exact Hg'|change (b_address b1) with (b_address b); lia].
      match goal with |- exists _, build_tokens rest ?q ?b2 = _ /\ _ => destruct (IH (a + 1) rest q b2 Hr) as (l & E1 & E2); [cbn; lia|] end.
      rewrite E1. exists l. split.
      * unfold b1, put_tokens. cbn [b_io b_txt b_address b_offset b_tokens].
        rewrite named_cons, named_app, <- !app_assoc. rewrite Ha. reflexivity.
      * cbn [app]. rewrite E2. unfold b1. cbn [put_tokens b_address b_offset]. f_equal; lia.
Qed.

Definition mono (base : Z) (toks : list token) : Prop :=
  forall i j x y, nth_error toks i = Some x -> nth_error toks j = Some y ->
    t_address x = t_address y -> (base + t_address x) mod TXT_BLOCKING = 0 -> i = j.
Lemma mono_skip base x toks : mono base (x ++ toks) -> mono base toks.
Proof.
  intros H i j u v Hi Hj E M.
  assert ((length x + i)%nat = (length x + j)%nat); [|lia].
  apply (H _ _ u v); [rewrite nth_error_app2, minus_plus by lia; exact Hi|rewrite nth_error_app2, minus_plus by lia; exact Hj|exact E|exact M].
Qed.
Definition put_annotations (x : list (Z * Z)) (a : appender) : appender := set_annotations (a_annotations a ++ x) a.
Lemma puta_nil a : put_annotations [] a = a.
Proof. destruct a. unfold put_annotations, set_annotations. cbn. rewrite app_nil_r. reflexivity. Qed.
Lemma puta_puta x y a : put_annotations y (put_annotations x a) = put_annotations (x ++ y) a.
Proof. unfold put_annotations, set_annotations. cbn. rewrite app_assoc. reflexivity. Qed.
Lemma append_one t r a : 0 <= t_feature t -> 0 <= t_address t + a_address a -> append_tokens (t :: r) a =
  let x := t_address t + a_address a in
  let b := put_annotations (if t_feature t =? 0 then [] else [(t_feature t, a_address a + t_address t)]) a in
  if x mod TXT_BLOCKING =? 0 then
    append_tokens r (set_new (a_new b ++ [Rec x (a_offset b + t_offset t) (a_offset b + t_offset t + t_length t - 1)]) b)
  else append_tokens r b.
Proof.
  intros Hf Hx. cbn [append_tokens]. change ShardModel.null_feature with 0.
  replace (t_address t + a_address a =? -1) with false by lia. cbn [negb]. rewrite andb_true_r.
  destruct (t_feature t =? 0) eqn:E.
  - rewrite puta_nil. replace (t_feature t <=? 0) with true by lia. reflexivity.
  - replace (t_feature t <=? 0) with false by lia. unfold put_annotations.
    replace (t_address t + a_address a) with (a_address a + t_address t) by lia. reflexivity.
Qed.
Lemma append_group x g : forall a rest, Forall (fun t => t_address t = x) g -> Forall (fun t => 0 <= t_feature t) g -> 0 <= x + a_address a ->
  (x + a_address a) mod TXT_BLOCKING <> 0 \/ g = [] ->
  append_tokens (g ++ rest) a = append_tokens rest (put_annotations (named (a_address a) g) a).
Proof.
  induction g as [|t g IH]; intros a rest H Hf Hx Hl; [cbn [app]; change (named (a_address a) []) with (@nil (Z * Z)); rewrite puta_nil; reflexivity|].
  inversion H; inversion Hf; subst. destruct Hl as [Hl|Hl]; [|discriminate].
  rewrite <- app_comm_cons, append_one by lia. cbv zeta.
  replace (_ mod _ =? 0) with false by lia.
  rewrite IH; [|assumption|assumption|exact Hx|left; exact Hl]. rewrite puta_puta, named_cons. reflexivity.
Qed.
Lemma append_ok os : forall x toks a, TextSpec.tokens_at x os toks -> Forall (fun t => 0 <= t_feature t) toks -> 0 <= x + a_address a ->
  mono (a_address a) toks ->
  exists l, append_tokens toks a = set_new (a_new a ++ l) (put_annotations (named (a_address a) toks) a) /\
    map key l = marks (x + a_address a) (a_offset a) os.
Proof.
  induction os as [|o os IH]; intros x toks a H HF Hx Hm.
  - cbn in H. subst toks. exists []. cbn. rewrite app_nil_r. split; [|reflexivity]. 
    change (named (a_address a) []) with (@nil (Z * Z)). rewrite puta_nil. destruct a; reflexivity.
  - cbn [TextSpec.tokens_at] in H. destruct H as (g & rest & -> & Hg & Hf & Hr). destruct g as [|t g]; [congruence|].
    inversion Hf as [|? ? [Ha Ho] Hf']; subst x0 l. assert (Hg' : Forall (fun t => t_address t = x) g) by (eapply Forall_impl; [|exact Hf']; cbn; tauto).
    rewrite <- app_comm_cons in HF. inversion HF as [|? ? F1 F2]; subst x0 l. apply Forall_app in F2. destruct F2 as [F2 F3].
    rewrite <- app_comm_cons, append_one by lia. cbv zeta. cbn [marks]. rewrite Ha.
    assert (Hs : (x + a_address a) mod TXT_BLOCKING = 0 -> g = []).
    { intros E. destruct g as [|u g]; [reflexivity|]. exfalso.
      assert (0 = 1)%nat; [|discriminate]. apply (Hm 0%nat 1%nat t u); [reflexivity|reflexivity| |].
      - inversion Hg'; congruence.
      - rewrite Ha. replace (a_address a + x) with (x + a_address a) by lia. exact E. }
    apply mono_skip in Hm.
    set (a1 := put_annotations _ a). destruct ((x + a_address a) mod TXT_BLOCKING =? 0) eqn:E.
    + rewrite Hs in * by lia. cbn [app].
      match goal with |- exists _, append_tokens rest ?b2 = _ /\ _ => destruct (IH (x + 1) rest b2 Hr F3) as (l & E1 & E2); [cbn; lia|exact Hm|] end.
      rewrite E1. exists (Rec (x + a_address a) (a_offset a + o) (a_offset a + o + t_length t - 1) :: l). split.
      * unfold a1, put_annotations, set_new, set_annotations. cbn [a_started a_readied a_vote a_failed a_adding a_io a_txt a_new a_lock a_address a_offset a_annotations].
        rewrite Ho. rewrite named_cons, <- !app_assoc. rewrite Ha. reflexivity.
      * cbn [map app]. f_equal. rewrite E2. unfold a1, put_annotations, set_new, set_annotations. cbn [a_address a_offset]. f_equal; lia.
    + rewrite (append_group x); [|exact Hg'|exact F2|exact Hx|left; change (a_address a1) with (a_address a); lia].
      match goal with |- exists _, append_tokens rest ?b2 = _ /\ _ => destruct (IH (x + 1) rest b2 Hr F3) as (l & E1 & E2); [cbn; lia|exact Hm|] end.
      rewrite E1. exists l. split.
      * unfold a1, put_annotations, set_new, set_annotations. cbn [a_started a_readied a_vote a_failed a_adding a_io a_txt a_new a_lock a_address a_offset a_annotations].
        rewrite named_cons, named_app, <- !app_assoc. rewrite Ha. reflexivity.
      * cbn [app]. rewrite E2. unfold a1, put_annotations, set_new, set_annotations. cbn [a_address a_offset]. f_equal; lia.
Qed.
Lemma last_address os : forall a toks, TextSpec.tokens_at a os toks ->
  match rev toks with [] => os = [] | t :: _ => os <> [] /\ t_address t = a + Z.of_nat (length os) - 1 end.
Proof.
  induction os as [|o os IH]; intros a toks H; cbn in H; [subst; reflexivity|].
  destruct H as (g & rest & -> & Hg & Hf & Hr). rewrite rev_app_distr. specialize (IH _ _ Hr).
  destruct (rev rest) as [|t r] eqn:E.
  - subst os. cbn [app]. destruct (rev g) as [|t r'] eqn:Eg; [apply (f_equal (@rev token)) in Eg; rewrite rev_involutive in Eg; cbn in Eg; congruence|].
    split; [discriminate|]. rewrite Forall_forall in Hf. destruct (Hf t) as [-> _]; [apply in_rev; rewrite Eg; left; reflexivity|]. cbn. lia.
  - cbn [app]. destruct IH as [_ ->]. split; [discriminate|]. cbn [length]. lia.
Qed.
