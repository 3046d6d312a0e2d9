(** Adding text to a single-file index: what is kept by every call. *)
From Verif Require Import Base Bytes CodecModel CodecSpec ChunkModel ChunkSpec ChunkLife ChunkStep TokenModel PlainModel PlainSpec PlainWrite.
From Verif Require TextSpec TextProofs DraftProofs FileSpec PlainRead.

Lemma closed_ended t : t <> [] -> TextSpec.closed t = ended t.
Proof. intros H. destruct t; [congruence|]. reflexivity. Qed.
Lemma whole_app a b : whole (a ++ b) = whole a ++ whole b.
Proof. unfold whole. rewrite map_app, concat_app. reflexivity. Qed.
Lemma whole_one t : whole [t] = TextSpec.closed t.
Proof. unfold whole. cbn [map concat]. apply app_nil_r. Qed.
Lemma closed_in t x : In x (TextSpec.closed t) -> In x t \/ x = 10.
Proof.
  destruct t as [|y t]; [intros []|]. unfold TextSpec.closed. intros H. apply in_app_or in H. destruct H as [H|H]; [left; exact H|].
  destruct (TextSpec.white _); [destruct H|]. destruct H as [H|[]]. right. congruence.
Qed.
Lemma closed_bytes t : Forall is_byte t -> Forall is_byte (TextSpec.closed t).
Proof.
  intros H. apply Forall_forall. intros x Hx. destruct (closed_in t x Hx) as [Hi| ->]; [rewrite Forall_forall in H; auto|]. unfold is_byte. lia.
Qed.
Lemma c_string_id s : ~ In 0 s -> c_string s = s.
Proof.
  induction s as [|x s IH]; intros H; [reflexivity|]. cbn. replace (x =? 0) with false.
  - rewrite IH; [reflexivity|]. intros Hi. apply H. right. exact Hi.
  - symmetry. apply Z.eqb_neq. intros ->. apply H. left. reflexivity.
Qed.
Lemma last_marked starts T l x r : recorded starts T l -> rev l = x :: r ->
  nth_error (starts T) (Z.to_nat (r_pq x)) = Some (r_start x) /\ 0 <= r_pq x.
Proof.
  intros [H1 H2] E. assert (El : l = rev r ++ [x]) by (rewrite <- (rev_involutive l), E; reflexivity).
  specialize (H1 (length r)). specialize (H2 (length r)).
  assert (Hn : nth_error l (length r) = Some x) by (rewrite El, nth_error_app2, rev_length, Nat.sub_diag by (rewrite rev_length; lia); reflexivity).
  rewrite nth_error_map, Hn in H1, H2. destruct (nth_error (starts T) (Z.to_nat TXT_BLOCKING * length r)) as [o|] eqn:Eo; [|discriminate H2].
  cbn [option_map] in H1, H2. injection H1 as H1. injection H2 as H2. rewrite H1, H2.
  replace (Z.to_nat (TXT_BLOCKING * Z.of_nat (length r))) with (Z.to_nat TXT_BLOCKING * length r)%nat by (unfold TXT_BLOCKING; lia).
  split; [exact Eo|unfold TXT_BLOCKING; lia].
Qed.
Lemma recorded_nil starts T : recorded starts T [] -> starts T = [].
Proof.
  intros [_ H]. specialize (H 0%nat). cbn [map] in H. rewrite Nat.mul_0_r in H. cbn [nth_error] in H. destruct (starts T); [reflexivity|discriminate H].
Qed.

Ltac splits := repeat match goal with |- _ /\ _ => split end.
Section Life.
Variable c : compressor.
Variable cs : Z.
Variable held : Z -> bool.
Hypothesis Hcs : 0 < cs.
Hypothesis Hloss : forall b, Forall is_byte b -> lossless c b.
Hypothesis Hfit : forall n, 0 <= n <= cs -> n + extra c n <= buffer_size c cs.
Variable tokenize : bytes -> list token.
Variable skip : bytes -> Z -> Z.
Variable stop : bytes -> Prop.
Variable starts : bytes -> list Z.
Variable split : bytes -> list bytes.
Hypothesis laws : TextSpec.tokenizer_laws tokenize skip stop starts.
Hypothesis Hsplit : split_law split starts.
Hypothesis Hfeat : features_ok tokenize.
Notation sys := (sys c cs).
Notation text_ok := (text_ok stop).
Notation count := (count starts).
Notation whole_starts ts := (starts (whole ts)).

Lemma whole_afresh ts : Forall text_ok ts -> TextSpec.afresh starts (whole ts).
Proof.
  intros H. apply (DraftProofs.concat_afresh tokenize skip stop starts laws). eapply Forall_impl; [|exact H]. intros t (_ & _ & E). exact E.
Qed.
Lemma starts_add ts t : Forall text_ok ts -> whole_starts (ts ++ [t]) = whole_starts ts ++ map (fun o => o + len (whole ts)) (starts (TextSpec.closed t)).
Proof. intros H. rewrite whole_app, whole_one. apply (whole_afresh ts H). Qed.
Lemma count_one t : count [t] = Z.of_nat (length (starts (TextSpec.closed t))).
Proof. unfold PlainSpec.count. rewrite whole_one. reflexivity. Qed.
Lemma count_add ts t : Forall text_ok ts -> count (ts ++ [t]) = count ts + count [t].
Proof. intros H. unfold PlainSpec.count at 1. rewrite starts_add, app_length, map_length by assumption. rewrite count_one. unfold PlainSpec.count. lia. Qed.
Lemma marks_add ts t : Forall text_ok ts ->
  marks 0 0 (whole_starts (ts ++ [t])) = marks 0 0 (whole_starts ts) ++ marks (0 + count ts) (len (whole ts)) (starts (TextSpec.closed t)).
Proof. intros H. rewrite starts_add, marks_app, marks_shift by assumption. reflexivity. Qed.
Lemma whole_clean ts : Forall text_ok ts -> ~ In 0 (whole ts).
Proof.
  intros H X. apply in_concat in X. destruct X as (y & Hy & X). apply in_map_iff in Hy. destruct Hy as (t & <- & Ht).
  rewrite Forall_forall in H. destruct (H t Ht) as (_ & H0 & _). destruct (closed_in t 0 X) as [E|E]; [auto|discriminate E].
Qed.
Lemma no_tokens : starts [] = []. Proof. exact (DraftProofs.starts_nil tokenize skip stop starts laws). Qed.
Lemma add_nil ts : whole (ts ++ [[]]) = whole ts.
Proof. rewrite whole_app, whole_one. cbn. apply app_nil_r. Qed.

(** * Building *)
Definition binv (b : builder) (ts : list bytes) : Prop :=
  (exists f, sys (b_io b) f /\ text f = whole ts /\ mark f = None) /\
  map key (b_txt b) = marks 0 0 (whole_starts ts) /\ b_address b = count ts /\ b_offset b = len (whole ts).
Lemma words_eq ts t : words tokenize starts ts t = named (count ts) (tokenize (TextSpec.closed t)).
Proof. reflexivity. Qed.
Lemma range_eq ts t toks : TextSpec.tokens_at 0 (starts (TextSpec.closed t)) toks ->
  range_of starts ts t = match rev toks with [] => (count ts + 1, count ts) | x :: _ => (count ts, count ts + t_address x) end /\
  count [t] = match rev toks with [] => 0 | x :: _ => t_address x + 1 end.
Proof.
  intros H. apply last_address in H. unfold range_of. rewrite count_one. destruct (rev toks) as [|x r].
  - rewrite H. split; reflexivity.
  - destruct H as [H1 H2]. destruct (starts (TextSpec.closed t)) as [|o os]; [congruence|].
    replace (Z.of_nat (length (o :: os)) =? 0) with false by (cbn [length]; lia). split; [f_equal; lia|lia].
Qed.
Lemma add_text_ok t b ts : text_ok t -> Forall text_ok ts -> binv b ts ->
  exists b', add_text c cs held tokenize t b = Ok (range_of starts ts t, b') /\ binv b' (ts ++ [t]) /\
    b_tokens b' = b_tokens b ++ words tokenize starts ts t.
Proof.
  intros Ht Hts (Hio & Hk & Ha & Ho). unfold add_text. pose proof (TextSpec.law_tokenize _ _ _ _ laws (TextSpec.closed t)) as HT.
  destruct (range_eq ts t _ HT) as [Er Ec].
  destruct t as [|y t'] eqn:Et.
  - change (TextSpec.closed []) with (@nil Z) in *. rewrite no_tokens in HT. cbn in HT. rewrite words_eq. change (TextSpec.closed []) with (@nil Z).
    rewrite HT in Er |- *. cbn [rev] in Er. rewrite Er.
    exists b. rewrite <- Ha. split; [reflexivity|]. unfold named. cbn. rewrite app_nil_r. split; [|reflexivity].
    unfold binv, PlainSpec.count. rewrite add_nil. split; [exact Hio|]. split; [exact Hk|]. split; [exact Ha|exact Ho].
  - assert (Hne : t <> []) by (rewrite Et; discriminate). rewrite <- Et in *. clear y t' Et.
    rewrite <- !(closed_ended t Hne).
    destruct Hio as (f & Sy & Tf & Mf). destruct Ht as (Hb & H0 & He).
    destruct (step c cs held Hcs Hloss Hfit (Append (TextSpec.closed t)) (b_io b) f Sy) as (w & op & R & Sy' & _); [apply closed_bytes; exact Hb|].
    unfold io_append. rewrite R. cbn [bind fst flat1]. cbv zeta.
    set (b0 := Builder w (b_txt b) (b_address b) (b_offset b) (b_tokens b)).
    destruct (build_ok _ 0 _ (-1) b0 HT) as (l & El & Kl); [cbn [b_address b0]; unfold b0; cbn [b_address]; rewrite Ha; unfold PlainSpec.count; lia|].
    assert (Hlen : b_offset b + len (TextSpec.closed t) = len (whole (ts ++ [t]))) by (rewrite Ho, whole_app, whole_one; unfold len; rewrite app_length; lia).
    assert (Hio' : exists f, sys w f /\ text f = whole (ts ++ [t]) /\ mark f = None).
    { eexists. split; [exact Sy'|]. cbn [flat1 snd text mark]. rewrite Tf, whole_app, whole_one. auto. }
    assert (Hkey : map key (b_txt b ++ l) = marks 0 0 (whole_starts (ts ++ [t]))).
    { rewrite map_app, marks_add by assumption. rewrite Hk, Kl. unfold b0. cbn [b_address b_offset]. rewrite Ha, Ho. reflexivity. }
    rewrite Er. destruct (rev (tokenize (TextSpec.closed t))) as [|x r] eqn:Erev.
    + assert (Enil : tokenize (TextSpec.closed t) = []) by (apply (f_equal (@rev token)) in Erev; rewrite rev_involutive in Erev; exact Erev).
      apply last_address in HT. rewrite Erev in HT. rewrite HT in Kl. cbn [marks] in Kl. apply map_eq_nil in Kl. subst l. rewrite app_nil_r in Hkey.
      eexists. split; [unfold b0; cbn [b_io b_txt b_address b_offset b_tokens]; rewrite Ha; reflexivity|]. split.
      * split; [exact Hio'|]. split; [exact Hkey|]. split; [|exact Hlen]. cbn [b_address]. rewrite count_add by assumption. unfold b0. cbn [b_address]. lia.
      * cbn [b_tokens]. rewrite words_eq, Enil. unfold named. cbn. rewrite app_nil_r. reflexivity.
    + rewrite El. unfold b0. cbn [b_io b_txt b_address b_offset b_tokens]. eexists. split; [rewrite Ha; reflexivity|]. split.
      * split; [exact Hio'|]. split; [exact Hkey|]. split; [|exact Hlen]. cbn [b_address]. rewrite count_add by assumption. lia.
      * cbn [b_tokens]. rewrite words_eq. reflexivity.
Qed.
Lemma add_all_ok l : forall b ts, Forall text_ok l -> Forall text_ok ts -> binv b ts ->
  exists b', add_all c cs held tokenize l b = Ok (ranges_of starts ts l, b') /\ binv b' (ts ++ l) /\
    b_tokens b' = b_tokens b ++ all_words tokenize starts ts l.
Proof.
  induction l as [|t l IH]; intros b ts Hl Hts Hb.
  - exists b. cbn. rewrite !app_nil_r. auto.
  - inversion Hl; subst. destruct (add_text_ok t b ts) as (b1 & E1 & B1 & W1); try assumption.
    destruct (IH b1 (ts ++ [t])) as (b2 & E2 & B2 & W2); [assumption|apply Forall_app; split; [assumption|constructor; [assumption|constructor]]|assumption|].
    exists b2. cbn [add_all ranges_of all_words]. rewrite E1. cbn [bind]. rewrite E2. cbn [bind]. split; [reflexivity|].
    rewrite <- app_assoc in B2. split; [exact B2|]. rewrite W2, W1, app_assoc. reflexivity.
Qed.
Lemma still_resting w f : sys w f -> unflushed f = false -> mark f = None -> resting c cs (dk (s_ w)) (text f) /\ lock (dk (s_ w)) = false.
Proof.
  intros Sy U M. split; [split|].
  - apply (sys_shape c cs w f Sy U).
  - destruct Sy as [(Ef & _ & _ & L & _)|(F & l & B & Li & Sz & T & Fl & X)]; [exact L|]. unfold ChunkLife.tx in X. rewrite M in X. apply X.
  - destruct Sy as [(Ef & _ & _ & _ & L)|(F & l & B & Li & Sz & T & Fl & X)]; [exact L|]. unfold ChunkLife.tx in X. rewrite M in X. apply X.
Qed.
Lemma build_all l : Forall text_ok l ->
  exists b b' d, builder_make c cs held = Ok b /\ add_all c cs held tokenize l b = Ok (ranges_of starts [] l, b') /\
    b_tokens b' = all_words tokenize starts [] l /\
    finalize c cs held b' = Ok (d, b_txt b') /\ resting c cs d (whole l) /\ lock d = false /\
    map key (b_txt b') = marks 0 0 (whole_starts l).
Proof.
  intros Hl. destruct (opened_ok c cs held Hcs Hloss Hfit blank [] (blank_resting c cs) eq_refl) as (w & O & Sy & _).
  unfold builder_make. rewrite O. cbn [bind]. eexists. 
  destruct (add_all_ok l (Builder w [] 0 0 []) []) as (b' & E & (Hio & Hk & Ha & Ho) & W); [assumption|constructor| |].
  { split; [eexists; split; [exact Sy|split; reflexivity]|]. unfold PlainSpec.count. change (whole []) with (@nil Z). rewrite no_tokens. cbn. auto. }
  destruct Hio as (f & Syf & Tf & Mf). destruct (step c cs held Hcs Hloss Hfit Flush (b_io b') f Syf I) as (w' & op & R & Sy' & _).
  exists b'. unfold finalize. rewrite R. cbn [bind]. eexists. split; [reflexivity|]. split; [exact E|]. split; [exact W|]. split; [reflexivity|].
  destruct (still_resting _ _ Sy' eq_refl Mf) as [Q1 Q2]. cbn [flat1 snd text] in Q1. rewrite Tf in Q1. auto.
Qed.

(** * Appending *)
Definition state_ok (a : appender) (b : burrow) : Prop :=
  match open b with
  | None =>
      a_started a = false /\ a_adding a = false /\ a_lock a = false /\
      match a_io a with
      | inl w => exists f, sys w f /\ text f = whole (kept b) /\ mark f = None /\ unflushed f = false
      | inr d => resting c cs d (whole (kept b)) /\ lock d = false
      end
  | Some l =>
      a_started a = true /\ a_adding a = true /\ a_lock a = true /\ a_readied a = sure b /\ a_vote a = sure b /\
      (exists w f, a_io a = inl w /\ sys w f /\ text f = whole (kept b ++ l) /\ mark f = Some (whole (kept b)) /\
        (unflushed f = false \/ (sure b = false /\ whole l <> []))) /\
      map key (a_new a) = marks 0 0 (whole_starts (kept b ++ l)) /\
      a_address a = count (kept b ++ l) /\ a_offset a = len (whole (kept b ++ l)) /\
      Forall text_ok l
  end.
Definition ainv (a : appender) (b : burrow) : Prop :=
  a_failed a = false /\ Forall text_ok (kept b) /\ map key (a_txt a) = marks 0 0 (whole_starts (kept b)) /\
  len (whole (kept b ++ match open b with Some l => l | None => [] end)) <= maxf /\ state_ok a b.
Notation permitted := (permitted c cs tokenize stop starts).
Notation burrow1 := (burrow1 tokenize starts).
Notation call1 := (call1 c cs held tokenize split).

Lemma begin_ok a b : ainv a b -> open b = None -> whole (kept b) <> [] ->
  exists a', appender_transaction_ c cs held split (set_protocol false false false a) = Ok (true, a') /\
    ainv (set_protocol true false false a') (Burrow (kept b) (Some []) false).
Proof.
  intros (Hf & Hk & Ht & Hlen & Hs) Ho Hne. unfold state_ok in Hs. rewrite Ho in Hs, Hlen. rewrite app_nil_r in Hlen.
  destruct Hs as (S1 & S2 & S3 & S4). unfold appender_transaction_. cbn [set_protocol a_failed a_lock]. rewrite Hf, S3. cbv zeta.
  assert (Hio : exists w f, match a_io a with inl w => Ok w | inr d => opened c cs held d end = Ok w /\ sys w f /\
            text f = whole (kept b) /\ mark f = None /\ unflushed f = false).
  { destruct (a_io a) as [w|d].
    - destruct S4 as (f & Q). exists w, f. split; [reflexivity|exact Q].
    - destruct S4 as [Q1 Q2]. destruct (opened_ok c cs held Hcs Hloss Hfit d _ Q1 Q2) as (w & O & Sy & _).
      exists w. eexists. split; [exact O|]. split; [exact Sy|]. auto. }
  destruct Hio as (w & f & Eo & Sy & Tf & Mf & Uf). cbn [set_lock set_protocol a_io]. rewrite Eo. cbn [bind].
  destruct (step c cs held Hcs Hloss Hfit Begin w f Sy) as (w1 & op & R & Sy1 & _); [intros _; rewrite Tf; auto|].
  rewrite R. cbn [bind flat1 fst snd]. cbn [flat1 snd] in Sy1. rewrite Mf in Sy1 |- *. cbn [fst snd] in Sy1 |- *.
  assert (Esz : io_size w1 = len (whole (kept b))).
  { destruct (step c cs held Hcs Hloss Hfit Size w1 _ Sy1 I) as (w2 & op2 & R2 & _). cbn [run1 flat1 fst text] in R2.
    unfold io_size. injection R2 as R2 _. rewrite R2, Tf. reflexivity. }
  rewrite Esz. cbn [set_io set_lock set_protocol set_new a_txt].
  pose proof (marks_recorded starts (whole (kept b)) (a_txt a) Ht) as Hrec.
  destruct (rev (a_txt a)) as [|x r] eqn:Erev.
  - assert (En : a_txt a = []) by (apply (f_equal (@rev record)) in Erev; rewrite rev_involutive in Erev; exact Erev).
    assert (E0 : whole_starts (kept b) = []) by (apply recorded_nil; rewrite <- En; exact Hrec).
    eexists. split; [reflexivity|]. split; [exact Hf|]. split; [exact Hk|]. split; [exact Ht|]. split; [cbn [kept open]; rewrite app_nil_r; exact Hlen|].
    unfold state_ok. cbn [open kept sure]. rewrite app_nil_r. cbn [set_adding set_place set_new set_io set_lock set_protocol a_started a_adding a_lock a_readied a_vote a_io a_new a_address a_offset].
    split; [reflexivity|]. split; [reflexivity|]. split; [reflexivity|]. split; [reflexivity|]. split; [reflexivity|]. split.
    { exists w1. eexists. split; [reflexivity|]. split; [exact Sy1|]. cbn [text mark unflushed]. rewrite Tf. auto. }
    split; [exact Ht|]. split; [unfold PlainSpec.count; rewrite E0; reflexivity|]. split; [reflexivity|constructor].
  - destruct (last_marked starts _ _ x r Hrec Erev) as [Hx Hx0].
    pose proof (TextSpec.law_inside _ _ _ _ laws (whole (kept b))) as Hasc.
    pose proof (TextProofs.ascending_in _ _ _ (r_start x) Hasc (nth_error_In _ _ Hx)) as Hin.
    change (CodecModel.len (whole (kept b))) with (len (whole (kept b))) in Hin.
    replace (len (whole (kept b)) <=? r_start x) with false by lia.
    destruct (step c cs held Hcs Hloss Hfit (Read (r_start x) (len (whole (kept b)) - r_start x)) w1 _ Sy1) as (w2 & op2 & R2 & Sy2 & _).
    { cbn [allowed]. rewrite Z.max_r by lia. unfold minf. lia. }
    unfold io_read. rewrite R2. cbn [bind flat1 fst snd text]. rewrite Tf. cbn [flat1 snd text mark] in Sy2.
    rewrite firstn_all2 by (rewrite skipn_length; unfold len; lia).
    set (tail := skipn (Z.to_nat (r_start x)) (whole (kept b))).
    assert (Elen : len tail = len (whole (kept b)) - r_start x) by (unfold tail, len in *; rewrite skipn_length; lia).
    rewrite Elen, Z.eqb_refl. cbn [negb].
    assert (Hclean : ~ In 0 tail).
    { intros Hi. apply (whole_clean (kept b) Hk). rewrite <- (firstn_skipn (Z.to_nat (r_start x)) (whole (kept b))). apply in_or_app. right. exact Hi. }
    rewrite c_string_id by assumption. rewrite (Hsplit tail Hclean).
    pose proof (TextSpec.law_from _ _ _ _ laws (whole (kept b)) _ _ Hx) as Hfrom. fold tail in Hfrom.
    rewrite Hfrom, map_length, skipn_length.
    assert (Hlt : (Z.to_nat (r_pq x) < length (whole_starts (kept b)))%nat) by (apply nth_error_Some; congruence).
    replace (Z.of_nat (length (whole_starts (kept b)) - Z.to_nat (r_pq x)) =? 0) with false by lia.
    eexists. split; [reflexivity|]. split; [exact Hf|]. split; [exact Hk|]. split; [exact Ht|]. split; [cbn [kept open]; rewrite app_nil_r; exact Hlen|].
    unfold state_ok. cbn [open kept sure]. rewrite app_nil_r. cbn [set_adding set_place set_new set_io set_lock set_protocol a_started a_adding a_lock a_readied a_vote a_io a_new a_address a_offset].
    split; [reflexivity|]. split; [reflexivity|]. split; [reflexivity|]. split; [reflexivity|]. split; [reflexivity|]. split.
    { exists w2. eexists. split; [reflexivity|]. split; [exact Sy2|]. cbn [text mark unflushed]. rewrite Tf. auto. }
    split; [exact Ht|]. split; [unfold PlainSpec.count; lia|]. split; [reflexivity|constructor].
Qed.
Lemma append_text_ok t a b l : ainv a b -> open b = Some l -> permitted (Text t) b ->
  exists a', append_text c cs held tokenize t (set_annotations [] a) = Ok (Some (range_of starts (kept b ++ l) t), a') /\
    a_annotations a' = words tokenize starts (kept b ++ l) t /\
    ainv a' (Burrow (kept b) (Some (l ++ [t])) (sure b)).
Proof.
  intros (Hf & Hk & Hx & Hlen & Hs) Ho Hp. unfold state_ok in Hs. cbn [PlainSpec.permitted] in Hp. rewrite Ho in Hs, Hp, Hlen.
  destruct Hp as (Hsure & Ht & Hsingle & Hmax).
  destruct Hs as (S1 & S2 & S3 & S4 & S5 & (w & f & Eio & Sy & Tf & Mf & Uf) & Hnew & Hadd & Hoff & Hl).
  assert (Hts : Forall text_ok (kept b ++ l)) by (apply Forall_app; split; assumption).
  set (ts := kept b ++ l) in *. replace (kept b ++ l ++ [t]) with (ts ++ [t]) in Hmax by (unfold ts; rewrite app_assoc; reflexivity).
  pose proof (TextSpec.law_tokenize _ _ _ _ laws (TextSpec.closed t)) as HT.
  destruct (range_eq ts t _ HT) as [Er Ec].
  assert (Fin : forall a', a_failed a' = false -> a_txt a' = a_txt a -> a_started a' = true -> a_adding a' = true -> a_lock a' = true ->
     a_readied a' = sure b -> a_vote a' = sure b ->
     (exists w f, a_io a' = inl w /\ sys w f /\ text f = whole (ts ++ [t]) /\ mark f = Some (whole (kept b)) /\ (unflushed f = false \/ sure b = false /\ whole (l ++ [t]) <> [])) ->
     map key (a_new a') = marks 0 0 (whole_starts (ts ++ [t])) -> a_address a' = count (ts ++ [t]) -> a_offset a' = len (whole (ts ++ [t])) ->
     ainv a' (Burrow (kept b) (Some (l ++ [t])) (sure b))).
  { intros a' F1 F2 F3 F4 F5 F6 F7 F8 F9 F10 F11. split; [exact F1|]. split; [exact Hk|]. split; [rewrite F2; exact Hx|].
    cbn [open kept]. replace (kept b ++ l ++ [t]) with (ts ++ [t]) by (unfold ts; rewrite app_assoc; reflexivity).
    split; [exact Hmax|]. unfold state_ok. cbn [open kept sure].
    replace (kept b ++ l ++ [t]) with (ts ++ [t]) by (unfold ts; rewrite app_assoc; reflexivity).
    splits; auto. apply Forall_app. split; [exact Hl|]. constructor; [exact Ht|constructor]. }
  unfold append_text. cbn [set_annotations a_failed a_adding a_io a_address]. rewrite Hf, S2. cbn [orb negb].
  destruct t as [|y t'] eqn:Et.
  - change (TextSpec.closed []) with (@nil Z) in *. rewrite no_tokens in HT. cbn in HT.
    rewrite words_eq. change (TextSpec.closed []) with (@nil Z). rewrite HT in Er |- *. cbn [rev] in Er. rewrite Er.
    eexists. split; [rewrite Hadd; reflexivity|]. split; [reflexivity|].
    apply Fin; cbn [set_annotations a_failed a_txt a_started a_adding a_lock a_readied a_vote a_io a_new a_address a_offset]; auto.
    + exists w, f. rewrite !add_nil. auto.
    + rewrite add_nil. exact Hnew.
    + unfold PlainSpec.count. rewrite add_nil. exact Hadd.
    + rewrite add_nil. exact Hoff.
  - assert (Hne : t <> []) by (rewrite Et; discriminate). rewrite <- Et in *. clear y t' Et. rewrite Eio.
    rewrite <- !(closed_ended t Hne).
    destruct Ht as (Hb & H0 & He).
    destruct (step c cs held Hcs Hloss Hfit (Append (TextSpec.closed t)) w f Sy) as (w1 & op & R & Sy' & _); [apply closed_bytes; exact Hb|].
    unfold io_append. rewrite R. cbn [bind fst flat1]. cbv zeta.
    set (a0 := set_io w1 (set_annotations [] a)).
    assert (Ea0 : a_address a0 = count ts) by exact Hadd. assert (Eo0 : a_offset a0 = len (whole ts)) by exact Hoff.
    destruct (append_ok _ 0 _ a0 HT) as (rs & El & Kl).
    { apply Forall_forall. intros k Hin. apply (Hfeat _ _ Hin). }
    { rewrite Ea0. unfold PlainSpec.count. lia. }
    { rewrite Ea0. intros i j u v Hi Hj Hu Hm. apply (Hsingle i j u v Hi Hj Hu Hm). }
    assert (Hoff' : len (whole ts) + len (TextSpec.closed t) = len (whole (ts ++ [t]))) by (rewrite whole_app, whole_one; unfold len; rewrite app_length; lia).
    assert (Hne' : whole (l ++ [t]) <> []).
    { rewrite whole_app, whole_one. intros E. apply app_eq_nil in E. destruct E as [_ E]. destruct t; [congruence|discriminate E]. }
    assert (Hio' : exists w2 f2, (inl w1 : program + disk) = inl w2 /\ sys w2 f2 /\ text f2 = whole (ts ++ [t]) /\ mark f2 = Some (whole (kept b)) /\ (unflushed f2 = false \/ sure b = false /\ whole (l ++ [t]) <> [])).
    { exists w1. eexists. split; [reflexivity|]. split; [exact Sy'|]. cbn [flat1 snd text mark unflushed]. rewrite Tf, whole_app, whole_one. auto. }
    assert (Hkey : map key (a_new a ++ rs) = marks 0 0 (whole_starts (ts ++ [t]))).
    { rewrite map_app, marks_add by assumption. rewrite Hnew, Kl, Ea0, Eo0. reflexivity. }
    rewrite Er. destruct (rev (tokenize (TextSpec.closed t))) as [|x r] eqn:Erev.
    + assert (Enil : tokenize (TextSpec.closed t) = []) by (apply (f_equal (@rev token)) in Erev; rewrite rev_involutive in Erev; exact Erev).
      apply last_address in HT. rewrite Erev in HT. rewrite HT in Kl. cbn [marks] in Kl. apply map_eq_nil in Kl. subst rs. rewrite app_nil_r in Hkey.
      eexists. split; [rewrite Ea0; reflexivity|]. split; [rewrite words_eq, Enil; reflexivity|].
      apply Fin; cbn [set_place set_io set_annotations a_failed a_txt a_started a_adding a_lock a_readied a_vote a_io a_new a_address a_offset]; auto.
      * rewrite count_add by assumption. lia.
      * rewrite Eo0. exact Hoff'.
    + rewrite El, Ea0. eexists. split; [reflexivity|]. split; [rewrite words_eq; reflexivity|].
      apply Fin; cbn [a0 put_annotations set_new set_place set_io set_annotations a_failed a_txt a_started a_adding a_lock a_readied a_vote a_io a_new a_address a_offset a_annotations]; auto.
      * rewrite count_add by assumption. lia.
      * unfold a0. cbn [put_annotations set_new set_place set_io set_annotations a_offset]. rewrite <- Hoff'. f_equal. exact Hoff.
Qed.
Lemma call_ok e a b : ainv a b -> permitted e b ->
  exists a', call1 e a = Ok (fst (burrow1 e b), a') /\ ainv a' (snd (burrow1 e b)).
Proof.
  intros Ha Hp. assert (Ha0 := Ha). destruct Ha as (Hf & Hk & Hx & Hlen & Hs). unfold state_ok in Hs.
  destruct e as [|t| | | |]; cbn [PlainModel.call1 PlainSpec.burrow1].
  - destruct (open b) as [l|] eqn:Ho.
    + destruct Hs as (S1 & _). rewrite S1. exists a. split; [reflexivity|exact Ha0].
    + destruct Hs as (S1 & _). rewrite S1. destruct (begin_ok a b Ha0 Ho (Hp Ho)) as (a' & E & I'). rewrite E. cbn [bind fst snd]. eauto.
  - destruct (open b) as [l|] eqn:Ho.
    + destruct (append_text_ok t a b l Ha0 Ho Hp) as (a' & E & W & I'). rewrite E. cbn [bind fst snd]. rewrite W. eauto.
    + destruct Hs as (S1 & S2 & S3 & S4). unfold append_text. cbn [set_annotations a_failed a_adding]. rewrite S2, orb_true_r. cbn [bind fst snd].
      exists (set_annotations [] a). split; [reflexivity|]. split; [exact Hf|]. split; [exact Hk|]. split; [exact Hx|].
      split; [rewrite Ho; exact Hlen|]. unfold state_ok. rewrite Ho. splits; assumption.
  - destruct (open b) as [l|] eqn:Ho.
    + destruct Hs as (S1 & S2 & S3 & S4 & S5 & (w & f & Eio & Sy & Tf & Mf & Uf) & Hnew & Hadd & Hoff & Hl).
      rewrite S1. cbn [negb]. rewrite S4. destruct (sure b) eqn:Hsure.
      * rewrite S5. exists a. split; [reflexivity|]. replace (Burrow (kept b) (Some l) true) with b; [exact Ha0|]. destruct b; cbn in *; congruence.
      * unfold appender_ready_. rewrite Hf, S2, Eio. cbn [orb negb].
        destruct (step c cs held Hcs Hloss Hfit Flush w f Sy I) as (w1 & op & R & Sy1 & _). rewrite R. cbn [bind flat1 fst snd].
        eexists. split; [reflexivity|]. split; [exact Hf|]. split; [exact Hk|]. split; [exact Hx|].
        split; [cbn [open kept]; exact Hlen|]. unfold state_ok. cbn [open kept sure set_protocol set_io a_started a_adding a_lock a_readied a_vote a_io a_new a_address a_offset].
        splits; auto. exists w1. eexists. split; [reflexivity|]. split; [exact Sy1|]. cbn [text mark unflushed]. auto.
    + destruct Hs as (S1 & _). rewrite S1. exists a. split; [reflexivity|exact Ha0].
  - cbn [PlainSpec.permitted] in Hp. destruct Hp as [Hp Hsure]. destruct (open b) as [l|] eqn:Ho; [|congruence].
    destruct Hs as (S1 & S2 & S3 & S4 & S5 & (w & f & Eio & Sy & Tf & Mf & Uf) & Hnew & Hadd & Hoff & Hl).
    rewrite S1, S5, Hsure. cbn [andb]. unfold appender_commit_. rewrite Eio.
    destruct (step c cs held Hcs Hloss Hfit Commit w f Sy I) as (w1 & op & R & Sy1 & _). rewrite R. cbn [bind flat1 fst snd].
    cbn [flat1 snd] in Sy1. rewrite Mf in Sy1. cbn [set_io a_failed a_adding]. rewrite Hf, S2. cbn [negb andb].
    eexists. split; [reflexivity|]. split; [exact Hf|]. split; [apply Forall_app; split; assumption|]. split; [exact Hnew|].
    cbn [open kept]. rewrite app_nil_r. split; [exact Hlen|]. unfold state_ok. cbn [open kept sure set_protocol set_io set_adding set_lock set_new set_txt a_started a_adding a_lock a_io].
    splits; auto. eexists. split; [exact Sy1|]. cbn [text mark unflushed]. auto.
  - cbn [PlainSpec.permitted] in Hp. destruct (open b) as [l|] eqn:Ho.
    + destruct Hs as (S1 & S2 & S3 & S4 & S5 & (w & f & Eio & Sy & Tf & Mf & Uf) & Hnew & Hadd & Hoff & Hl).
      rewrite S1. unfold appender_abort_. rewrite Eio.
      destruct (step c cs held Hcs Hloss Hfit Abort w f Sy) as (w1 & op & R & Sy1 & _).
      { cbn [allowed]. destruct Uf as [Uf|[Uf1 Uf2]]; [left; exact Uf|]. destruct Hp as [Hp|[Hp|Hp]]; [congruence|congruence|right; exact Hp]. }
      rewrite R. cbn [bind flat1 fst snd]. cbn [flat1 snd] in Sy1. rewrite Mf in Sy1. cbn [set_io a_failed a_adding]. rewrite Hf, S2. cbn [negb andb].
      eexists. split; [reflexivity|]. split; [exact Hf|]. split; [exact Hk|]. split; [exact Hx|].
      cbn [open kept]. rewrite app_nil_r. split.
      { rewrite whole_app in Hlen. unfold len in *. rewrite app_length in Hlen. lia. }
      unfold state_ok. cbn [open kept sure set_protocol set_io set_adding set_lock set_new a_started a_adding a_lock a_io].
      splits; auto. eexists. split; [exact Sy1|]. cbn [text mark unflushed]. auto.
    + destruct Hs as (S1 & S2 & S3 & S4). rewrite S1. cbn [bind fst snd]. eexists. split; [reflexivity|]. split; [exact Hf|]. split; [exact Hk|]. split; [exact Hx|].
      cbn [open kept]. split; [exact Hlen|]. unfold state_ok. cbn [open kept sure set_protocol a_started a_adding a_lock a_io]. splits; auto.
  - cbn [PlainSpec.permitted] in Hp. rewrite Hp in Hs, Hlen. destruct Hs as (S1 & S2 & S3 & S4).
    assert (Fin : forall d, resting c cs d (whole (kept b)) /\ lock d = false -> ainv (appender_make d (a_txt a) (a_lock a)) b).
    { intros d Hd. split; [reflexivity|]. split; [exact Hk|]. split; [exact Hx|]. rewrite Hp. split; [exact Hlen|]. unfold state_ok. rewrite Hp.
      cbn [appender_make a_started a_adding a_lock a_io]. splits; auto; apply Hd. }
    destruct (a_io a) as [w|d].
    + destruct S4 as (f & Sy & Tf & Mf & Uf). destruct (step c cs held Hcs Hloss Hfit Flush w f Sy I) as (w1 & op & R & Sy1 & _). rewrite R. cbn [bind flat1 fst snd].
      eexists. split; [reflexivity|]. apply Fin. rewrite <- Tf. change (text f) with (text (snd (flat1 Flush f))). apply still_resting; [exact Sy1|reflexivity|exact Mf].
    + eexists. split; [reflexivity|]. apply Fin. exact S4.
Qed.
Lemma calls_ok l : forall a b, ainv a b -> all_permitted c cs tokenize stop starts l b ->
  exists a', calls c cs held tokenize split l a = Ok (fst (burrow_run tokenize starts l b), a') /\ ainv a' (snd (burrow_run tokenize starts l b)).
Proof.
  induction l as [|e l IH]; intros a b Ha Hp; [exists a; split; [reflexivity|exact Ha]|]. destruct Hp as [P1 P2].
  destruct (call_ok e a b Ha P1) as (a1 & E1 & I1). cbn [calls burrow_run]. rewrite E1. cbn [bind].
  destruct (burrow1 e b) as [r b1]. cbn [fst snd] in *. destruct (IH a1 b1 I1 P2) as (a2 & E2 & I2). rewrite E2. cbn [bind].
  destruct (burrow_run tokenize starts l b1) as [rs b2]. eauto.
Qed.
Lemma ainv_rest a b : ainv a b -> open b = None ->
  serves c cs held (disk_of a) (whole (kept b)) /\ recorded starts (whole (kept b)) (a_txt a) /\ Forall text_ok (kept b) /\ len (whole (kept b)) <= maxf.
Proof.
  intros (Hf & Hk & Hx & Hlen & Hs) Ho. unfold state_ok in Hs. rewrite Ho in Hs, Hlen. rewrite app_nil_r in Hlen. destruct Hs as (_ & _ & _ & Hs).
  split; [|split; [apply marks_recorded; exact Hx|split; [exact Hk|exact Hlen]]].
  assert (Q : resting c cs (disk_of a) (whole (kept b)) /\ lock (disk_of a) = false).
  { unfold disk_of. destruct (a_io a) as [w|d]; [|exact Hs]. destruct Hs as (f & Sy & <- & Mf & Uf). apply still_resting; assumption. }
  destruct Q as [Q1 Q2]. apply (resting_serves c cs held Hcs Hloss Hfit _ _ Q1 Q2).
Qed.
End Life.
