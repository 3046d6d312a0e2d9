(** The text blob of a Hazel: written, copied and loaded. *)
From Verif Require Import Base Bytes HopperModel ArrayDefs GclSpec HopperProofs ArrayProofs UnaryProofs AnswerProofs VectorModel CodecModel CodecSpec CodecProofs
  PostingModel PostingIO ShardModel ShardSpec TokenModel TextModel TextSpec TextProofs DraftProofs TextStore TextMerge HazelModel HazelSpec HazelProofs FileModel FileSpec FileProofs LexCut HazelText.

Lemma Forall_firstn {A} (P : A -> Prop) n l : Forall P l -> Forall P (firstn n l).
Proof. intros H. rewrite <- (firstn_skipn n l) in H. apply Forall_app in H. apply H. Qed.
Lemma Forall_skipn {A} (P : A -> Prop) n l : Forall P l -> Forall P (skipn n l).
Proof. intros H. rewrite <- (firstn_skipn n l) in H. apply Forall_app in H. apply H. Qed.
(** * The hopper read from the start *)
Lemma enum_all_ok C s cs a b : answers C s (set_of cs) -> contig cs a b -> 0 <= a -> b <= maxf -> enum_all C s = Ok cs.
Proof.
  intros [G I] Ct Ha Hb. unfold enum_all.
  pose proof (implements_step C (set_of cs) s Mtau (minf + 1) I ltac:(unfold minf, maxf; lia)) as H1. apply wp_exists in H1.
  destruct H1 as ([s1 x0] & H1 & I1 & A1). cbn [call] in H1. rewrite H1. cbn [bind].
  assert (E0 : x0 = match cs with [] => Iv maxf maxf 0 | y :: _ => y end).
  { apply (tau_next cs a b [] cs (minf + 1) x0 Ct eq_refl); [unfold minf, maxf; lia|exact Hb|intros y []| |exact A1].
    destruct cs as [|y r]; [exact Logic.I|]. cbn in Ct. unfold minf. lia. }
  set (body := fun '(s, x, acc) => _).
  assert (W : wp (loop body (s1, x0, [])) (fun l => l = rev cs)).
  { apply (loop_rule (fun '(s, x, acc) => implements C s (set_of cs) /\ exists pre rest, cs = pre ++ rest /\ acc = rev pre /\
             x = match rest with [] => Iv maxf maxf 0 | y :: _ => y end)
           (fun '(s, x, acc) => maxf - ip x)).
    - intros [[s' x] acc] (_ & pre & rest & Ec & _ & ->). destruct rest as [|y r]; [cbn; lia|].
      assert (Iy : In y cs) by (rewrite Ec; apply in_or_app; right; left; reflexivity). pose proof (contig_in _ _ _ _ Ct Iy). lia.
    - intros [[s' x] acc] (I' & pre & rest & Ec & -> & ->). unfold body. destruct rest as [|y r].
      + cbn [ip]. replace (maxf <? maxf) with false by lia. cbn. rewrite app_nil_r in Ec. rewrite Ec. reflexivity.
      + assert (Iy : In y cs) by (rewrite Ec; apply in_or_app; right; left; reflexivity). pose proof (contig_in _ _ _ _ Ct Iy) as Cy.
        replace (ip y <? maxf) with true by lia. rewrite chk_ok by (unfold minf; lia). cbn [bind].
        pose proof (implements_step C (set_of cs) s' Mtau (ip y + 1) I' ltac:(unfold minf; lia)) as H2. apply wp_exists in H2.
        destruct H2 as ([s2 x2] & H2 & I2 & A2). cbn [call] in H2. rewrite H2. cbn [bind wp].
        pose proof Ct as Ct'. rewrite Ec in Ct'. destruct (contig_step _ _ _ _ _ Ct') as [P1 P2].
        destruct (Z.eq_dec (ip y + 1) maxf) as [Em|Em].
        * assert (r = []) as ->. { destruct r as [|z r]; [reflexivity|]. assert (Iz : In z cs) by (rewrite Ec; apply in_or_app; right; right; left; reflexivity). pose proof (contig_in _ _ _ _ Ct Iz). lia. }
          assert (x2 = Iv maxf maxf 0) as ->.
          { rewrite Em in A2. destruct A2 as [[A2 _]|[_ [(S0 & K0 & _)|[K _]]]]; [unfold minf, maxf in A2; lia| |exact K].
            pose proof (contig_in _ _ _ _ Ct S0). lia. }
          split; [split; [exact I2|]|cbn; lia]. exists (pre ++ [y]), []. rewrite app_nil_r, rev_unit. auto.
        * assert (E2 : x2 = match r with [] => Iv maxf maxf 0 | z :: _ => z end).
          { apply (tau_next cs a b (pre ++ [y]) r (ip y + 1) x2 Ct); [rewrite <- app_assoc; exact Ec|unfold minf; lia|exact Hb|exact P1|exact P2|exact A2]. }
          split; [split; [exact I2|]|].
          -- exists (pre ++ [y]), r. rewrite rev_unit, <- app_assoc. auto.
          -- rewrite E2. destruct r as [|z r]; cbn [ip]; lia.
    - split; [exact I1|]. exists [], cs. auto.
    - rewrite E0. destruct cs as [|y r]; [cbn; unfold BIG, maxf; lia|]. cbn in Ct. unfold BIG, maxf. lia. }
  apply wp_exists in W. destruct W as (l & -> & ->). cbn [bind]. rewrite rev_involutive. reflexivity.
Qed.
Lemma range_ok t (o : hobj) cs a b : answers (projT1 o) (projT2 o) (set_of cs) -> contig cs a b -> 0 <= a -> b < maxf ->
  exists o', load_token_range t o =
    Ok (Htxt (ht_file t) (ht_start t) (ht_raw t) (ht_target t) (ht_map t) (if a <? b then a else maxf) (if a <? b then b - 1 else maxf), o') /\
    answers (projT1 o') (projT2 o') (set_of cs).
Proof.
  intros [G I] Ct Ha Hb. destruct o as [C s]. cbn [projT1 projT2] in *. unfold load_token_range. cbn [projT1 projT2].
  pose proof (implements_step C (set_of cs) s Mtau (minf + 1) I ltac:(unfold minf, maxf; lia)) as H1. apply wp_exists in H1.
  destruct H1 as ([s1 x0] & H1 & I1 & A1). cbn [call] in H1. rewrite H1. cbn [bind].
  assert (E0 : x0 = match cs with [] => Iv maxf maxf 0 | y :: _ => y end).
  { apply (tau_next cs a b [] cs (minf + 1) x0 Ct eq_refl); [unfold minf, maxf; lia|lia|intros y []| |exact A1].
    destruct cs as [|y r]; [exact Logic.I|]. cbn in Ct. unfold minf. lia. }
  destruct cs as [|y r].
  - subst x0. cbn in Ct. subst b. cbn [ip]. rewrite Z.eqb_refl, Z.ltb_irrefl. exists (existT _ C s1). split; [reflexivity|exact (conj G I1)].
  - subst x0. assert (Ip : ip y = a) by (cbn in Ct; tauto). pose proof (contig_in _ _ _ _ Ct (or_introl eq_refl)) as Cy.
    replace (ip y =? maxf) with false by lia.
    pose proof (implements_step C (set_of (y :: r)) s1 Muat (maxf - 1) I1 ltac:(unfold minf, maxf; lia)) as H2. apply wp_exists in H2.
    destruct H2 as ([s2 x2] & H2 & I2 & A2). cbn [call] in H2. rewrite H2. cbn [bind].
    destruct (contig_find _ _ _ (b - 1) Ct ltac:(lia)) as (z & Hz & Kz). pose proof (contig_in _ _ _ _ Ct Hz) as Cz.
    assert (iq x2 = b - 1) as Q2.
    { cbn [answer] in A2. destruct A2 as [[A2 _]|[_ [(S0 & Q0 & M0)|[_ N0]]]]; [unfold minf, maxf in *; lia| |specialize (N0 z Hz); lia].
      pose proof (contig_in _ _ _ _ Ct S0). specialize (M0 z Hz ltac:(lia)). lia. }
    rewrite Q2. replace (b - 1 <? ip y) with false by lia. replace (a <? b) with true by lia. exists (existT _ C s2). rewrite Ip. split; [reflexivity|exact (conj G I2)].
Qed.

Section Blob.
Variable ct : compressor.
(** [b] is the chunks [d] of the bytes of [t] from [p] to [hi], one after the other;
    [c] bytes stand before. *)
Fixpoint laid_text (t b : bytes) (p c : Z) (d : list tentry) (hi : Z) : Prop :=
  match d with
  | [] => b = [] /\ p = hi
  | e :: r => exists z b', b = z ++ b' /\ te_comp e = c + len z /\ p < te_raw e /\
                tang ct z (te_raw e - p) = Ok (between t p (te_raw e)) /\ laid_text t b' (te_raw e) (te_comp e) r hi
  end.
Lemma laid_ends t d : forall b p c hi, laid_text t b p c d hi -> ends p d hi.
Proof. induction d as [|e r IH]; intros b p c hi H; cbn in *; [tauto|]. destruct H as (z & b' & _ & _ & A & _ & B). split; [exact A|exact (IH _ _ _ _ B)]. Qed.
Lemma laid_app t d1 : forall b1 d2 b2 p m c hi, laid_text t b1 p c d1 m -> laid_text t b2 m (c + len b1) d2 hi -> laid_text t (b1 ++ b2) p c (d1 ++ d2) hi.
Proof.
  induction d1 as [|e r IH]; intros b1 d2 b2 p m c hi H K; cbn [laid_text app] in *.
  - destruct H as [-> ->]. cbn [app]. rewrite (Z.add_0_r c : c + len [] = c) in K. exact K.
  - destruct H as (z & b' & -> & A & B & C & D). exists z, (b' ++ b2). rewrite <- app_assoc. split; [reflexivity|]. split; [exact A|]. split; [exact B|]. split; [exact C|].
    apply (IH _ _ _ _ m _ _ D). rewrite A, <- Z.add_assoc, <- len_app. exact K.
Qed.
Lemma laid_left t u d : forall b p c hi, 0 <= p -> hi <= len t -> laid_text t b p c d hi -> laid_text (t ++ u) b p c d hi.
Proof.
  induction d as [|e r IH]; intros b p c hi Hp Hh H; [exact H|]. cbn [laid_text] in *. destruct H as (z & b' & -> & A & B & C & D).
  pose proof (ends_le _ _ _ (laid_ends _ _ _ _ _ _ D)). exists z, b'. split; [reflexivity|]. split; [exact A|]. split; [exact B|]. split; [rewrite between_left by lia; exact C|].
  apply IH; [lia|exact Hh|exact D].
Qed.
Definition moved (n k : Z) (e : tentry) : tentry := Tentry (n + te_raw e) (k + te_comp e).
Lemma laid_right u t k d : forall b p c hi, 0 <= p -> laid_text t b p c d hi -> laid_text (u ++ t) b (len u + p) (k + c) (map (moved (len u) k) d) (len u + hi).
Proof.
  induction d as [|e r IH]; intros b p c hi Hp H; cbn [laid_text map] in *; [destruct H as [-> ->]; auto|]. destruct H as (z & b' & -> & A & B & C & D).
  exists z, b'. cbn [moved te_raw te_comp]. split; [reflexivity|]. split; [lia|]. split; [lia|]. split.
  - rewrite between_right by lia. replace (len u + te_raw e - (len u + p)) with (te_raw e - p) by lia. exact C.
  - apply IH; [lia|exact D].
Qed.
Lemma laid_total t d : forall b p c hi, laid_text t b p c d hi -> match tlast d with None => b = [] | Some e => te_comp e = c + len b /\ te_raw e = hi end.
Proof.
  intros b p c hi H. unfold tlast. destruct d as [|e0 r0] eqn:Ed; [cbn in *; tauto|]. rewrite <- Ed in *.
  assert (Nd : d <> []) by (rewrite Ed; discriminate). clear Ed e0 r0. revert b p c H Nd. induction d as [|e r IH]; intros b p c H Nd; [contradiction|].
  cbn [laid_text] in H. destruct H as (z & b' & -> & A & B & C & D). cbn [rev]. destruct r as [|e1 r].
  - cbn in *. destruct D as [-> ->]. rewrite app_nil_r. lia.
  - specialize (IH _ _ _ D ltac:(discriminate)). destruct (rev (e1 :: r)) as [|y l] eqn:Er; [exfalso; apply (f_equal (@length _)) in Er; rewrite rev_length in Er; discriminate|].
    cbn [app]. rewrite len_app. destruct IH as [IH1 IH2]. split; [lia|exact IH2].
Qed.
Lemma laid_bounds t d : forall b p c hi, 0 <= p -> 0 <= c -> laid_text t b p c d hi -> chunks_bounded p c (c + len b) d = true.
Proof.
  induction d as [|e r IH]; intros b p c hi Hp Hc H; [reflexivity|]. cbn [laid_text chunks_bounded] in *. destruct H as (z & b' & -> & A & B & C & D). rewrite len_app.
  pose proof (CodecProofs.len_nonneg z). pose proof (CodecProofs.len_nonneg b'). replace (p <=? te_raw e) with true by lia. replace (c <=? te_comp e) with true by lia. replace (te_comp e <=? c + (len z + len b')) with true by lia.
  cbn [andb]. replace (c + (len z + len b')) with (te_comp e + len b') by lia. apply (IH _ _ _ hi); [lia|lia|exact D].
Qed.
Lemma laid_entry t d : forall b p c hi, 0 <= p -> 0 <= c -> laid_text t b p c d hi -> Forall (fun e => 0 <= te_raw e <= hi /\ 0 <= te_comp e <= c + len b) d.
Proof.
  induction d as [|e r IH]; intros b p c hi Hp Hc H; [constructor|]. cbn [laid_text] in *. destruct H as (z & b' & -> & A & B & C & D). rewrite len_app.
  pose proof (CodecProofs.len_nonneg z). pose proof (CodecProofs.len_nonneg b'). pose proof (ends_le _ _ _ (laid_ends _ _ _ _ _ _ D)). constructor; [lia|].
  eapply Forall_impl; [|apply (IH b' (te_raw e) (te_comp e) hi ltac:(lia) ltac:(lia) D)]. cbn. intros y Hy. lia.
Qed.
Definition cb (c : Z) (d : list tentry) (k : nat) : Z :=
  match k with O => c | S j => match nth_error d j with Some e => te_comp e | None => 0 end end.
Lemma cb_cons c e r k : cb c (e :: r) (S k) = cb (te_comp e) r k. Proof. destruct k; reflexivity. Qed.
Lemma laid_reads t d : forall b p c hi pre post s k e, laid_text t b p c d hi -> s + c = len pre -> nth_error d k = Some e ->
  cb c d k <= te_comp e /\ exists z, file_read (pre ++ b ++ post) (s + cb c d k) (te_comp e - cb c d k) = Some z /\
    tang ct z (te_raw e - rb p d k) = Ok (between t (rb p d k) (te_raw e)).
Proof.
  induction d as [|e0 r IH]; intros b p c hi pre post s k e H Hs Hk; [destruct k; discriminate|]. cbn [laid_text] in H. destruct H as (z & b' & -> & A & B & C & D). destruct k as [|k].
  - injection Hk as <-. cbn [cb rb]. pose proof (CodecProofs.len_nonneg z). split; [lia|]. exists z. split; [|exact C]. rewrite <- app_assoc. apply file_read_app; lia.
  - rewrite cb_cons, rb_cons. cbn [nth_error] in Hk. destruct (IH b' _ _ _ (pre ++ z) post s k e D ltac:(rewrite len_app; lia) Hk) as (K1 & y & K2 & K3). split; [exact K1|].
    exists y. rewrite <- app_assoc in K2. rewrite <- (app_assoc z). split; [exact K2|exact K3].
Qed.

(** A file in which the chunks [b] of [t] stand. *)
Record holds_text (x : htxt) (t b : bytes) : Prop := {
  ho_raw : ht_raw x = len t;
  ho_room : len t <= maxf;
  ho_laid : laid_text t b 0 0 (ht_map x) (len t);
  ho_file : exists pre post, ht_file x = pre ++ b ++ post /\ ht_start x = len pre }.
Lemma holds_shows x t b : holds_text x t b -> shows ct x t.
Proof.
  intros [A B C (pre & post & D & E)]. split; [exact A|exact (laid_ends _ _ _ _ _ _ C)|exact B|].
  intros k e Hk. rewrite D. apply (laid_reads t (ht_map x) b 0 0 (len t) pre post (ht_start x) k e C); [lia|exact Hk].
Qed.

(** * Writing *)
Hypothesis Hct : stores_text ct.
Context (t : bytes) (Ht : Forall is_byte t).
Lemma chunk_ok pre b d p n : laid_text t b 0 0 d p -> 0 <= p -> p + n <= len t ->
  exists b' d', write_text_chunk ct (len pre) t p n (pre ++ b) d = Ok (Some (pre ++ b', d')) /\ laid_text t b' 0 0 d' (if n <=? 0 then p else p + n) /\
    (forall e, In e d' -> In e d \/ te_raw e = p + n).
Proof.
  intros H Hp Hn. unfold write_text_chunk. destruct (Z.leb_spec n 0) as [L|L]; [exists b, d; auto|].
  assert (Ls : len (slice t p n) = n) by (rewrite slice_between, between_len by lia; lia).
  assert (Fs : Forall is_byte (slice t p n)) by (unfold slice; apply Forall_firstn, Forall_skipn, Ht).
  destruct (Hct _ Fs) as [Hx Hl]. rewrite Ls in Hx. destruct (Hl (n + extra ct n) ltac:(rewrite Ls; lia)) as (z & Ez & Lz & _ & _ & Tz). rewrite Ls in Lz, Tz. rewrite Ez. cbn [bind].
  replace (n + extra ct n <? len z) with false by lia. exists (b ++ z), (d ++ [Tentry (p + n) (len ((pre ++ b) ++ z) - len pre)]). rewrite <- app_assoc. split; [reflexivity|]. split.
  - apply (laid_app t d b _ z 0 p 0); [exact H|]. cbn [laid_text te_raw te_comp]. exists z, []. rewrite app_nil_r, !len_app. split; [reflexivity|]. split; [lia|]. split; [lia|]. split; [|auto].
    replace (p + n - p) with n by lia. rewrite Tz by lia. rewrite slice_between. reflexivity.
  - intros e He. apply in_app_or in He. destruct He as [He|[<-|[]]]; [left; exact He|right; reflexivity].
Qed.
Lemma groups_ok pre target xs : 0 < target -> Forall (fun x => 0 <= ivl x <= len t) xs -> forall b d p, laid_text t b 0 0 d p -> 0 <= p <= len t ->
  exists p' b' d', write_groups ct (len pre) target t xs p (pre ++ b) d = Ok (Some (p', pre ++ b', d')) /\ laid_text t b' 0 0 d' p' /\ 0 <= p' <= len t /\
    (forall e, In e d' -> In e d \/ exists x, In x xs /\ te_raw e = ivl x).
Proof.
  intros Htg Hx. induction Hx as [|x r Hx _ IH]; intros b d p H Hp; cbn [write_groups]; [exists p, b, d; auto|].
  replace ((ivl x <? 0) || (len t <? ivl x)) with false by lia. destruct (Z.leb_spec target (ivl x - p)) as [L|L].
  - destruct (chunk_ok pre b d p (ivl x - p) H ltac:(lia) ltac:(lia)) as (b1 & d1 & E1 & H1 & I1). rewrite E1. cbn [bind].
    replace (ivl x - p <=? 0) with false in H1 by lia. replace (p + (ivl x - p)) with (ivl x) in * by lia.
    destruct (IH b1 d1 (ivl x) H1 Hx) as (p' & b' & d' & E' & H' & P' & I'). exists p', b', d'. split; [exact E'|]. split; [exact H'|]. split; [exact P'|].
    intros e He. destruct (I' e He) as [K|(y & Hy & K)]; [|right; exists y; split; [right; exact Hy|exact K]]. destruct (I1 e K) as [K1|K1]; [left; exact K1|right; exists x; split; [left; reflexivity|exact K1]].
  - destruct (IH b d p H Hp) as (p' & b' & d' & E' & H' & P' & I'). exists p', b', d'. split; [exact E'|]. split; [exact H'|]. split; [exact P'|].
    intros e He. destruct (I' e He) as [K|(y & Hy & K)]; [left; exact K|right; exists y; split; [right; exact Hy|exact K]].
Qed.
Lemma write_text_ok pre target cs : 0 < target -> Forall (fun x => 0 <= ivl x <= len t) cs -> match cs with [] => True | x :: _ => ivl x = 0 end ->
  exists b d, write_text ct (len pre) target t cs pre = Ok (Some (pre ++ b, d)) /\ laid_text t b 0 0 d (len t) /\
    (forall e, In e d -> te_raw e = len t \/ exists x, In x cs /\ te_raw e = ivl x).
Proof.
  intros Htg Hx H0. pose proof (CodecProofs.len_nonneg t) as Nt.
  assert (N : laid_text t [] 0 0 [] 0) by (split; reflexivity). assert (Ep : pre = pre ++ []) by (symmetry; apply app_nil_r).
  destruct cs as [|x r]; cbn [write_text].
  - destruct (Z.ltb_spec 0 (len t)) as [L|L].
    + destruct (chunk_ok pre [] [] 0 (len t) N ltac:(lia) ltac:(lia)) as (b & d & E1 & H1 & I1). rewrite <- Ep in E1. exists b, d. split; [exact E1|].
      replace (len t <=? 0) with false in H1 by lia. split; [exact H1|]. intros e He. destruct (I1 e He) as [[]|K]. left. exact K.
    + exists [], []. rewrite <- Ep. split; [reflexivity|]. replace (len t) with 0 by lia. split; [exact N|intros e []].
  - inversion Hx as [|x' r' Hx0 Hr]; subst x' r'. replace ((ivl x <? 0) || (len t <? ivl x)) with false by lia. rewrite H0.
    destruct (groups_ok pre target r Htg Hr [] [] 0 N ltac:(lia)) as (p & b1 & d1 & E1 & H1 & P1 & I1). rewrite <- Ep in E1. rewrite E1. cbn [bind].
    destruct (chunk_ok pre b1 d1 p (len t - p) H1 ltac:(lia) ltac:(lia)) as (b & d & E2 & H2 & I2). rewrite E2. exists b, d. split; [reflexivity|]. replace (p + (len t - p)) with (len t) in * by lia.
    split; [destruct (Z.leb_spec (len t - p) 0) as [L|L]; [replace p with (len t) in H2 by lia; exact H2|exact H2]|].
    intros e He. destruct (I2 e He) as [K|K]; [|left; exact K]. destruct (I1 e K) as [[]|(y & Hy & Ky)]. right. exists y. split; [right; exact Hy|exact Ky].
Qed.

(** The blob. *)
Definition tblob (t b : bytes) (d : list tentry) (target : Z) : bytes :=
  txt_magic ++ word_bytes [len b; len (tdir_bytes d); len d; len t; target] ++ b ++ tdir_bytes d.
Lemma len_tdir d : len (tdir_bytes d) = 16 * len d.
Proof. unfold tdir_bytes. induction d as [|e r IH]; [reflexivity|]. cbn [flat_map]. rewrite len_app, IH, len_cons. unfold tentry_bytes. rewrite len_word_bytes. change (len [te_raw e; te_comp e]) with 2. lia. Qed.
Lemma len_tblob u b d target : len (tblob u b d target) = txt_header_length + len b + 16 * len d.
Proof. unfold tblob. rewrite !len_app, len_word_bytes, len_tdir. unfold txt_header_length. change (len [len b; 16 * len d; len d; len u; target]) with 5. lia. Qed.
Lemma write_blob_text out (o : hobj) cs a e target : answers (projT1 o) (projT2 o) (set_of cs) -> contig cs a e -> 0 <= a -> e <= maxf -> 0 < target ->
  Forall (fun x => 0 <= ivl x <= len t) cs -> match cs with [] => True | x :: _ => ivl x = 0 end ->
  exists b d, write_txt_blob ct out o t target = Ok (Some (out ++ tblob t b d target, len out, len (tblob t b d target))) /\ laid_text t b 0 0 d (len t) /\
    (forall e, In e d -> te_raw e = len t \/ exists x, In x cs /\ te_raw e = ivl x).
Proof.
  intros Ao Ct Ha He Htg Hx H0. unfold write_txt_blob. rewrite (enum_all_ok _ _ cs a e Ao Ct Ha He). cbn [bind].
  set (pre := out ++ txt_magic ++ word_bytes [0; 0; 0; len t; target]).
  destruct (write_text_ok pre target cs Htg Hx H0) as (b & d & E1 & H1 & I1). exists b, d. rewrite E1. cbn [bind]. split; [|auto].
  f_equal. f_equal. f_equal; [f_equal|].
  - replace (len (pre ++ b) - len pre) with (len b) by (rewrite len_app; lia).
    replace (len ((pre ++ b) ++ tdir_bytes d) - len (pre ++ b)) with (len (tdir_bytes d)) by (rewrite (len_app (pre ++ b)); lia).
    unfold pre. rewrite <- len_app. replace (((out ++ txt_magic ++ word_bytes [0; 0; 0; len t; target]) ++ b) ++ tdir_bytes d)
      with ((out ++ txt_magic) ++ word_bytes [0; 0; 0; len t; target] ++ b ++ tdir_bytes d) by (rewrite <- !app_assoc; reflexivity).
    rewrite patch_middle by (rewrite !len_word_bytes; reflexivity). unfold tblob. rewrite <- !app_assoc. reflexivity.
  - unfold pre, tblob. rewrite !len_app, !len_word_bytes. change (len [0; 0; 0; len t; target]) with 5. change (len [len b; len (tdir_bytes d); len d; len t; target]) with 5. lia.
Qed.
(** * Loading *)
Lemma pairs_tdir d : Forall (fun e => is_addr (te_raw e) /\ is_addr (te_comp e)) d -> pairs_of (words (tdir_bytes d)) = d.
Proof.
  assert (E : tdir_bytes d = word_bytes (flat_map (fun e => [te_raw e; te_comp e]) d)).
  { unfold tdir_bytes. induction d as [|e r IH]; [reflexivity|]. cbn [flat_map]. rewrite word_bytes_app, IH. reflexivity. }
  intros H. rewrite E, words_bytes.
  - clear. induction d as [|[a b] r IH]; [reflexivity|]. cbn [flat_map app te_raw te_comp pairs_of]. f_equal. exact IH.
  - apply Forall_flat_map. eapply Forall_impl; [|exact H]. cbn. intros e [A B]. constructor; [exact A|constructor; [exact B|constructor]].
Qed.
Lemma txt_load_ok u b d target pre post : laid_text u b 0 0 d (len u) -> 0 < target <= maxf -> len u <= maxf -> len (tblob u b d target) <= maxf ->
  txt_load (pre ++ tblob u b d target ++ post) (len pre) (len (tblob u b d target)) =
  Ok (Some (Htxt (pre ++ tblob u b d target ++ post) (len pre + txt_header_length) (len u) target d maxf maxf)).
Proof.
  intros L Htg Hu M. pose proof M as M'. rewrite len_tblob in M'. pose proof (CodecProofs.len_nonneg b) as Nb. pose proof (CodecProofs.len_nonneg d) as Nd. pose proof (CodecProofs.len_nonneg u) as Nu.
  assert (Hh : txt_header_length = 61) by reflexivity.
  unfold txt_load. rewrite len_tblob, Hh in *. replace (61 + len b + 16 * len d <? 61) with false by lia.
  set (hdr := word_bytes [len b; len (tdir_bytes d); len d; len u; target]).
  assert (Eb : tblob u b d target = (txt_magic ++ hdr) ++ b ++ tdir_bytes d) by (unfold tblob, hdr; rewrite <- !app_assoc; reflexivity).
  assert (Lh : len (txt_magic ++ hdr) = 61) by (unfold hdr; rewrite len_app, len_word_bytes; reflexivity).
  rewrite Eb at 1. rewrite <- (app_assoc (txt_magic ++ hdr)). rewrite file_read_app by (symmetry; exact Lh || reflexivity).
  unfold len at 1. rewrite Nat2Z.id. rewrite firstn_app, firstn_all, Nat.sub_diag, firstn_O, app_nil_r. rewrite eqb_bytes_refl. cbn [negb].
  unfold len at 1. rewrite Nat2Z.id, skipn_app, skipn_all, Nat.sub_diag. cbn [skipn app].
  assert (Wh : words hdr = [len b; len (tdir_bytes d); len d; len u; target]).
  { unfold hdr. apply words_bytes. rewrite len_tdir. unfold is_addr, minf, maxf in *. repeat constructor; lia. }
  rewrite Wh, len_tdir. replace ((len b <? 0) || (16 * len d <? 0) || (len d <? 0) || (len u <? 0) || (target <=? 0)) with false by lia.
  rewrite chk_ok by (unfold minf; lia). cbn [bind orb]. replace (16 * len d =? len d * 16) with true by lia. cbn [negb orb].
  replace (61 + len b + 16 * len d - 61 <? len b) with false by lia. replace (61 + len b + 16 * len d - 61 - len b <? 16 * len d) with false by lia. cbn [orb].
  destruct (Z.eqb_spec (len d) 0) as [Z0|Z0].
  - assert (d = []) as -> by (destruct d; [reflexivity|rewrite len_cons in Z0; pose proof (CodecProofs.len_nonneg d); lia]).
    cbn [laid_text] in L. destruct L as [-> Lu]. rewrite <- Lu. cbn. reflexivity.
  - rewrite Eb at 1. replace (pre ++ ((txt_magic ++ hdr) ++ b ++ tdir_bytes d) ++ post) with ((pre ++ (txt_magic ++ hdr) ++ b) ++ tdir_bytes d ++ post) by (rewrite <- !app_assoc; reflexivity).
    rewrite file_read_app; [|rewrite (len_app pre), (len_app (txt_magic ++ hdr)), Lh; lia|symmetry; apply len_tdir].
    rewrite pairs_tdir.
    2:{ eapply Forall_impl; [|exact (laid_entry u d b 0 0 _ ltac:(lia) ltac:(lia) L)]. cbn. intros e He. unfold is_addr, minf. lia. }
    pose proof (laid_bounds u d b 0 0 _ ltac:(lia) ltac:(lia) L) as Bd. rewrite Z.add_0_l in Bd. rewrite Bd. cbn [negb].
    pose proof (laid_total u d b 0 0 _ L) as Tt. destruct (tlast d) as [e|] eqn:El.
    + destruct Tt as [T1 T2]. rewrite T1, T2, Z.add_0_l, !Z.eqb_refl. cbn [negb orb]. reflexivity.
    + exfalso. unfold tlast in El. destruct (rev d) eqn:Er; [|discriminate]. apply (f_equal (@length _)) in Er. rewrite rev_length in Er. unfold len in Z0. cbn in Er. lia.
Qed.
Lemma loaded_holds u b d target pre post p q : laid_text u b 0 0 d (len u) -> len u <= maxf ->
  holds_text (Htxt (pre ++ tblob u b d target ++ post) (len pre + txt_header_length) (len u) target d p q) u b.
Proof.
  intros L Hu. split; [reflexivity|exact Hu|exact L|]. cbn [ht_file ht_start].
  exists (pre ++ txt_magic ++ word_bytes [len b; len (tdir_bytes d); len d; len u; target]), (tdir_bytes d ++ post). split; [unfold tblob; rewrite <- !app_assoc; reflexivity|].
  rewrite !len_app, len_word_bytes. unfold txt_header_length. change (len [len b; len (tdir_bytes d); len d; len u; target]) with 5. lia.
Qed.

(** * Copying *)
Lemma copy_chunks_ok x u hi n k space d : forall b p c dir out fp post,
  ht_file x = fp ++ b ++ post -> ht_start x + c = len fp -> laid_text u b p c d hi -> 0 <= n -> 0 <= p -> n + hi <= maxf -> len out - space = k + c ->
  copy_chunks x space n p c d out dir = Ok (Some (out ++ b, dir ++ map (moved n k) d)).
Proof.
  induction d as [|e r IH]; intros b p c dir out fp post Hf Hs L Hn Hp Hh Ho.
  - cbn [laid_text] in L. destruct L as [-> _]. cbn [copy_chunks map]. rewrite !app_nil_r. reflexivity.
  - cbn [laid_text] in L. destruct L as (z & b' & -> & A & Bb & C & D). cbn [copy_chunks map]. pose proof (CodecProofs.len_nonneg z). pose proof (ends_le _ _ _ (laid_ends _ _ _ _ _ _ D)).
    replace ((te_raw e - p <? 0) || (te_comp e - c <? 0)) with false by lia. rewrite <- app_assoc in Hf.
    assert (Fr : file_read (ht_file x) (ht_start x + c) (te_comp e - c) = Some z) by (rewrite Hf; apply file_read_app; lia). rewrite Fr.
    rewrite chk_ok by (unfold minf; lia). cbn [bind].
    rewrite (IH b' (te_raw e) (te_comp e) _ _ (fp ++ z) post); [|rewrite <- app_assoc; exact Hf|rewrite len_app; lia|exact D|exact Hn|lia|exact Hh|rewrite len_app; lia].
    rewrite <- !app_assoc. cbn [app]. replace (len (out ++ z) - space) with (k + te_comp e) by (rewrite len_app; lia). reflexivity.
Qed.
(** The texts copied one after the other. *)
Lemma copy_texts_ok pre xs us : Forall2 (fun x u => exists b, holds_text x u b) xs us -> forall u0 b0 d0,
  laid_text u0 b0 0 0 d0 (len u0) -> len (u0 ++ concat us) <= maxf ->
  exists b d, copy_texts xs (len pre) (len u0) (pre ++ b0) d0 = Ok (Some (pre ++ b, d, len (u0 ++ concat us))) /\
    laid_text (u0 ++ concat us) b 0 0 d (len (u0 ++ concat us)) /\
    (forall e, In e d -> In e d0 \/ exists k x e', nth_error xs k = Some x /\ In e' (ht_map x) /\ te_raw e = len (u0 ++ concat (firstn k us)) + te_raw e').
Proof.
  induction 1 as [|x u xs us (b & Hb) _ IH]; intros u0 b0 d0 L0 Hl.
  - cbn [copy_texts concat]. rewrite app_nil_r. exists b0, d0. auto.
  - destruct Hb as [Hr Hm Hld (fp & post & Hf & Hs)]. cbn [copy_texts concat] in *. rewrite (app_assoc u0) in *.
    pose proof (CodecProofs.len_nonneg u0). pose proof (CodecProofs.len_nonneg u). pose proof (CodecProofs.len_nonneg (concat us)). rewrite !len_app in Hl.
    rewrite (copy_chunks_ok x u (len u) (len u0) (len b0) (len pre) (ht_map x) b 0 0 d0 (pre ++ b0) fp post Hf ltac:(lia) Hld ltac:(lia) ltac:(lia) ltac:(lia) ltac:(rewrite len_app; lia)).
    cbn [bind]. rewrite Hr, chk_ok by (unfold minf; lia). cbn [bind]. rewrite <- len_app, <- app_assoc.
    destruct (IH (u0 ++ u) (b0 ++ b) (d0 ++ map (moved (len u0) (len b0)) (ht_map x))) as (b' & d' & E & L & O).
    + apply (laid_app (u0 ++ u) d0 b0 _ b 0 (len u0) 0).
      * apply laid_left; [lia|lia|exact L0].
      * pose proof (laid_right u0 u (len b0) (ht_map x) b 0 0 (len u) ltac:(lia) Hld) as K. rewrite Z.add_0_l, len_app. rewrite !Z.add_0_r in K. exact K.
    + rewrite !len_app; lia.
    + exists b', d'. split; [exact E|]. split; [exact L|]. intros e He. destruct (O e He) as [K|(k & y & e' & K1 & K2 & K3)].
      * apply in_app_or in K. destruct K as [K|K]; [left; exact K|right]. apply in_map_iff in K. destruct K as (e' & <- & K).
        exists 0%nat, x, e'. split; [reflexivity|]. split; [exact K|]. cbn [firstn concat moved te_raw]. rewrite app_nil_r. reflexivity.
      * right. exists (Datatypes.S k), y, e'. split; [exact K1|]. split; [exact K2|]. cbn [firstn concat]. rewrite app_assoc. exact K3.
Qed.
Lemma merge_blob_ok out xs us target : Forall2 (fun x u => exists b, holds_text x u b) xs us -> Forall (fun x => ht_target x = target) xs -> (2 <= length xs)%nat ->
  len (concat us) <= maxf ->
  exists b d, merge_txt_blob xs out = Ok (Some (out ++ tblob (concat us) b d target)) /\ laid_text (concat us) b 0 0 d (len (concat us)) /\
    (forall e, In e d -> exists k x e', nth_error xs k = Some x /\ In e' (ht_map x) /\ te_raw e = len (concat (firstn k us)) + te_raw e').
Proof.
  intros H Htg Hn Hl. destruct xs as [|x0 [|x1 xs]]; cbn [length] in Hn; try lia. unfold merge_txt_blob.
  assert (T0 : ht_target x0 = target) by (inversion Htg; assumption). rewrite T0.
  assert (Fb : forallb (fun t0 => ht_target t0 =? target) (x0 :: x1 :: xs) = true).
  { apply forallb_forall. intros y Hy. rewrite Forall_forall in Htg. rewrite (Htg y Hy). apply Z.eqb_refl. }
  rewrite Fb. cbn [negb]. set (pre := out ++ txt_magic ++ word_bytes [0; 0; 0; 0; target]).
  destruct (copy_texts_ok pre _ _ H [] [] [] (conj eq_refl eq_refl) Hl) as (b & d & E & L & O). cbn [app] in L, O. change (len []) with 0 in E. rewrite app_nil_r in E. cbn [app] in E. rewrite E. cbn [bind].
  exists b, d. split; [|split; [exact L|intros e He; destruct (O e He) as [[]|K]; exact K]]. f_equal. f_equal.
  replace (len (pre ++ b) - len pre) with (len b) by (rewrite len_app; lia).
  replace (len ((pre ++ b) ++ tdir_bytes d) - (len pre + len b)) with (len (tdir_bytes d)) by (rewrite (len_app (pre ++ b)), (len_app pre); lia).
  unfold pre. rewrite <- len_app. replace (((out ++ txt_magic ++ word_bytes [0; 0; 0; 0; target]) ++ b) ++ tdir_bytes d)
    with ((out ++ txt_magic) ++ word_bytes [0; 0; 0; 0; target] ++ b ++ tdir_bytes d) by (rewrite <- !app_assoc; reflexivity).
  rewrite patch_middle by (rewrite !len_word_bytes; reflexivity). unfold tblob. rewrite <- !app_assoc. reflexivity.
Qed.
End Blob.
