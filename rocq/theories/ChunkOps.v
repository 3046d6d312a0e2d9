(** The text store: appending, flushing, reading and dumping. *)
From Verif Require Import Base Bytes CodecModel CodecSpec CodecProofs ChunkModel ChunkSpec ChunkFiles ChunkProofs.
Local Arguments settle : simpl never.

Lemma skipn_add {A} n m (l : list A) : skipn n (skipn m l) = skipn (m + n) l.
Proof. revert l. induction m as [|m IH]; intros [|x l]; cbn; auto. destruct n; reflexivity. Qed.
Lemma firstn_add {A} n m (l : list A) : firstn (n + m) l = firstn n l ++ firstn m (skipn n l).
Proof. revert l. induction n as [|n IH]; intros [|x l]; cbn; auto. - destruct m; reflexivity. - rewrite IH. reflexivity. Qed.
Lemma len_firstn {A} n (l : list A) : 0 <= n <= len l -> len (firstn (Z.to_nat n) l) = n.
Proof. unfold len. intros H. rewrite firstn_length. lia. Qed.
Lemma len_skipn {A} n (l : list A) : 0 <= n <= len l -> len (skipn (Z.to_nat n) l) = len l - n.
Proof. unfold len. intros H. rewrite skipn_length. lia. Qed.
Lemma len_zero {A} (l : list A) : len l = 0 -> l = [].
Proof. destruct l; [auto|]. unfold len. cbn. lia. Qed.

Section Ops.
Variable c : compressor.
Variable cs : Z.
Variable held : Z -> bool.
Hypothesis Hcs : 0 < cs.
Hypothesis Hloss : forall b, Forall is_byte b -> lossless c b.
Hypothesis Hfit : forall n, 0 <= n <= cs -> n + extra c n <= buffer_size c cs.
Notation bs := (buffer_size c cs).
Notation squash := (squash c cs).
Notation pre := (pre c cs).
Notation body := (body c cs).
Notation good_chunk := (good_chunk cs).
Notation good_last := (good_last cs).

(** A store all of whose chunks are full and on the file; none at all in an empty one. *)
Record closed (s : st) (F : list bytes) : Prop := Closed {
  cl_good : Forall good_chunk F;
  cl_map : map_ (h s) = ends 0 (map squash F);
  cl_cmap : cmap (dk s) = map_ (h s);
  cl_disk : exists r, contents (dk (settle s)) = pre F ++ r;
  cl_valid : valid (h s) = true -> exists k, nth_error F (index (h s)) = Some k /\ chunk (h s) = Some k;
  cl_synced : synced (h s) = true;
  cl_flushed : flushed (h s) = false;
  cl_lim : limited (h s) = None;
  cl_ro : read_only (h s) = false
}.

Lemma good_chunk_last k : good_chunk k -> good_last k.
Proof. intros [L B]. split; [lia|exact B]. Qed.

Lemma body_closed s fulls last : body s fulls last -> synced (h s) = true -> flushed (h s) = false -> limited (h s) = None ->
  len last = cs -> closed s (fulls ++ [last]).
Proof.
  intros B Sy Fl Lim Ll. destruct (b_map _ _ _ _ _ B) as (e & EM & Ee). constructor; auto.
  - apply Forall_app. split; [exact (b_fulls _ _ _ _ _ B)|]. constructor; [|constructor]. split; [exact Ll|apply (b_last _ _ _ _ _ B)].
  - rewrite EM, map_app, ends_app. cbn. rewrite Z.add_0_l. f_equal. f_equal. apply Ee; auto.
  - apply (b_cmap _ _ _ _ _ B Lim).
  - destruct (b_set _ _ _ _ _ B Lim Sy) as (r & E). exists r. rewrite E, pre_app, pre_one, <- app_assoc. reflexivity.
  - exact (b_valid _ _ _ _ _ B).
  - destruct (b_lim _ _ _ _ _ B) as [[_ R]|(L & _)]; [exact R|congruence].
Qed.

Lemma map_end_closed s F : closed s F -> map_end (map_ (h s)) = Ok (len (pre F)).
Proof.
  intros C. unfold map_end. rewrite (cl_map _ _ C), len_ends, map_length.
  rewrite <- (app_nil_r (ends 0 (map squash F))). rewrite chunk_start_at by (rewrite map_length; lia).
  rewrite <- (map_length squash F), firstn_all. reflexivity.
Qed.

(** One more chunk at the end. *)
Lemma push_ok s F text n0 : closed s F -> good_last text -> n0 <= len (pre F) ->
  (forall q x, pend (h s) = Some (q, x) -> n0 <= q) ->
  let e := len (pre F) + len (squash text) in
  let s1 := put held (len (pre F)) (squash text) s in
  let s3 := emit (MapPush e) (on_h (set_map (map_ (h s1) ++ [e])) s1) in
  body s3 F text /\ ext n0 s s3 /\ synced (h s3) = true /\ flushed (h s3) = false /\ limited (h s3) = None /\
  valid (h s3) = valid (h s) /\ index (h s3) = index (h s) /\ chunk (h s3) = chunk (h s).
Proof.
  intros C G N0 HP e s1 s3.
  assert (P0 : 0 <= len (pre F)) by apply len_nonneg.
  destruct (put_disk held (len (pre F)) (squash text) s P0) as (PH & PC & PS). fold s1 in PH, PC, PS.
  destruct (cl_disk _ _ C) as (r & D).
  destruct (put_contents c cs held (len (pre F)) (squash text) s F r D ltac:(lia)) as (r2 & D2). fold s1 in D2.
  assert (HM : map_ (h s1) = map_ (h s)) by (rewrite PH; reflexivity).
  assert (R : read_only (h s) = false) by (apply (cl_ro _ _ C)).
  split; [|split].
  - subst s3. constructor; cbn; rewrite ?PH; cbn.
    + exact (cl_good _ _ C).
    + exact G.
    + exists e. split; [rewrite (cl_map _ _ C); reflexivity|auto].
    + intros _. rewrite PC, (cl_cmap _ _ C). reflexivity.
    + exists r2. exact D2.
    + intros _ _.
      assert (W : exists r, write_at (len (pre F)) (squash text) (contents (dk (settle s))) = pre F ++ squash text ++ r).
      { rewrite D. apply write_at_app. reflexivity. }
      destruct W as (r3 & W). exists r3. rewrite <- W, <- PS. unfold settle. cbn. rewrite PH. cbn.
      destruct (held (len (squash text))); reflexivity.
    + intros p b Hp. destruct (held (len (squash text))); [injection Hp as <- <-; lia|discriminate].
    + intros V. destruct (cl_valid _ _ C V) as (k & N & K). exists k. split; [|exact K].
      rewrite nth_error_app1; [exact N|]. apply nth_error_Some. congruence.
    + rewrite (cl_synced _ _ C). discriminate.
    + rewrite (cl_flushed _ _ C). discriminate.
    + left. split; [apply (cl_lim _ _ C)|exact R].
  - subst s3. eapply ext_trans; [|apply ext_emit; [exact Logic.I|cbn; rewrite PH; exact R]].
    eapply ext_trans; [|apply ext_h; reflexivity]. apply put_ext; [exact HP|lia|exact R].
  - subst s3. cbn. rewrite PH. cbn. repeat split; apply C.
Qed.

Lemma put_chunk p b v i k s : put held p b (on_h (set_chunk v i k) s) = on_h (set_chunk v i k) (put held p b s).
Proof.
  unfold put. replace (settle (on_h (set_chunk v i k) s)) with (on_h (set_chunk v i k) (settle s)).
  - destruct (held (len b)); reflexivity.
  - unfold settle. cbn. destruct (pend (h s)) as [[q x]|]; reflexivity.
Qed.
Lemma set_synced_id s : synced (h s) = true -> on_h (set_synced true) s = s.
Proof. destruct s as [[] d l]. cbn. intros ->. reflexivity. Qed.

Lemma append_full_ok s F text n0 : closed s F -> good_chunk text -> n0 <= len (pre F) ->
  (forall q x, pend (h s) = Some (q, x) -> n0 <= q) ->
  exists s', append_full_chunk c cs held text s = Ok s' /\ closed s' (F ++ [text]) /\ ext n0 s s' /\
             (forall q x, pend (h s') = Some (q, x) -> n0 <= q).
Proof.
  intros C G N0 HP. unfold append_full_chunk. rewrite (map_end_closed _ _ C). cbn [bind].
  destruct G as [Lt Bt]. destruct (squash_ok c cs Hcs Hloss Hfit text Bt ltac:(lia)) as (Cr & _ & _). rewrite Cr. cbn [bind].
  eexists. split; [reflexivity|].
  assert (G : good_last text) by (split; [lia|exact Bt]).
  destruct (push_ok s F text n0 C G N0 HP) as (B & X & Sy & Fl & Li & _).
  split; [apply body_closed; auto|]. split; [exact X|].
  intros q x Hq. pose proof (b_pend _ _ _ _ _ B q x Hq). lia.
Qed.

Lemma start_new_ok s F text n0 : closed s F -> good_last text -> n0 <= len (pre F) ->
  (forall q x, pend (h s) = Some (q, x) -> n0 <= q) ->
  exists s', start_new_chunk c cs held text s = Ok s' /\ body s' F text /\ ext n0 s s' /\
             synced (h s') = true /\ flushed (h s') = false /\ limited (h s') = None /\
             valid (h s') = true /\ index (h s') = length F /\ chunk (h s') = Some text.
Proof.
  intros C G N0 HP. unfold start_new_chunk. rewrite (cl_lim _ _ C).
  destruct G as [Lt Bt]. destruct (squash_ok c cs Hcs Hloss Hfit text Bt ltac:(lia)) as (Cr & _ & _).
  destruct (Z.leb_spec (len text) 0); [lia|]. destruct (Z.ltb_spec cs (len text)); [lia|]. cbn [orb].
  assert (G : good_last text) by (split; assumption).
  destruct (push_ok s F text n0 C G N0 HP) as (B & X & Sy & Fl & Li & _).
  replace (on_h (fun h0 => set_chunk true (length (map_ h0)) (Some text) h0) s)
    with (on_h (set_chunk true (length F) (Some text)) s)
    by (unfold on_h; rewrite (cl_map _ _ C), len_ends, map_length; reflexivity).
  cbn [h on_h map_ set_chunk]. rewrite (map_end_closed _ _ C). cbn [bind]. rewrite Cr. cbn [bind].
  rewrite put_chunk.
  set (s1 := put held (len (pre F)) (squash text) s) in *.
  set (e := len (pre F) + len (squash text)) in *.
  set (s3 := emit (MapPush e) (on_h (set_map (map_ (h s1) ++ [e])) s1)) in *.
  exists (on_h (set_chunk true (length F) (Some text)) s3).
  assert (N : nth_error (F ++ [text]) (length F) = Some text) by (rewrite nth_error_app2, Nat.sub_diag by lia; reflexivity).
  split.
  { f_equal. apply (set_synced_id (on_h (set_chunk true (length F) (Some text)) s3)). exact Sy. }
  split; [apply body_chunk; auto|]. split; [eapply ext_trans; [exact X|apply ext_h; reflexivity]|].
  cbn. repeat split; auto.
Qed.

(** The text after what fills the last chunk. *)
Lemma append_rest_ok n0 : forall fuel text s F, closed s F -> Forall is_byte text -> 0 < len text -> (length text < fuel)%nat ->
  n0 <= len (pre F) -> (forall q x, pend (h s) = Some (q, x) -> n0 <= q) ->
  exists s' more last, append_rest c cs held fuel text s = Ok s' /\ body s' (F ++ more) last /\ ext n0 s s' /\
    concat more ++ last = text /\ flushed (h s') = false /\ limited (h s') = None /\ chunk (h s') = Some last.
Proof.
  induction fuel as [|fuel IH]; intros text s F C Bt Lt Hf N0 HP; [lia|]. cbn [append_rest].
  destruct (Z.ltb_spec cs (len text)) as [Hlong|Hshort].
  - set (a := firstn (Z.to_nat cs) text). set (b := skipn (Z.to_nat cs) text).
    assert (E : text = a ++ b) by (symmetry; apply firstn_skipn).
    assert (La : len a = cs) by (apply len_firstn; lia).
    assert (Lb : len b = len text - cs) by (apply len_skipn; lia).
    rewrite E in Bt. apply Forall_app in Bt. destruct Bt as [Ba Bb].
    destruct (append_full_ok s F a n0 C (conj La Ba) N0 HP) as (s1 & E1 & C1 & X1 & HP1). rewrite E1. cbn [bind].
    assert (Lp : len (pre F) <= len (pre (F ++ [a]))) by (rewrite pre_app, len_app; pose proof (len_nonneg (pre [a])); lia).
    destruct (IH b s1 (F ++ [a]) C1 Bb ltac:(lia) ltac:(unfold len in *; lia) ltac:(lia) HP1)
      as (s2 & more & last & E2 & B2 & X2 & T2 & Fl & Li & K).
    exists s2, (a :: more), last. rewrite <- app_assoc in B2. split; [exact E2|]. split; [exact B2|].
    split; [eapply ext_trans; eassumption|]. split; [cbn; rewrite <- app_assoc, T2; symmetry; exact E|]. auto.
  - destruct (Z.ltb_spec 0 (len text)); [|lia].
    destruct (start_new_ok s F text n0 C (conj (conj Lt Hshort) Bt) N0 HP) as (s1 & E1 & B1 & X1 & Sy & Fl & Li & V & I & K).
    exists s1, [], text. rewrite app_nil_r. repeat (split; [assumption || reflexivity|]). assumption.
Qed.

(** ** Append *)
(** How the chunks of a text grow when something is appended. *)
Definition grown (F0 : list bytes) (l0 : bytes) (F : list bytes) (l : bytes) : Prop :=
  (F = F0 /\ exists x, l = l0 ++ x) \/ exists x more, F = F0 ++ (l0 ++ x) :: more.
Lemma grown_refl F l : grown F l F l.
Proof. left. split; [reflexivity|]. exists []. rewrite app_nil_r. reflexivity. Qed.
Lemma grown_trans F0 l0 F1 l1 F2 l2 : grown F0 l0 F1 l1 -> grown F1 l1 F2 l2 -> grown F0 l0 F2 l2.
Proof.
  intros [[-> (x & ->)]|(x & m & ->)] [[-> (y & ->)]|(y & n & ->)].
  - left. split; [reflexivity|]. exists (x ++ y). rewrite app_assoc. reflexivity.
  - right. exists (x ++ y), n. rewrite app_assoc. reflexivity.
  - right. exists x, m. reflexivity.
  - right. exists x, (m ++ (l1 ++ y) :: n). rewrite <- app_assoc. reflexivity.
Qed.
Lemma grown_pre F0 l0 F l : grown F0 l0 F l -> exists r, pre F = pre F0 ++ r.
Proof. intros [[-> _]|(x & m & ->)]; [exists []; rewrite app_nil_r; reflexivity|]. rewrite pre_app. eauto. Qed.

Lemma measure_ok s fulls last : body s fulls last -> chunk (h s) = Some last ->
  measure cs s = Ok (len (concat fulls ++ last)).
Proof.
  intros B K. unfold measure. rewrite K, (map_length_of c cs _ _ _ B). f_equal. rewrite len_app. f_equal.
  replace (Z.of_nat (S (length fulls)) - 1) with (len fulls) by (unfold len; lia).
  pose proof (b_fulls _ _ _ _ _ B) as BF. clear - BF. induction BF as [|k l [L _] _ IH]; [unfold len; cbn; lia|].
  cbn [concat]. rewrite len_app, <- IH. replace (len (k :: l)) with (1 + len l) by (unfold len; cbn [length]; lia). lia.
Qed.

Lemma append_ok s fulls last text : body s fulls last -> limited (h s) = None -> Forall is_byte text -> text <> [] ->
  exists s' fulls' last', append c cs held text s = Ok s' /\ body s' fulls' last' /\ ext (len (pre fulls)) s s' /\
    concat fulls' ++ last' = concat fulls ++ last ++ text /\ grown fulls last fulls' last' /\
    limited (h s') = None /\ size (h s') = len (concat fulls ++ last ++ text) /\
    (forall x, pend (h s') = Some x -> (pend (h s) = Some x /\ fulls' = fulls) \/ (length fulls < length fulls')%nat).
Proof.
  intros B Lim Bt Ne. unfold append.
  assert (RO : read_only (h s) = false) by (destruct (b_lim _ _ _ _ _ B) as [[_ R]|(L & _)]; [exact R|congruence]).
  rewrite RO. assert (Lt : 0 < len text) by (destruct text; [congruence|unfold len; cbn; lia]).
  destruct (Z.leb_spec (len text) 0); [lia|].
  set (s0 := on_h (set_flushed false) s).
  assert (B0 : body s0 fulls last).
  { destruct B as [F L M CM D SE PE V U FL LI]. constructor; cbn; auto; try discriminate.
    - intros A1 A2. destruct (SE A1 A2) as (r & E). exists r. rewrite <- E. unfold settle. cbn. destruct (pend (h s)) as [[p b]|]; reflexivity. }
  assert (X0 : ext (len (pre fulls)) s s0) by (apply ext_h; reflexivity).
  destruct (map_ (h s0)) as [|m0 ms] eqn:EM.
  { pose proof (map_length_of c cs _ _ _ B0) as ML. rewrite EM in ML. discriminate. }
  destruct (fetch_last_ok c cs held Hcs Hloss Hfit s0 fulls last B0) as (s1 & E1 & B1 & X1 & V1 & I1 & K1 & F1 & Z1 & P1).
  rewrite E1. cbn [bind]. rewrite K1. clear EM.
  assert (L1 : limited (h s1) = None) by (destruct X1 as (? & ? & ? & ? & ? & ? & LL); rewrite LL; exact Lim).
  change (pend (h s0)) with (pend (h s)) in P1.
  destruct (b_last _ _ _ _ _ B1) as [Ll Bl].
  (* filling the last chunk *)
  assert (Fill : exists text' s2 last2,
    (if cs - len last =? 0 then Ok (text, s1)
     else let n := Z.to_nat (Z.min (cs - len last) (len text)) in
          let* s3 := append_last_chunk cs (firstn n text) s1 in Ok (skipn n text, s3)) = Ok (text', s2) /\
    body s2 fulls last2 /\ ext (len (pre fulls)) s1 s2 /\ (exists x, last2 = last ++ x /\ text = x ++ text') /\
    (text' = [] \/ len last2 = cs) /\ flushed (h s2) = false /\ limited (h s2) = None /\ chunk (h s2) = Some last2 /\
    pend (h s2) = pend (h s1)).
  { assert (FL1 : flushed (h s1) = false) by (rewrite F1; reflexivity).
    destruct (Z.eqb_spec (cs - len last) 0) as [Ef|Nf].
    - exists text, s1, last. split; [reflexivity|]. split; [exact B1|]. split; [apply ext_refl|].
      split; [exists []; rewrite app_nil_r; auto|]. split; [right; lia|]. auto.
    - set (n := Z.to_nat (Z.min (cs - len last) (len text))). cbv zeta. unfold append_last_chunk. rewrite L1, K1.
      destruct (map_ (h s1)) as [|m1 ms1] eqn:EM1.
      { pose proof (map_length_of c cs _ _ _ B1) as ML. rewrite EM1 in ML. discriminate. }
      rewrite <- EM1. rewrite (map_length_of c cs _ _ _ B1), V1, I1.
      replace (S (length fulls) - 1)%nat with (length fulls) by lia. rewrite Nat.eqb_refl.
      assert (Ln : len (firstn n text) = Z.min (cs - len last) (len text)) by (apply len_firstn; lia).
      rewrite Ln. destruct (Z.ltb_spec cs (len last + Z.min (cs - len last) (len text))); [lia|]. cbn [negb orb bind].
      eexists _, _, (last ++ firstn n text). split; [reflexivity|].
      assert (Bf : Forall is_byte (firstn n text) /\ Forall is_byte (skipn n text)).
      { apply Forall_app. rewrite firstn_skipn. exact Bt. }
      split.
      { destruct B1 as [F L M CM D SE PE V U FL LI]. destruct M as (e & M & _). constructor; cbn; auto; try discriminate.
        - split; [rewrite len_app; lia|]. apply Forall_app. tauto.
        - exists e. split; [exact M|discriminate].
        - intros _. exists (last ++ firstn n text). rewrite I1. split; [|reflexivity].
          rewrite nth_error_app2, Nat.sub_diag by lia. reflexivity.
        - intros FF. congruence.
        - destruct LI as [LI|LI]; [left; exact LI|]. destruct LI as (LI & _). congruence. }
      split; [apply ext_h; reflexivity|]. split; [exists (firstn n text); split; [reflexivity|symmetry; apply firstn_skipn]|].
      split.
      { destruct (Z.le_gt_cases (len text) (cs - len last)) as [Hle|Hgt].
        - left. apply len_zero. unfold n. rewrite len_skipn by lia. lia.
        - right. rewrite len_app, Ln. lia. }
      cbn. repeat split; auto. }
  destruct Fill as (text' & s2 & last2 & E2 & B2 & X2 & (x & Ex & Et) & Full & F2 & L2 & K2 & P2).
  cbv zeta in E2 |- *.
  match goal with |- context [if cs - len last =? 0 then ?a else ?b] =>
    replace (if cs - len last =? 0 then a else b) with (@Ok (bytes * st) (text', s2)) by (symmetry; exact E2) end.
  cbn [bind].
  assert (G2 : grown fulls last fulls last2) by (left; split; [reflexivity|exists x; exact Ex]).
  destruct (Z.eqb_spec (len text') 0) as [Z0|N0].
  - apply len_zero in Z0. subst text'. rewrite app_nil_r in Et. subst x. cbn [bind].
    rewrite (measure_ok _ _ _ B2 K2). cbn [bind]. eexists _, fulls, last2. split; [reflexivity|].
    split.
    { destruct B2 as [F L M CM D SE PE V U FL LI]. constructor; cbn; auto. 
      intros A1 A2. destruct (SE A1 A2) as (r & E). exists r. rewrite <- E. unfold settle. cbn. destruct (pend (h s2)) as [[p b]|]; reflexivity. }
    split; [eapply ext_trans; [|apply ext_h; reflexivity]; eapply ext_trans; [exact X0|]; eapply ext_trans; [exact X1|exact X2]|].
    subst last2. split; [reflexivity|]. split; [exact G2|]. split; [exact L2|]. split; [reflexivity|].
    cbn. intros y Hy. left. split; [|reflexivity]. rewrite P2 in Hy. destruct P1 as [P1|P1]; congruence.
  - destruct Full as [->|Full]; [contradiction N0; reflexivity|].
    destruct (sync_ok c cs held Hcs Hloss Hfit s2 fulls last2 B2) as (s3 & E3 & B3 & X3 & Sy & V3 & I3 & K3 & F3 & Z3).
    rewrite E3. cbn [bind].
    assert (L3 : limited (h s3) = None) by (destruct X3 as (? & ? & ? & ? & ? & ? & LL); rewrite LL; exact L2).
    assert (C3 : closed s3 (fulls ++ [last2])) by (apply body_closed; auto; congruence).
    assert (Bt' : Forall is_byte text') by (rewrite Et in Bt; apply Forall_app in Bt; tauto).
    destruct (append_rest_ok (len (pre fulls)) (S (length text')) text' s3 (fulls ++ [last2]) C3 Bt'
                ltac:(pose proof (len_nonneg text'); lia) ltac:(lia)
                ltac:(rewrite pre_app, len_app; pose proof (len_nonneg (pre [last2])); lia) (b_pend _ _ _ _ _ B3))
      as (s4 & more & last4 & E4 & B4 & X4 & T4 & F4 & L4 & K4).
    rewrite E4. cbn [bind]. rewrite (measure_ok _ _ _ B4 K4). cbn [bind].
    assert (TT : concat ((fulls ++ [last2]) ++ more) ++ last4 = concat fulls ++ last ++ text).
    { rewrite !concat_app. cbn [concat]. rewrite app_nil_r, <- !app_assoc, T4, Ex, Et, <- !app_assoc. reflexivity. }
    eexists _, ((fulls ++ [last2]) ++ more), last4. split; [reflexivity|]. split.
    { destruct B4 as [F L M CM D SE PE V U FL LI]. constructor; cbn; auto.
      intros A1 A2. destruct (SE A1 A2) as (r & E). exists r. rewrite <- E. unfold settle. cbn. destruct (pend (h s4)) as [[p b]|]; reflexivity. }
    split.
    { eapply ext_trans; [|apply ext_h; reflexivity]. eapply ext_trans; [exact X0|]. eapply ext_trans; [exact X1|].
      eapply ext_trans; [exact X2|]. eapply ext_trans; [exact X3|exact X4]. }
    split; [exact TT|]. split.
    { right. exists x, more. rewrite <- app_assoc, Ex. reflexivity. }
    split; [exact L4|]. split; [cbn; rewrite TT; reflexivity|].
    intros y _. right. rewrite !app_length. cbn. lia.
Qed.

(** ** Append to an empty store *)
Record empty_store (s : st) : Prop := Empty {
  e_map : map_ (h s) = []; e_cmap : cmap (dk s) = []; e_valid : valid (h s) = false; e_synced : synced (h s) = true;
  e_flushed : flushed (h s) = true; e_lim : limited (h s) = None; e_ro : read_only (h s) = false;
  e_pend : pend (h s) = None; e_size : size (h s) = 0
}.
Lemma append_empty s text : empty_store s -> Forall is_byte text -> text <> [] ->
  exists s' fulls' last', append c cs held text s = Ok s' /\ body s' fulls' last' /\ ext 0 s s' /\
    concat fulls' ++ last' = text /\ limited (h s') = None /\ size (h s') = len text.
Proof.
  intros E Bt Ne. unfold append. rewrite (e_ro _ E).
  assert (Lt : 0 < len text) by (destruct text; [congruence|unfold len; cbn; lia]).
  destruct (Z.leb_spec (len text) 0); [lia|]. cbn [h on_h set_flushed map_]. rewrite (e_map _ E).
  set (s0 := on_h (set_flushed false) s).
  assert (C0 : closed s0 []).
  { constructor; cbn; try apply E; auto.
    - rewrite (e_cmap _ E), (e_map _ E). reflexivity.
    - eexists. reflexivity.
    - rewrite (e_valid _ E). discriminate. }
  assert (P0 : forall q x, pend (h s0) = Some (q, x) -> 0 <= q) by (cbn; rewrite (e_pend _ E); discriminate).
  set (n := Z.to_nat (Z.min cs (len text))).
  assert (Ln : len (firstn n text) = Z.min cs (len text)) by (apply len_firstn; lia).
  assert (Ls : len (skipn n text) = len text - Z.min cs (len text)) by (apply len_skipn; lia).
  assert (Bf : Forall is_byte (firstn n text) /\ Forall is_byte (skipn n text)).
  { apply Forall_app. rewrite firstn_skipn. exact Bt. }
  destruct (start_new_ok s0 [] (firstn n text) 0 C0 ltac:(split; [lia|tauto]) ltac:(apply len_nonneg) P0)
    as (s1 & E1 & B1 & X1 & Sy & Fl & Li & V & I & K).
  rewrite E1. cbn [bind].
  assert (X0 : ext 0 s s0) by (apply ext_h; reflexivity).
  destruct (Z.eqb_spec (len (skipn n text)) 0) as [Z0|N0].
  - cbn [bind]. rewrite (measure_ok _ _ _ B1 K). cbn [bind]. eexists _, [], (firstn n text). split; [reflexivity|].
    apply len_zero in Z0. pose proof (firstn_skipn n text) as FS. rewrite Z0, app_nil_r in FS.
    split.
    { destruct B1 as [F L M CM D SE PE V' U FL LI]. constructor; cbn; auto.
      intros A1 A2. destruct (SE A1 A2) as (r & E'). exists r. etransitivity; [|exact E']. unfold settle. cbn. destruct (pend (h s1)) as [[p b]|]; reflexivity. }
    split; [eapply ext_trans; [|apply ext_h; reflexivity]; eapply ext_trans; eassumption|].
    split; [exact FS|]. split; [exact Li|]. cbn. rewrite FS. reflexivity.
  - assert (Lf : len (firstn n text) = cs) by lia.
    destruct (sync_ok c cs held Hcs Hloss Hfit s1 [] (firstn n text) B1) as (s3 & E3 & B3 & X3 & Sy3 & V3 & I3 & K3 & F3 & Z3).
    rewrite E3. cbn [bind].
    assert (L3 : limited (h s3) = None) by (destruct X3 as (? & ? & ? & ? & ? & ? & LL); rewrite LL; exact Li).
    assert (C3 : closed s3 ([] ++ [firstn n text])) by (apply body_closed; auto; congruence).
    destruct (append_rest_ok 0 (S (length (skipn n text))) (skipn n text) s3 _ C3 ltac:(tauto)
                ltac:(pose proof (len_nonneg (skipn n text)); lia) ltac:(lia) ltac:(apply len_nonneg) (b_pend _ _ _ _ _ B3))
      as (s4 & more & last4 & E4 & B4 & X4 & T4 & F4 & L4 & K4).
    rewrite E4. cbn [bind]. rewrite (measure_ok _ _ _ B4 K4). cbn [bind].
    assert (TT : concat (([] ++ [firstn n text]) ++ more) ++ last4 = text).
    { rewrite !concat_app. cbn [concat app]. rewrite app_nil_r, <- !app_assoc, T4. apply firstn_skipn. }
    eexists _, (([] ++ [firstn n text]) ++ more), last4. split; [reflexivity|]. split.
    { destruct B4 as [F L M CM D SE PE V' U FL LI]. constructor; cbn; auto.
      intros A1 A2. destruct (SE A1 A2) as (r & E'). exists r. etransitivity; [|exact E']. unfold settle. cbn. destruct (pend (h s4)) as [[p b]|]; reflexivity. }
    split.
    { eapply ext_trans; [|apply ext_h; reflexivity]. eapply ext_trans; [exact X0|]. eapply ext_trans; [exact X1|].
      eapply ext_trans; [exact X3|exact X4]. }
    split; [exact TT|]. split; [exact L4|]. exact (f_equal len TT).
Qed.

(** ** Flush *)
Lemma flush_ok s fulls last : body s fulls last ->
  exists s', flush c cs held s = Ok s' /\ body s' fulls last /\ ext (len (pre fulls)) s s' /\
    flushed (h s') = true /\ size (h s') = size (h s).
Proof.
  intros B. unfold flush. destruct (read_only (h s)) eqn:R; cbn [orb].
  { exists s. splits; auto using ext_refl. destruct (b_lim _ _ _ _ _ B) as [[_ R']|(_ & _ & F)]; congruence. }
  destruct (flushed (h s)) eqn:F.
  { exists s. splits; auto using ext_refl. }
  destruct (sync_ok c cs held Hcs Hloss Hfit s fulls last B) as (s1 & E1 & B1 & X1 & Sy & V1 & I1 & K1 & F1 & Z1).
  rewrite E1. cbn [bind]. eexists. split; [reflexivity|].
  destruct (settle_body _ _ _ _ _ B1) as (B2 & X2 & P2).
  assert (Sy2 : synced (h (settle s1)) = true) by (rewrite settle_h; exact Sy).
  split.
  { destruct B2 as [F' L M CM D SE PE V U FL LI]. constructor; cbn; auto.
    - intros A1 A2. destruct (SE A1 A2) as (r & E). exists r. rewrite <- E. unfold settle at 1. cbn. rewrite P2.
      rewrite settle_settle. reflexivity.
    - destruct LI as [LI|(LI & LR & _)]; [left; exact LI|right; auto]. }
  split; [eapply ext_trans; [exact X1|]; eapply ext_trans; [exact X2|]; apply ext_h; reflexivity|].
  cbn. rewrite settle_h. cbn. auto.
Qed.

(** ** Read *)
Section Reading.
Variables (fulls : list bytes) (last : bytes).
Notation t := (concat fulls ++ last).
Hypothesis HF : Forall good_chunk fulls.
Hypothesis HL : good_last last.

Lemma concat_len l : Forall good_chunk l -> len (concat l) = cs * len l.
Proof.
  intros H. induction H as [|k l [L _] _ IH]; [unfold len; cbn; lia|].
  cbn [concat]. rewrite len_app, IH. unfold len in *. cbn [length]. lia.
Qed.
Lemma chunk_at i k : nth_error (fulls ++ [last]) i = Some k ->
  k = firstn (Z.to_nat cs) (skipn (Z.to_nat (Z.of_nat i * cs)) t).
Proof.
  intros N. destruct (nth_last_cases _ _ _ _ N) as [[Hi Nf]|[-> ->]].
  - destruct (split_nth fulls i Hi) as (b & E & N'). assert (b = k) by congruence. subst b.
    assert (G : good_chunk k) by (rewrite Forall_forall in HF; apply HF; eapply nth_error_In; eassumption).
    assert (Lc : len (concat (firstn i fulls)) = cs * Z.of_nat i).
    { rewrite concat_len; [unfold len; rewrite firstn_length; lia|].
      clear - HF. rewrite <- (firstn_skipn i) in HF. apply Forall_app in HF. tauto. }
    rewrite E. rewrite concat_app. cbn [concat]. rewrite <- !app_assoc.
    assert (En : Z.to_nat (Z.of_nat i * cs) = length (concat (firstn i fulls))) by (unfold len in Lc; lia).
    rewrite En, skipn_app, skipn_all, Nat.sub_diag. cbn [skipn app].
    assert (Ec : Z.to_nat cs = length k) by (destruct G as [L _]; unfold len in L; lia).
    rewrite Ec, firstn_app, firstn_all, Nat.sub_diag. cbn. rewrite app_nil_r. reflexivity.
  - assert (Lc : len (concat fulls) = cs * len fulls) by (apply concat_len; exact HF).
    assert (En : Z.to_nat (Z.of_nat (length fulls) * cs) = length (concat fulls)) by (unfold len in Lc; lia).
    rewrite En, skipn_app, skipn_all, Nat.sub_diag. cbn [skipn app]. rewrite firstn_all2; [reflexivity|].
    destruct HL as [Hl _]. unfold len in Hl. lia.
Qed.
Lemma chunk_exists i : Z.of_nat i * cs < len t -> exists k, nth_error (fulls ++ [last]) i = Some k /\
  (cs < len t - Z.of_nat i * cs -> (i < length fulls)%nat).
Proof.
  intros H. rewrite len_app, (concat_len _ HF) in *. destruct HL as [Hl _].
  assert (Hi : (i <= length fulls)%nat) by (unfold len in *; nia).
  destruct (nth_error (fulls ++ [last]) i) as [k|] eqn:N.
  - exists k. split; [reflexivity|]. intros Hc. assert (i <> length fulls); [|lia]. intros ->. unfold len in *. nia.
  - apply nth_error_None in N. rewrite app_length in N. cbn in N. lia.
Qed.

Lemma read_full_ok : forall fuel desired i s, body s fulls last -> flushed (h s) = true -> 0 < desired ->
  Z.of_nat i * cs + desired <= len t -> (Z.to_nat desired < fuel)%nat ->
  exists t1 d j, read_full c cs fuel desired i s = Ok (t1, d, j, s) /\ 0 < d <= cs /\
    Z.of_nat j * cs = Z.of_nat i * cs + (desired - d) /\ d <= desired /\
    t1 = firstn (Z.to_nat (desired - d)) (skipn (Z.to_nat (Z.of_nat i * cs)) t).
Proof.
  induction fuel as [|fuel IH]; intros desired i s B Fl Hd Ht Hf; [lia|]. cbn [read_full].
  destruct (Z.ltb_spec cs desired) as [Hlong|Hshort].
  - destruct (chunk_exists i ltac:(lia)) as (k & N & Hlt). specialize (Hlt ltac:(lia)).
    destruct (b_flushed _ _ _ _ _ B Fl) as [Sy Pe].
    destruct (get_chunk c cs Hcs Hloss Hfit s fulls last i k B ltac:(auto) N ltac:(intros ->; lia)) as (p & n & s2 & C1 & C2 & G & S2 & Tg & Lk).
    rewrite C1, C2. cbn [bind]. replace (p + n - p) with n by lia. rewrite G. cbn [bind]. rewrite Tg. cbn [bind].
    rewrite settle_none in S2 by exact Pe. subst s2.
    pose proof (chunk_at i k N) as Ek.
    assert (Lk' : len k = cs).
    { destruct (nth_last_cases _ _ _ _ N) as [[_ Nf]|[-> _]]; [|lia].
      pose proof HF as HF'. rewrite Forall_forall in HF'. apply (HF' k (nth_error_In _ _ Nf)). }
    rewrite Lk', Z.eqb_refl. cbn [negb].
    destruct (IH (desired - cs) (S i) s B Fl ltac:(lia) ltac:(lia) ltac:(lia)) as (t1 & d & j & E & Hd' & Hj & Hle & T1).
    rewrite E. cbn [bind]. exists (k ++ t1), d, j. split; [reflexivity|]. split; [exact Hd'|]. split; [lia|]. split; [lia|].
    replace (Z.to_nat (desired - d)) with (Z.to_nat cs + Z.to_nat (desired - cs - d))%nat by lia.
    rewrite firstn_add, <- Ek. f_equal. rewrite T1. rewrite skipn_add. do 2 f_equal. lia.
  - exists [], desired, i. split; [reflexivity|]. split; [lia|]. split; [lia|]. split; [lia|].
    rewrite Z.sub_diag. reflexivity.
Qed.

Lemma read_ok s p n : body s fulls last -> size (h s) = len t -> minf <= Z.max 0 p + n <= maxf ->
  exists s', read c cs held p n s = Ok (firstn (Z.to_nat n) (skipn (Z.to_nat p) t), s') /\
    body s' fulls last /\ ext (len (pre fulls)) s s' /\ flushed (h s') = true /\ size (h s') = size (h s).
Proof.
  intros B Sz Rg. unfold read.
  set (p0 := if p <? 0 then 0 else p).
  assert (Ep : Z.to_nat p = Z.to_nat p0 /\ 0 <= p0 /\ p0 = Z.max 0 p) by (unfold p0; destruct (Z.ltb_spec p 0); lia).
  destruct Ep as (Ep & Hp0 & Emx). rewrite Ep. clearbody p0.
  destruct (flush_ok s fulls last B) as (s1 & E1 & B1 & X1 & F1 & Z1). rewrite E1. cbn [bind].
  unfold chk. rewrite Emx in *. clear Emx Ep. set (q := Z.max 0 p) in *.
  destruct (Z.leb_spec minf (q + n)); [|lia]. destruct (Z.leb_spec (q + n) maxf); [|lia]. cbn [andb bind].
  rewrite Z1, Sz.
  set (d0 := if len t <? q + n then len t - q else n).
  assert (Tgt : firstn (Z.to_nat n) (skipn (Z.to_nat q) t) = firstn (Z.to_nat d0) (skipn (Z.to_nat q) t)).
  { unfold d0. destruct (Z.ltb_spec (len t) (q + n)) as [H1|H1]; [|reflexivity].
    rewrite !firstn_all2; [reflexivity|rewrite skipn_length; unfold len in *; lia|rewrite skipn_length; unfold len in *; lia]. }
  rewrite Tgt.
  destruct (Z.leb_spec d0 0) as [Hz|Hpos].
  { replace (Z.to_nat d0) with 0%nat by lia. exists s1. cbn [firstn]. splits; auto; congruence. }
  assert (Hend : q + d0 <= len t) by (unfold d0; destruct (Z.ltb_spec (len t) (q + n)); lia).
  clearbody d0. clear Tgt.
  pose proof (Z.mod_pos_bound q cs Hcs) as Hm. pose proof (Z.div_mod q cs ltac:(lia)) as Hdm.
  assert (Hq : 0 <= q / cs) by (apply Z.div_pos; lia).
  set (o := q mod cs) in *. set (i0 := Z.to_nat (q / cs)).
  assert (Hi0 : Z.of_nat i0 * cs + o = q) by (unfold i0; nia).
  clear Hdm.
  (* the first, partial chunk *)
  assert (First : exists t0 d1 i1 s2,
    (if 0 <? o then
       let* s3 := fetch_chunk c cs held i0 s1 in
       let* t5 := from_chunk o (Z.min d0 (cs - o)) s3 in Ok (t5, d0 - Z.min d0 (cs - o), S i0, s3)
     else Ok ([], d0, i0, s1)) = Ok (t0, d1, i1, s2) /\ body s2 fulls last /\ ext (len (pre fulls)) s1 s2 /\
    flushed (h s2) = true /\ size (h s2) = size (h s1) /\ 0 <= d1 <= d0 /\
    t0 = firstn (Z.to_nat (d0 - d1)) (skipn (Z.to_nat q) t) /\ (d1 = 0 \/ Z.of_nat i1 * cs = q + (d0 - d1))).
  { destruct (Z.ltb_spec 0 o) as [Ho|Ho].
    - destruct (chunk_exists i0 ltac:(lia)) as (k & N & _).
      destruct (fetch_ok c cs held Hcs Hloss Hfit s1 fulls last i0 k B1 N) as (s2 & E2 & B2 & X2 & V2 & I2 & K2 & F2 & Z2 & P2).
      rewrite E2. cbn [bind]. unfold from_chunk. rewrite K2.
      pose proof (chunk_at i0 k N) as Ek.
      set (m := Z.min d0 (cs - o)).
      assert (Lk : o + m <= len k).
      { rewrite Ek. unfold len. rewrite firstn_length, skipn_length. unfold len in Hend. lia. }
      destruct (Z.ltb_spec (len k) (o + m)); [lia|]. cbn [bind].
      exists (part k o m), (d0 - m), (S i0), s2. split; [reflexivity|]. split; [exact B2|]. split; [exact X2|].
      split; [congruence|]. split; [congruence|]. split; [lia|]. split.
      + replace (Z.to_nat (d0 - (d0 - m))) with (Z.to_nat m) by lia. unfold part. rewrite Ek.
        rewrite skipn_firstn_comm, firstn_firstn, skipn_add.
        replace (Nat.min (Z.to_nat m) (Z.to_nat cs - Z.to_nat o)) with (Z.to_nat m) by lia. do 2 f_equal. lia.
      + unfold m. destruct (Z.le_gt_cases d0 (cs - o)); [left; lia|right; lia].
    - exists [], d0, i0, s1. split; [reflexivity|]. split; [exact B1|]. split; [apply ext_refl|].
      split; [exact F1|]. split; [reflexivity|]. split; [lia|]. split; [rewrite Z.sub_diag; reflexivity|]. right. lia. }
  destruct First as (t0 & d1 & i1 & s2 & E2 & B2 & X2 & F2 & Z2 & Hd1 & T0 & Hi1).
  rewrite E2. cbn [bind]. destruct (Z.eqb_spec d1 0) as [->|Nz].
  { rewrite Z.sub_0_r in T0. exists s2. rewrite T0. split; [reflexivity|]. split; [exact B2|].
    split; [eapply ext_trans; eassumption|]. split; [exact F2|]. congruence. }
  destruct Hi1 as [|Hi1]; [contradiction|].
  destruct (read_full_ok (S (Z.to_nat d1)) d1 i1 s2 B2 F2 ltac:(lia) ltac:(lia) ltac:(lia)) as (t1 & d2 & j & E3 & Hd2 & Hj & Hle & T1).
  rewrite E3. cbn [bind].
  destruct (chunk_exists j ltac:(lia)) as (k & N & _).
  destruct (fetch_ok c cs held Hcs Hloss Hfit s2 fulls last j k B2 N) as (s4 & E4 & B4 & X4 & V4 & I4 & K4 & F4 & Z4 & P4).
  rewrite E4. cbn [bind]. unfold from_chunk. rewrite K4.
  pose proof (chunk_at j k N) as Ek.
  assert (Lk : 0 + d2 <= len k).
  { rewrite Ek. unfold len. rewrite firstn_length, skipn_length. unfold len in Hend. lia. }
  destruct (Z.ltb_spec (len k) (0 + d2)); [lia|]. cbn [bind].
  exists s4. split.
  { f_equal. f_equal. rewrite T0, T1.
    replace (Z.to_nat d0) with (Z.to_nat (d0 - d1) + (Z.to_nat (d1 - d2) + Z.to_nat d2))%nat by lia.
    rewrite !firstn_add. f_equal. f_equal.
    - f_equal. rewrite skipn_add. f_equal. lia.
    - unfold part. rewrite Ek. cbn [Z.to_nat skipn]. rewrite firstn_firstn, !skipn_add.
      replace (Nat.min (Z.to_nat d2) (Z.to_nat cs)) with (Z.to_nat d2) by lia. do 2 f_equal. lia. }
  split; [exact B4|]. split; [eapply ext_trans; [exact X1|]; eapply ext_trans; eassumption|]. split; congruence.
Qed.

(** ** Dump *)
Lemma dump_from_ok : forall n i s, body s fulls last -> (i + n = S (length fulls))%nat ->
  exists s', dump_from c cs held n i s = Ok (concat (skipn i (fulls ++ [last])), s') /\
    body s' fulls last /\ ext (len (pre fulls)) s s' /\ flushed (h s') = flushed (h s) /\ size (h s') = size (h s) /\
    (pend (h s') = pend (h s) \/ pend (h s') = None).
Proof.
  induction n as [|n IH]; intros i s B Hi; cbn [dump_from].
  - exists s. rewrite skipn_all2 by (rewrite app_length; cbn; lia). splits; auto using ext_refl.
  - destruct (split_nth (fulls ++ [last]) i ltac:(rewrite app_length; cbn; lia)) as (k & E & N).
    destruct (fetch_ok c cs held Hcs Hloss Hfit s fulls last i k B N) as (s1 & E1 & B1 & X1 & V1 & I1 & K1 & F1 & Z1 & P1).
    rewrite E1. cbn [bind]. rewrite K1.
    destruct (IH (S i) s1 B1 ltac:(lia)) as (s2 & E2 & B2 & X2 & F2 & Z2 & P2). rewrite E2. cbn [bind].
    exists s2. split.
    { f_equal. f_equal. 
      assert (Sk : skipn i (fulls ++ [last]) = k :: skipn (S i) (fulls ++ [last])).
      { rewrite E at 1. rewrite skipn_app, skipn_all2 by (rewrite firstn_length; lia). rewrite firstn_length.
        replace (i - Nat.min i (length (fulls ++ [last])))%nat with 0%nat by (rewrite app_length; cbn; lia). reflexivity. }
      rewrite Sk. reflexivity. }
    split; [exact B2|]. split; [eapply ext_trans; eassumption|]. split; [congruence|]. split; [congruence|].
    destruct P2 as [P2|P2]; [|auto]. destruct P1 as [P1|P1]; [left|right]; congruence.
Qed.
Lemma dump_ok s : body s fulls last ->
  exists s', dump c cs held s = Ok (t, s') /\ body s' fulls last /\ ext (len (pre fulls)) s s' /\
    flushed (h s') = flushed (h s) /\ size (h s') = size (h s) /\ (pend (h s') = pend (h s) \/ pend (h s') = None).
Proof.
  intros B. unfold dump. rewrite (map_length_of c cs _ _ _ B).
  destruct (dump_from_ok (S (length fulls)) 0 s B ltac:(lia)) as (s' & E & R). exists s'. split; [|exact R].
  rewrite E. cbn [skipn]. rewrite concat_app. cbn. rewrite app_nil_r. reflexivity.
Qed.
End Reading.
End Ops.
