(** The text store: what its chunks, its map and its file have to do with the text, and
    that every call keeps it so. *)
From Verif Require Import Base Bytes CodecModel CodecSpec CodecProofs ChunkModel ChunkSpec ChunkFiles.

Local Arguments settle : simpl never.
Ltac splits := repeat match goal with |- _ /\ _ => split end.
Section Store.
Variable c : compressor.
Variable cs : Z.
Variable held : Z -> bool.
Hypothesis Hcs : 0 < cs.
Hypothesis Hloss : forall b, Forall is_byte b -> lossless c b.
Hypothesis Hfit : forall n, 0 <= n <= cs -> n + extra c n <= buffer_size c cs.
Notation bs := (buffer_size c cs).

Definition squash (b : bytes) : bytes := match crush c b bs with Ok z => z | _ => [] end.
Lemma squash_ok b : Forall is_byte b -> len b <= cs ->
  crush c b bs = Ok (squash b) /\ len (squash b) <= bs /\ tang c (squash b) (cs + 1) = Ok b.
Proof. clear held.
  intros Hb Hl. pose proof (len_nonneg b) as Hn.
  destruct (Hloss b Hb bs (Hfit _ (conj Hn Hl))) as (z & E & Lz & _ & _ & T). unfold squash. rewrite E.
  repeat split; [pose proof (Hfit _ (conj Hn Hl)); lia|apply T; lia].
Qed.

Definition pre (l : list bytes) : bytes := concat (map squash l).
Lemma pre_app l m : pre (l ++ m) = pre l ++ pre m.
Proof. unfold pre. rewrite map_app, concat_app. reflexivity. Qed.
Lemma pre_one k : pre [k] = squash k.
Proof. unfold pre. cbn. apply app_nil_r. Qed.

Definition good_chunk (k : bytes) : Prop := len k = cs /\ Forall is_byte k.
Definition good_last (k : bytes) : Prop := 0 < len k <= cs /\ Forall is_byte k.

Record body (s : st) (fulls : list bytes) (last : bytes) : Prop := Body {
  b_fulls : Forall good_chunk fulls;
  b_last : good_last last;
  b_map : exists e, map_ (h s) = ends 0 (map squash fulls) ++ [e] /\
                    (limited (h s) = None -> synced (h s) = true -> e = len (pre fulls) + len (squash last));
  b_cmap : limited (h s) = None -> cmap (dk s) = map_ (h s);
  b_disk : exists r, contents (dk s) = pre fulls ++ r;
  b_set : limited (h s) = None -> synced (h s) = true ->
          exists r, contents (dk (settle s)) = pre fulls ++ squash last ++ r;
  b_pend : forall p b, pend (h s) = Some (p, b) -> len (pre fulls) <= p;
  b_valid : valid (h s) = true -> exists k, nth_error (fulls ++ [last]) (index (h s)) = Some k /\ chunk (h s) = Some k;
  b_unsynced : synced (h s) = false -> valid (h s) = true /\ index (h s) = length fulls;
  b_flushed : flushed (h s) = true -> synced (h s) = true /\ pend (h s) = None;
  b_lim : (limited (h s) = None /\ read_only (h s) = false) \/
          (limited (h s) = Some last /\ read_only (h s) = true /\ flushed (h s) = true)
}.

(** What a call may do to files: nothing before [n] in the contents, nothing to the
    .limits file. *)
Definition safe (n : Z) (o : op) : Prop :=
  match o with WriteAt p _ => n <= p | MapLast _ | MapPush _ => True | _ => False end.
Definition ext (n : Z) (s s' : st) : Prop :=
  exists os, done s' = done s ++ os /\ dk s' = exec (dk s) os /\ Forall (safe n) os /\
             (read_only (h s) = true -> os = []) /\ read_only (h s') = read_only (h s) /\
             limited (h s') = limited (h s).
Lemma ext_refl n s : ext n s s.
Proof. exists []. rewrite app_nil_r. repeat split; auto. Qed.
Lemma ext_trans n s1 s2 s3 : ext n s1 s2 -> ext n s2 s3 -> ext n s1 s3.
Proof.
  intros (o1 & D1 & E1 & F1 & R1 & Q1 & L1) (o2 & D2 & E2 & F2 & R2 & Q2 & L2). exists (o1 ++ o2).
  split; [rewrite D2, D1, app_assoc; reflexivity|]. split; [rewrite E2, E1; unfold exec; rewrite fold_left_app; reflexivity|].
  split; [apply Forall_app; auto|]. split; [intros R; rewrite R1, R2 by congruence; reflexivity|]. split; congruence.
Qed.
Lemma ext_less n m s s' : m <= n -> ext n s s' -> ext m s s'.
Proof.
  intros H (o & D & E & F & R). exists o. repeat (split; [assumption|]). split; [|exact R].
  revert F. apply Forall_impl. intros [] S; cbn in *; auto; lia.
Qed.
Lemma ext_emit n o s : safe n o -> read_only (h s) = false -> ext n s (emit o s).
Proof. intros S R. exists [o]. cbn. repeat split; auto. congruence. Qed.
Lemma ext_h n f s : read_only (f (h s)) = read_only (h s) -> limited (f (h s)) = limited (h s) -> ext n s (on_h f s).
Proof. intros R L. exists []. cbn. rewrite app_nil_r. repeat split; auto. Qed.

(** ** The stream *)
Lemma settle_settle s : settle (settle s) = settle s.
Proof. unfold settle at 2 3. destruct (pend (h s)) as [[p b]|] eqn:E; [reflexivity|]. unfold settle. rewrite E. reflexivity. Qed.
Lemma settle_none s : pend (h s) = None -> settle s = s.
Proof. intros E. unfold settle. rewrite E. reflexivity. Qed.
Lemma settle_h s : h (settle s) = set_pend None (h s).
Proof.
  unfold settle. destruct (pend (h s)) as [[p b]|] eqn:E; [reflexivity|]. destruct s as [[] d l]; cbn in *; subst; reflexivity.
Qed.
Lemma settle_cmap s : cmap (dk (settle s)) = cmap (dk s).
Proof. unfold settle. destruct (pend (h s)) as [[p b]|]; reflexivity. Qed.
Lemma settle_disk s l r : contents (dk s) = pre l ++ r -> (forall p b, pend (h s) = Some (p, b) -> len (pre l) <= p) ->
  exists r, contents (dk (settle s)) = pre l ++ r.
Proof.
  intros E P. unfold settle. destruct (pend (h s)) as [[p b]|] eqn:Q; [|exists r; exact E].
  cbn. rewrite E. apply write_at_more. apply (P p b eq_refl).
Qed.
Lemma settle_body s fulls last : body s fulls last ->
  body (settle s) fulls last /\ ext (len (pre fulls)) s (settle s) /\ pend (h (settle s)) = None.
Proof.
  intros B. assert (P : pend (h (settle s)) = None) by (rewrite settle_h; reflexivity). split; [|split; [|exact P]].
  - destruct B as [F L M CM D SE PE V U FL LI]. destruct D as (r & D). pose proof (settle_disk s fulls r D PE) as D'.
    rewrite settle_h in P.
    constructor; rewrite ?settle_h, ?settle_cmap, ?settle_settle; cbn; auto; try discriminate.
    intros H. split; [apply (FL H)|reflexivity].
  - destruct (pend (h s)) as [[p b]|] eqn:E; [|rewrite settle_none by exact E; apply ext_refl].
    unfold settle. rewrite E. eapply ext_trans; [|apply ext_h; reflexivity].
    apply ext_emit; [exact (b_pend _ _ _ B p b E)|].
    destruct (b_lim _ _ _ B) as [[_ R]|(_ & _ & FT)]; [exact R|].
    destruct (b_flushed _ _ _ B FT) as [_ N]. congruence.
Qed.

(** Writing at or beyond the end of the full chunks. *)
Lemma put_disk p b s : 0 <= p ->
  h (put held p b s) = set_pend (if held (len b) then Some (p, b) else None) (h s) /\
  cmap (dk (put held p b s)) = cmap (dk s) /\
  contents (dk (settle (put held p b s))) = write_at p b (contents (dk (settle s))).
Proof.
  intros Hp. unfold put. destruct (held (len b)) eqn:H.
  - cbn. rewrite settle_h. cbn. rewrite settle_cmap. repeat split.
  - rewrite (settle_none (emit (WriteAt p b) (settle s))) by (cbn; rewrite settle_h; reflexivity). cbn. rewrite settle_h, settle_cmap. repeat split.
Qed.
Lemma put_contents p b s l r : contents (dk (settle s)) = pre l ++ r -> len (pre l) <= p ->
  exists r', contents (dk (put held p b s)) = pre l ++ r'.
Proof.
  intros E H. unfold put. destruct (held (len b)); cbn; rewrite E; [exists r; reflexivity|]. apply write_at_more. exact H.
Qed.
Lemma put_ext n p b s : (forall q x, pend (h s) = Some (q, x) -> n <= q) -> n <= p -> read_only (h s) = false ->
  ext n s (put held p b s).
Proof.
  intros HP Hp R. unfold put.
  assert (S : ext n s (settle s)).
  { unfold settle. destruct (pend (h s)) as [[q x]|] eqn:E; [|apply ext_refl].
    eapply ext_trans; [|apply ext_h; reflexivity]. apply ext_emit; [exact (HP q x eq_refl)|exact R]. }
  assert (R' : read_only (h (settle s)) = false) by (rewrite settle_h; exact R).
  destruct (held (len b)); (eapply ext_trans; [exact S|]); [apply ext_h; reflexivity|apply ext_emit; [exact Hp|exact R']].
Qed.

(** ** Keeping the last chunk on the file *)
Lemma rev_map_end (s : st) fulls last : body s fulls last -> exists e m, rev (map_ (h s)) = e :: m.
Proof. intros B. destruct (b_map _ _ _ B) as (e & E & _). rewrite E, rev_app_distr. cbn. eauto. Qed.
Lemma map_length_of (s : st) fulls last : body s fulls last -> length (map_ (h s)) = S (length fulls).
Proof. clear. intros B. destruct (b_map _ _ _ B) as (e & E & _). rewrite E, app_length, len_ends, map_length. cbn. lia. Qed.

Lemma firstn_map_all (fulls : list bytes) : firstn (length fulls) (map squash fulls) = map squash fulls.
Proof. rewrite <- (map_length squash fulls). apply firstn_all. Qed.

Lemma sync_ok s fulls last : body s fulls last ->
  exists s', sync_last_chunk c cs held s = Ok s' /\ body s' fulls last /\ ext (len (pre fulls)) s s' /\
    synced (h s') = true /\ valid (h s') = valid (h s) /\ index (h s') = index (h s) /\ chunk (h s') = chunk (h s) /\
    flushed (h s') = flushed (h s) /\ size (h s') = size (h s).
Proof.
  intros B. unfold sync_last_chunk. destruct (synced (h s)) eqn:Sy.
  { exists s. splits; auto using ext_refl. }
  destruct (b_unsynced _ _ _ B Sy) as [V I].
  assert (LR : limited (h s) = None /\ read_only (h s) = false).
  { destruct (b_lim _ _ _ B) as [LR|(_ & _ & FT)]; [exact LR|]. destruct (b_flushed _ _ _ B FT). congruence. }
  destruct LR as [Lim RO]. rewrite Lim.
  destruct (rev_map_end _ _ _ B) as (e0 & m0 & ER). rewrite ER.
  destruct (b_valid _ _ _ B V) as (k & N & K). rewrite I in N. rewrite nth_error_app2 in N by lia. rewrite Nat.sub_diag in N. cbn in N. injection N as <-.
  rewrite K. destruct (b_last _ _ _ B) as [Ll Lb]. destruct last as [|x k']; [cbn in Ll; unfold len in Ll; cbn in Ll; lia|].
  set (last := x :: k') in *.
  pose proof (map_length_of _ _ _ B) as ML.
  destruct (b_map _ _ _ B) as (e & EM & _). pose proof (b_cmap _ _ _ B Lim) as CM.
  destruct (cmap (dk s)) as [|y ys] eqn:EC; [rewrite EM in CM; destruct (ends 0 (map squash fulls)); discriminate CM|].
  rewrite V, ML. replace (S (length fulls) - 1)%nat with (length fulls) by lia. rewrite I, Nat.eqb_refl. cbn [negb orb].
  rewrite EM. rewrite (chunk_start_at (map squash fulls) [e] (length fulls)) by (rewrite map_length; lia). cbn [bind].
  rewrite firstn_map_all. change (concat (map squash fulls)) with (pre fulls).
  destruct (squash_ok last Lb ltac:(lia)) as (Cr & Ls & Tg). rewrite Cr. cbn [bind].
  pose proof (len_nonneg (pre fulls)) as Pn.
  destruct (put_disk (len (pre fulls)) (squash last) s Pn) as (PH & PC & PS).
  set (s1 := put held (len (pre fulls)) (squash last) s) in *.
  destruct (b_disk _ _ _ B) as (r & D). destruct (settle_disk s fulls r D (b_pend _ _ _ B)) as (r1 & D1).
  destruct (put_contents (len (pre fulls)) (squash last) s fulls r1 D1 ltac:(lia)) as (r2 & D2). fold s1 in D2.
  eexists. split; [reflexivity|].
  assert (Hm : map_ (h s1) = ends 0 (map squash fulls) ++ [e]) by (rewrite PH; exact EM).
  rewrite Hm, removelast_last.
  split; [|split; [|cbn; rewrite PH; cbn; repeat split; auto]].
  - constructor; cbn; rewrite ?PH; cbn; auto.
    + exact (b_fulls _ _ _ B).
    + exact (b_last _ _ _ B).
    + exists (len (pre fulls) + len (squash last)). split; [reflexivity|auto].
    + intros _. rewrite PC, EC, CM, EM, removelast_last. reflexivity.
    + exists r2. exact D2.
    + intros _ _. unfold settle. cbn. rewrite PH. cbn. 
      assert (W : exists r, write_at (len (pre fulls)) (squash last) (contents (dk (settle s))) = pre fulls ++ squash last ++ r).
      { rewrite D1. apply write_at_app. reflexivity. }
      destruct W as (r3 & W). exists r3. rewrite <- W, <- PS. unfold settle. rewrite PH. cbn.
      destruct (held (len (squash last))); reflexivity.
    + intros p b Hp. destruct (held (len (squash last))); [injection Hp as <- <-; lia|discriminate].
    + exact (b_valid _ _ _ B).
    + intros FT. destruct (b_flushed _ _ _ B FT). congruence.
  - eapply ext_trans; [|apply ext_h; reflexivity].
    eapply ext_trans; [|apply ext_emit; [exact Logic.I|cbn; rewrite PH; exact RO]].
    eapply ext_trans; [|apply ext_h; reflexivity].
    apply put_ext; [exact (b_pend _ _ _ B)|lia|exact RO].
Qed.

(** ** Fetching a chunk *)
Lemma nth_last_cases (fulls : list bytes) last i k : nth_error (fulls ++ [last]) i = Some k ->
  ((i < length fulls)%nat /\ nth_error fulls i = Some k) \/ (i = length fulls /\ k = last).
Proof. clear.
  intros N. destruct (Nat.lt_ge_cases i (length fulls)) as [H|H].
  - left. rewrite nth_error_app1 in N by exact H. auto.
  - right. assert (i < length (fulls ++ [last]))%nat by (apply nth_error_Some; congruence).
    rewrite app_length in *. cbn in *. assert (i = length fulls) by lia. subst.
    rewrite nth_error_app2, Nat.sub_diag in N by lia. cbn in N. split; congruence.
Qed.
Lemma pre_split fulls i k : nth_error fulls i = Some k ->
  pre fulls = pre (firstn i fulls) ++ squash k ++ pre (skipn (S i) fulls).
Proof.
  intros N. assert (Hi : (i < length fulls)%nat) by (apply nth_error_Some; congruence).
  destruct (split_nth fulls i Hi) as (b & E & N'). assert (b = k) by congruence. subst b.
  rewrite E at 1. rewrite pre_app. reflexivity.
Qed.
Lemma firstn_map_squash i (fulls : list bytes) : concat (firstn i (map squash fulls)) = pre (firstn i fulls).
Proof. unfold pre. rewrite firstn_map. reflexivity. Qed.

(** Reading one chunk from the file. *)
Lemma get_chunk s fulls last i k : body s fulls last -> (limited (h s) = None -> synced (h s) = true) ->
  nth_error (fulls ++ [last]) i = Some k -> (i = length fulls -> limited (h s) = None) ->
  exists p n s', chunk_start (map_ (h s)) i = Ok p /\ chunk_end (map_ (h s)) i = Ok (p + n) /\
    get c cs p n s = Ok (squash k, s') /\ s' = settle s /\ tang c (squash k) (cs + 1) = Ok k /\ len k <= cs.
Proof. clear held.
  intros B Sy N Lim. destruct (b_map _ _ _ B) as (e & EM & Ee).
  destruct (b_disk _ _ _ B) as (r & D). destruct (settle_disk s fulls r D (b_pend _ _ _ B)) as (r1 & D1).
  exists (len (pre (firstn i fulls))), (len (squash k)), (settle s).
  assert (Kg : good_last k).
  { destruct (nth_last_cases _ _ _ _ N) as [[Hi Nf]|[Hi ->]]; [|exact (b_last _ _ _ B)].
    pose proof (b_fulls _ _ _ B) as BF. rewrite Forall_forall in BF. destruct (BF k (nth_error_In _ _ Nf)). split; [lia|assumption]. }
  destruct Kg as [Kl Kb]. destruct (squash_ok k Kb ltac:(lia)) as (Cr & Ls & Tg).
  assert (Hi : (i <= length fulls)%nat).
  { destruct (nth_last_cases _ _ _ _ N) as [[Hi _]|[-> _]]; lia. }
  split; [rewrite EM, chunk_start_at by (rewrite map_length; exact Hi); rewrite firstn_map_squash; reflexivity|].
  assert (G : (exists a b, contents (dk (settle s)) = a ++ squash k ++ b /\ len a = len (pre (firstn i fulls))) /\
              chunk_end (map_ (h s)) i = Ok (len (pre (firstn i fulls)) + len (squash k))).
  { destruct (nth_last_cases _ _ _ _ N) as [[Hlt Nf]|[-> ->]].
    - split.
      + exists (pre (firstn i fulls)), (pre (skipn (S i) fulls) ++ r1). split; [|reflexivity].
        rewrite D1, (pre_split _ _ _ Nf), <- !app_assoc. reflexivity.
      + rewrite EM. rewrite (chunk_end_at _ _ i (squash k)) by (rewrite nth_error_map, Nf; reflexivity).
        rewrite firstn_map_squash. reflexivity.
    - specialize (Lim eq_refl). destruct (b_set _ _ _ B Lim (Sy Lim)) as (r2 & D2). rewrite firstn_all. split.
      + exists (pre fulls), r2. split; [exact D2|reflexivity].
      + rewrite EM. unfold chunk_end. apply idx_nth. rewrite nth_error_app2 by (rewrite len_ends, map_length; lia).
        rewrite len_ends, map_length, Nat.sub_diag. cbn. f_equal. apply Ee; auto. }
  destruct G as ((a & b & Dk & La) & CE). split; [exact CE|].
  split.
  { unfold get. rewrite Dk, !len_app. pose proof (len_nonneg (squash k)). pose proof (len_nonneg b). pose proof (len_nonneg a).
    destruct (Z.ltb_spec (len (squash k)) 0); [lia|]. destruct (Z.ltb_spec bs (len (squash k))); [lia|].
    destruct (Z.ltb_spec (len a + (len (squash k) + len b)) (len (pre (firstn i fulls)) + len (squash k))); [lia|]. cbn [orb].
    rewrite part_app by (lia || reflexivity). reflexivity. }
  repeat split; [exact Tg|lia].
Qed.

Lemma body_chunk s fulls last i k : body s fulls last -> nth_error (fulls ++ [last]) i = Some k ->
  synced (h s) = true ->
  body (on_h (set_chunk true i (Some k)) s) fulls last.
Proof.
  intros [F L M CM D SE PE V U FL LI] N Sy. constructor; cbn; auto.
  - intros A B. destruct (SE A B) as (r & E). exists r. rewrite <- E. unfold settle. cbn. destruct (pend (h s)) as [[p b]|]; reflexivity.
  - intros _. eauto.
  - congruence.
Qed.

Lemma fetch_ok s fulls last i k : body s fulls last -> nth_error (fulls ++ [last]) i = Some k ->
  exists s', fetch_chunk c cs held i s = Ok s' /\ body s' fulls last /\ ext (len (pre fulls)) s s' /\
    valid (h s') = true /\ index (h s') = i /\ chunk (h s') = Some k /\
    flushed (h s') = flushed (h s) /\ size (h s') = size (h s) /\
    (pend (h s') = pend (h s) \/ pend (h s') = None).
Proof.
  intros B N. unfold fetch_chunk. rewrite (map_length_of _ _ _ B).
  assert (Hi : (i < S (length fulls))%nat).
  { destruct (nth_last_cases _ _ _ _ N) as [[Hi _]|[-> _]]; lia. }
  apply Nat.ltb_lt in Hi. rewrite Hi. apply Nat.ltb_lt in Hi. cbn [negb].
  destruct (valid (h s) && Nat.eqb (index (h s)) i) eqn:Q.
  { apply andb_prop in Q. destruct Q as [V I]. apply Nat.eqb_eq in I. destruct (b_valid _ _ _ B V) as (k' & N' & K').
    rewrite I in N'. assert (k' = k) by congruence. subst k'.
    exists s. splits; auto using ext_refl. }
  destruct (sync_ok s fulls last B) as (s1 & E1 & B1 & X1 & Sy & V1 & I1 & K1 & F1 & Z1). rewrite E1. cbn [bind].
  assert (FIN : forall s2, s2 = settle s1 ->
     exists s', Ok (on_h (set_chunk true i (Some k)) s2) = Ok s' /\ body s' fulls last /\ ext (len (pre fulls)) s s' /\
       valid (h s') = true /\ index (h s') = i /\ chunk (h s') = Some k /\
       flushed (h s') = flushed (h s) /\ size (h s') = size (h s) /\ (pend (h s') = pend (h s) \/ pend (h s') = None)).
  { intros s2 ->. eexists. split; [reflexivity|]. destruct (settle_body _ _ _ B1) as (B2 & X2 & _).
    assert (Sy2 : synced (h (settle s1)) = true) by (rewrite settle_h; exact Sy).
    split; [apply body_chunk; auto|]. split; [eapply ext_trans; [exact X1|]; eapply ext_trans; [exact X2|]; apply ext_h; reflexivity|].
    cbn. rewrite settle_h. cbn. repeat split; try congruence. right. reflexivity. }
  destruct (b_lim _ _ _ B1) as [[Lim RO]|(Lim & RO & FT)]; rewrite Lim.
  - destruct (get_chunk s1 fulls last i k B1 ltac:(auto) N ltac:(auto)) as (p & n & s2 & C1 & C2 & G & S2 & Tg & Lk).
    rewrite C1, C2. cbn [bind]. replace (p + n - p) with n by lia. rewrite G. cbn [bind]. rewrite Tg. cbn [bind].
    destruct (Z.ltb_spec cs (len k)); [lia|]. apply FIN. exact S2.
  - replace (S (length fulls) - 1)%nat with (length fulls) by lia.
    destruct (Nat.eqb_spec i (length fulls)) as [->|Ne].
    + destruct (nth_last_cases _ _ _ _ N) as [[Hlt _]|[_ ->]]; [lia|].
      destruct (b_last _ _ _ B) as [Ll _]. destruct (Z.ltb_spec (cs + 1) (len last)); [lia|].
      eexists. split; [reflexivity|].
      split; [apply body_chunk; auto|]. split; [eapply ext_trans; [exact X1|]; apply ext_h; reflexivity|].
      cbn. repeat split; try congruence. right. apply (b_flushed _ _ _ B1 FT).
    + destruct (get_chunk s1 fulls last i k B1 ltac:(auto) N ltac:(intros; contradiction)) as (p & n & s2 & C1 & C2 & G & S2 & Tg & Lk).
      rewrite C1, C2. cbn [bind]. replace (p + n - p) with n by lia. rewrite G. cbn [bind]. rewrite Tg. cbn [bind].
      destruct (Z.ltb_spec cs (len k)); [lia|]. apply FIN. exact S2.
Qed.

Lemma fetch_last_ok s fulls last : body s fulls last ->
  exists s', fetch_last_chunk c cs held s = Ok s' /\ body s' fulls last /\ ext (len (pre fulls)) s s' /\
    valid (h s') = true /\ index (h s') = length fulls /\ chunk (h s') = Some last /\
    flushed (h s') = flushed (h s) /\ size (h s') = size (h s) /\
    (pend (h s') = pend (h s) \/ pend (h s') = None).
Proof.
  intros B. unfold fetch_last_chunk. rewrite (map_length_of _ _ _ B). replace (S (length fulls) - 1)%nat with (length fulls) by lia.
  apply fetch_ok; [exact B|]. rewrite nth_error_app2, Nat.sub_diag by lia. reflexivity.
Qed.
End Store.
