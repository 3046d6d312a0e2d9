(** Posting lists on disk (C13). *)
From Verif Require Import Base HopperModel ArrayDefs GclSpec ArrayProofs Bytes CodecModel CodecSpec CodecProofs BitsProofs PostingModel PostingSpec PostingProofs.

Lemma read_app a b n : n = len a -> read n (a ++ b) = Some (a, b).
Proof.
  intros ->. unfold read. rewrite len_app. pose proof (len_nonneg a). pose proof (len_nonneg b).
  destruct ((len a <? 0) || (len a + len b <? len a)) eqn:E; [lia|].
  unfold len. rewrite Nat2Z.id, firstn_app, Nat.sub_diag, firstn_all, skipn_app, Nat.sub_diag, skipn_all. cbn. rewrite app_nil_r. reflexivity.
Qed.
Lemma slice_app a b c n o : o = len a -> n = len b -> slice (a ++ b ++ c) o n = b.
Proof.
  intros -> ->. unfold slice, len. rewrite !Nat2Z.id, skipn_app, Nat.sub_diag, skipn_all. cbn [app skipn].
  rewrite firstn_app, Nat.sub_diag, firstn_all. cbn. apply app_nil_r.
Qed.

(** One array through its compressor. *)
Record packed (c : compressor) (ws : list Z) (n : Z) (z : bytes) : Prop := {
  pk_len : len z <= 8 * n + extra c (8 * n);
  pk_ne : ws <> [] -> z <> [];
  pk_tang : tang c z (8 * n) = Ok (word_bytes ws) }.
Lemma pack c ws n : lossless c (word_bytes ws) -> len ws = n ->
  exists z, crush c (word_bytes ws) (8 * n + extra c (8 * n)) = Ok z /\ packed c ws n z.
Proof.
  intros L E. destruct (L (8 * n + extra c (8 * n))) as (z & Ez & Lz & _ & Nz & T).
  { rewrite len_word_bytes, E. lia. }
  exists z. split; [exact Ez|]. rewrite len_word_bytes, E in Lz. constructor; [exact Lz| |].
  - intros H. apply Nz. intros K. apply H. destruct ws; [reflexivity|discriminate].
  - apply T. rewrite len_word_bytes, E. lia.
Qed.

Lemma read_array_ok c ws n z rest : packed c ws n z -> len ws = n -> Forall is_addr ws ->
  read_array c n (len z) (8 * n) (z ++ rest) = Ok (ws, rest).
Proof.
  intros [_ _ T] E A. unfold read_array, must_read. rewrite (read_app z rest _ eq_refl). cbn [bind]. rewrite T. cbn [bind].
  rewrite len_word_bytes, E, Z.mul_comm, Z.mod_mul, Z.div_mul by lia. rewrite !Z.eqb_refl. cbn [andb].
  rewrite words_bytes by exact A. reflexivity.
Qed.
Lemma blob_array_ok c ws n z a r o : packed c ws n z -> len ws = n -> Forall is_addr ws -> o = len a ->
  blob_array c (a ++ z ++ r) o (len z) n = Ok (Some ws).
Proof.
  intros [_ _ T] E A Ho. unfold blob_array. rewrite (slice_app a z r _ _ Ho eq_refl), T. cbn [bind].
  rewrite len_word_bytes, E, Z.eqb_refl, words_bytes by exact A. reflexivity.
Qed.

Lemma header_words f n p q r rest : Forall is_addr [f; n; p; q; r] ->
  read 40 (word_bytes [f; n; p; q; r] ++ rest) = Some (word_bytes [f; n; p; q; r], rest) /\
  words (word_bytes [f; n; p; q; r]) = [f; n; p; q; r].
Proof. intros H. split; [apply read_app; reflexivity|apply words_bytes; exact H]. Qed.

(** What write produces. *)
Inductive written (cp cf : compressor) (s : posting) : bytes -> Prop :=
| written_empty : psize s = 0 -> is_addr (feature s) -> written cp cf s (word_bytes [feature s; 0; 0; 0; 0])
| written_some bp bq bf : 0 < psize s ->
    Forall is_addr [feature s; psize s; len bp; len bq; len bf] ->
    packed cp (postings s) (psize s) bp ->
    (qostings s = [] /\ bq = [] \/ qostings s <> [] /\ len (qostings s) = psize s /\ packed cp (qostings s) (psize s) bq) ->
    (fostings s = [] /\ bf = [] \/ fostings s <> [] /\ len (fostings s) = psize s /\ packed cf (fostings s) (psize s) bf) ->
    written cp cf s (word_bytes [feature s; psize s; len bp; len bq; len bf] ++ bp ++ bq ++ bf).

Lemma write_ok cp cf s l : holds s l -> storable cp cf s -> exists b, write cp cf s = Ok b /\ written cp cf s b.
Proof.
  intros (Hq & Hf & _) (Af & _ & _ & _ & Xp & Xf & Mp & Mf & Lp & Lq & Lf). unfold write.
  assert (N0 : 0 <= psize s) by (unfold psize; apply len_nonneg).
  destruct (psize s =? 0) eqn:E; [eexists; split; [reflexivity|apply written_empty; [lia|exact Af]]|].
  destruct (pack cp (postings s) (psize s) Lp eq_refl) as (bp & Ep & Pp). rewrite Ep. cbn [bind].
  assert (Q : exists bq, match qostings s with [] => Ok []
      | qs => if len qs =? psize s then crush cp (word_bytes qs) (8 * psize s + extra cp (8 * psize s)) else UB end = Ok bq /\
      (qostings s = [] /\ bq = [] \/ qostings s <> [] /\ len (qostings s) = psize s /\ packed cp (qostings s) (psize s) bq)).
  { destruct Hq as [Hq|Hq]; [rewrite Hq; exists []; auto|].
    assert (El : len (qostings s) = psize s) by (unfold len, psize, len; lia).
    destruct (pack cp (qostings s) (psize s) Lq El) as (bq & Eq & Pq). destruct (qostings s) as [|q qs] eqn:Es; [exists []; auto|].
    exists bq. split; [cbv beta iota zeta; rewrite El, Z.eqb_refl; exact Eq|]. right. split; [discriminate|]. auto. }
  destruct Q as (bq & Eq & Pq).
  assert (F : exists bf, match fostings s with [] => Ok []
      | qs => if len qs =? psize s then crush cf (word_bytes qs) (8 * psize s + extra cf (8 * psize s)) else UB end = Ok bf /\
      (fostings s = [] /\ bf = [] \/ fostings s <> [] /\ len (fostings s) = psize s /\ packed cf (fostings s) (psize s) bf)).
  { destruct Hf as [Hf|Hf]; [rewrite Hf; exists []; auto|].
    assert (El : len (fostings s) = psize s) by (unfold len, psize, len; lia).
    destruct (pack cf (fostings s) (psize s) Lf El) as (bf & Ef & Pf). destruct (fostings s) as [|q qs] eqn:Es; [exists []; auto|].
    exists bf. split; [cbv beta iota zeta; rewrite El, Z.eqb_refl; exact Ef|]. right. split; [discriminate|]. auto. }
  destruct F as (bf & Ef & Pf).
  exists (word_bytes [feature s; psize s; len bp; len bq; len bf] ++ bp ++ bq ++ bf). split.
  - cbv zeta in Eq, Ef |- *. rewrite Eq. cbn [bind]. rewrite Ef. reflexivity.
  - apply written_some; auto; [lia|].
    assert (Bp : is_addr (len bp)) by (pose proof (pk_len _ _ _ _ Pp); pose proof (len_nonneg bp); unfold is_addr, minf, maxf in *; lia).
    assert (Bq : is_addr (len bq)).
    { destruct Pq as [[_ ->]|(_ & _ & Pq)]; [unfold is_addr, minf, maxf, len; cbn; lia|].
      pose proof (pk_len _ _ _ _ Pq); pose proof (len_nonneg bq); unfold is_addr, minf, maxf in *; lia. }
    assert (Bf : is_addr (len bf)).
    { destruct Pf as [[_ ->]|(_ & _ & Pf)]; [unfold is_addr, minf, maxf, len; cbn; lia|].
      pose proof (pk_len _ _ _ _ Pf); pose proof (len_nonneg bf); unfold is_addr, minf, maxf in *; lia. }
    assert (Bn : is_addr (psize s)) by (unfold is_addr, minf, maxf in *; lia).
    repeat constructor; assumption || apply Bp || apply Bq || apply Bf || apply Bn || apply Af.
Qed.

Lemma empty_posting s l : holds s l -> psize s = 0 -> s = Posting (feature s) [] [] [].
Proof.
  intros (Hq & Hf & _) E. unfold psize, len in E. destruct s as [f ps qs fs]; cbn in *.
  destruct ps; [|cbn in E; lia]. f_equal.
  - destruct Hq as [->|H]; [reflexivity|]. destruct qs; [reflexivity|discriminate].
  - destruct Hf as [->|H]; [reflexivity|]. destruct fs; [reflexivity|discriminate].
Qed.

Lemma pos_len {A} (l : list A) : l <> [] -> (0 <? len l) = true.
Proof. destruct l; [contradiction|]. intros _. rewrite len_cons. pose proof (len_nonneg l). lia. Qed.

Lemma file_ok cp cf s l b rest : holds s l -> storable cp cf s -> written cp cf s b ->
  posting_from_file cp cf (b ++ rest) = Ok (Some (s, rest)).
Proof.
  intros H (_ & Ap & Aq & Afo & _) W. destruct W as [E Af|bp bq bf E A Pp Pq Pf].
  - unfold posting_from_file. destruct (header_words (feature s) 0 0 0 0 rest) as [E1 E2].
    { repeat constructor; unfold is_addr, minf, maxf in *; lia. }
    rewrite E1, E2, Z.eqb_refl, <- (empty_posting s l H E). reflexivity.
  - unfold posting_from_file. rewrite <- app_assoc. destruct (header_words _ _ _ _ _ ((bp ++ bq ++ bf) ++ rest) A) as [E1 E2].
    rewrite E1, E2. assert ((psize s =? 0) = false) as -> by lia.
    rewrite <- !app_assoc, (read_array_ok cp (postings s) (psize s) bp _ Pp eq_refl Ap). cbn [bind].
    assert (Q : (if 0 <? len bq then read_array cp (psize s) (len bq) (8 * psize s) (bq ++ bf ++ rest) else Ok ([], bq ++ bf ++ rest)) = Ok (qostings s, bf ++ rest)).
    { destruct Pq as [[-> ->]|(N & El & Pq)]; [reflexivity|]. rewrite (pos_len bq (pk_ne _ _ _ _ Pq N)).
      apply read_array_ok; assumption. }
    match goal with |- bind ?m _ = _ => replace m with (@Ok (list Z * bytes) (qostings s, bf ++ rest)) by (symmetry; exact Q) end. cbn [bind].
    assert (F : (if 0 <? len bf then read_array cf (psize s) (len bf) (8 * psize s) (bf ++ rest) else Ok ([], bf ++ rest)) = Ok (fostings s, rest)).
    { destruct Pf as [[-> ->]|(N & El & Pf)]; [reflexivity|]. rewrite (pos_len bf (pk_ne _ _ _ _ Pf N)).
      apply read_array_ok; assumption. }
    match goal with |- bind ?m _ = _ => replace m with (@Ok (list Z * bytes) (fostings s, rest)) by (symmetry; exact F) end. cbn [bind]. destruct s; reflexivity.
Qed.

Lemma header_blob cp cf s b : written cp cf s b ->
  exists bp bq bf rest : bytes, b = word_bytes [feature s; psize s; len bp; len bq; len bf] ++ rest /\
  len rest = len bp + len bq + len bf /\
  words (word_bytes [feature s; psize s; len bp; len bq; len bf]) = [feature s; psize s; len bp; len bq; len bf].
Proof.
  intros W. destruct W as [E A|bp bq bf E A].
  - exists [], [], [], []. rewrite E. rewrite app_nil_r. split; [reflexivity|]. split; [reflexivity|]. apply words_bytes.
    repeat constructor; unfold is_addr, minf, maxf, len in *; cbn; lia.
  - exists bp, bq, bf, (bp ++ bq ++ bf). split; [reflexivity|]. split; [rewrite !len_app; lia|]. apply words_bytes; exact A.
Qed.
Lemma blob_header_ok f n p q r rest : 0 <= n -> 0 <= p -> 0 <= q -> 0 <= r -> len rest = p + q + r ->
  words (word_bytes [f; n; p; q; r]) = [f; n; p; q; r] ->
  blob_header (word_bytes [f; n; p; q; r] ++ rest) = Some (f, n, p, q, r).
Proof.
  intros Hn Hp Hq Hr Hl Hw. unfold blob_header.
  rewrite len_app, len_word_bytes. change (len [f; n; p; q; r]) with 5. 
  destruct (8 * 5 + len rest <? 40) eqn:E; [lia|].
  assert (S : slice (word_bytes [f; n; p; q; r] ++ rest) 0 40 = word_bytes [f; n; p; q; r]).
  { apply (slice_app [] (word_bytes [f; n; p; q; r]) rest); reflexivity. }
  rewrite S, Hw.
  destruct ((n <? 0) || (p <? 0) || (q <? 0) || (r <? 0)) eqn:E0; [lia|].
  destruct (8 * 5 + len rest - 40 <? p) eqn:E1; [lia|].
  destruct (8 * 5 + len rest - (40 + p) <? q) eqn:E2; [lia|].
  destruct (8 * 5 + len rest - (40 + p + q) <? r) eqn:E3; [lia|]. reflexivity.
Qed.

Lemma blob_ok cp cf s l b : holds s l -> storable cp cf s -> written cp cf s b ->
  posting_from_blob cp cf b = Ok (Some s) /\
  cache_from_blob cp cf (psize s) b = Ok (Some (if psize s =? 0 then Arr [] [] None else arr_of_posting s)).
Proof.
  intros H (_ & Ap & Aq & Afo & _) W. unfold posting_from_blob, cache_from_blob. destruct W as [E Af|bp bq bf E A Pp Pq Pf].
  - pose proof (blob_header_ok (feature s) 0 0 0 0 []) as B. rewrite app_nil_r in B. rewrite B; try reflexivity; try lia.
    + rewrite Z.eqb_refl, <- (empty_posting s l H E), E. auto.
    + apply words_bytes. repeat constructor; unfold is_addr, minf, maxf in *; lia.
  - rewrite blob_header_ok; try apply len_nonneg; [|rewrite !len_app; lia|apply words_bytes; exact A].
    rewrite Z.eqb_refl. cbn [negb]. assert ((psize s =? 0) = false) as -> by lia.
    set (h := word_bytes [feature s; psize s; len bp; len bq; len bf]).
    assert (Hh : len h = 40) by reflexivity.
    rewrite (blob_array_ok cp (postings s) (psize s) bp h _ 40 Pp eq_refl Ap) by lia. cbn [bind].
    assert (Bq : qostings s <> [] -> blob_array cp (h ++ bp ++ bq ++ bf) (40 + len bp) (len bq) (psize s) = Ok (Some (qostings s))).
    { intros N. destruct Pq as [[Z0 _]|(_ & El & Pq)]; [contradiction|]. rewrite (app_assoc h bp (bq ++ bf)).
      apply blob_array_ok; auto. rewrite len_app. lia. }
    assert (Bf : fostings s <> [] -> blob_array cf (h ++ bp ++ bq ++ bf) (40 + len bp + len bq) (len bf) (psize s) = Ok (Some (fostings s))).
    { intros N. destruct Pf as [[Z0 _]|(_ & El & Pf)]; [contradiction|].
      assert (EE : h ++ bp ++ bq ++ bf = (h ++ bp ++ bq) ++ bf ++ []) by (rewrite app_nil_r, <- !app_assoc; reflexivity).
      rewrite EE. apply blob_array_ok; auto. rewrite !len_app. lia. }
    assert (Cq : qostings s <> [] -> (0 <? len bq) = true /\ (len bq =? 0) = false).
    { intros N. destruct Pq as [[Z0 _]|(_ & _ & Pq)]; [contradiction|]. pose proof (pos_len bq (pk_ne _ _ _ _ Pq N)). lia. }
    assert (Cf : fostings s <> [] -> (0 <? len bf) = true /\ (len bf =? 0) = false).
    { intros N. destruct Pf as [[Z0 _]|(_ & _ & Pf)]; [contradiction|]. pose proof (pos_len bf (pk_ne _ _ _ _ Pf N)). lia. }
    assert (Zq : qostings s = [] -> bq = []) by (intros Z0; destruct Pq as [[_ Z1]|(N & _)]; [exact Z1|contradiction]).
    assert (Zf : fostings s = [] -> bf = []) by (intros Z0; destruct Pf as [[_ Z1]|(N & _)]; [exact Z1|contradiction]).
    assert (Eq : (if 0 <? len bq then blob_array cp (h ++ bp ++ bq ++ bf) (40 + len bp) (len bq) (psize s) else Ok (Some [])) = Ok (Some (qostings s))).
    { destruct (qostings s) as [|q qs] eqn:Es; [rewrite Zq by reflexivity; reflexivity|].
      destruct Cq as [C1 _]; [discriminate|]. rewrite C1. apply Bq. discriminate. }
    assert (Ef : (if 0 <? len bf then blob_array cf (h ++ bp ++ bq ++ bf) (40 + len bp + len bq) (len bf) (psize s) else Ok (Some [])) = Ok (Some (fostings s))).
    { destruct (fostings s) as [|q qs] eqn:Es; [rewrite Zf by reflexivity; reflexivity|].
      destruct Cf as [C1 _]; [discriminate|]. rewrite C1. apply Bf. discriminate. }
    assert (Eq' : (if len bq =? 0 then Ok (Some (postings s)) else blob_array cp (h ++ bp ++ bq ++ bf) (40 + len bp) (len bq) (psize s))
                  = Ok (Some (match qostings s with [] => postings s | l => l end))).
    { destruct (qostings s) as [|q qs] eqn:Es; [rewrite Zq by reflexivity; reflexivity|].
      destruct Cq as [_ C1]; [discriminate|]. rewrite C1. apply Bq. discriminate. }
    split.
    + rewrite Eq. cbn [bind]. rewrite Ef. cbn [bind]. destruct s; reflexivity.
    + rewrite Eq'. cbn [bind]. unfold arr_of_posting.
      destruct (fostings s) as [|v vs] eqn:Es.
      * rewrite (Zf eq_refl). reflexivity.
      * destruct Cf as [_ C1]; [discriminate|]. rewrite C1, Bf by discriminate. reflexivity.
Qed.

(** C13 *)
Theorem write_read : forall cp cf s l, holds s l -> storable cp cf s ->
  exists b, write cp cf s = Ok b /\
    (forall rest, posting_from_file cp cf (b ++ rest) = Ok (Some (s, rest))) /\
    posting_from_blob cp cf b = Ok (Some s) /\
    (l <> [] -> cache_from_blob cp cf (Z.of_nat (length l)) b = Ok (Some (arr_of_posting s))).
Proof.
  intros cp cf s l H K. destruct (write_ok cp cf s l H K) as (b & E & W). exists b. split; [exact E|].
  split; [intros rest; exact (file_ok cp cf s l b rest H K W)|]. destruct (blob_ok cp cf s l b H K W) as [B C].
  split; [exact B|]. intros N. rewrite <- (holds_psize _ _ H). rewrite C. 
  assert ((psize s =? 0) = false) as ->; [|reflexivity]. rewrite (holds_psize _ _ H). destruct l; [contradiction|]. cbn [length]. lia.
Qed.

Lemma header_prefix (k : nat) h rest : (40 <= k)%nat -> len h = 40 -> slice (firstn k (h ++ rest)) 0 40 = h.
Proof.
  intros Hk Hh. rewrite firstn_app. unfold len in Hh. rewrite (firstn_all2 h) by lia.
  pose proof (slice_app [] h (firstn (k - length h) rest) 40 0 eq_refl) as S. apply S. unfold len. lia.
Qed.
Theorem write_truncated : forall cp cf s l b k, holds s l -> storable cp cf s -> write cp cf s = Ok b ->
  (k < length b)%nat ->
  posting_from_blob cp cf (firstn k b) = Ok None /\ forall want, cache_from_blob cp cf want (firstn k b) = Ok None.
Proof.
  intros cp cf s l b k H K E Hk. destruct (write_ok cp cf s l H K) as (b' & E' & W). rewrite E in E'. injection E' as <-.
  assert (HN : blob_header (firstn k b) = None); [|unfold posting_from_blob, cache_from_blob; rewrite HN; auto].
  destruct (header_blob cp cf s b W) as (bp & bq & bf & rest & Eb & Lr & Hw). 
  unfold blob_header. destruct (len (firstn k b) <? 40) eqn:L40; [reflexivity|].
  assert (Lk : len (firstn k b) = Z.of_nat k) by (unfold len; rewrite firstn_length; lia).
  rewrite Eb in Hk |- *. rewrite header_prefix; [|lia|reflexivity]. rewrite Hw. rewrite <- Eb, Lk.
  assert (Lb : Z.of_nat (length b) = 40 + len bp + len bq + len bf).
  { change (Z.of_nat (length b)) with (len b). rewrite Eb, len_app, len_word_bytes, Lr. change (len [feature s; psize s; len bp; len bq; len bf]) with 5. lia. }
  rewrite <- Eb in Hk.
  destruct ((psize s <? 0) || (len bp <? 0) || (len bq <? 0) || (len bf <? 0)); [reflexivity|].
  destruct (Z.of_nat k - 40 <? len bp) eqn:E1; [reflexivity|].
  destruct (Z.of_nat k - (40 + len bp) <? len bq) eqn:E2; [reflexivity|].
  destruct (Z.of_nat k - (40 + len bp + len bq) <? len bf) eqn:E3; [reflexivity|]. lia.
Qed.

Theorem file_of_postings : forall cp cf ss, Forall (fun s => (exists l, holds s l) /\ storable cp cf s) ss ->
  exists b, write_postings cp cf ss = Ok b /\ read_postings (S (length ss)) cp cf b = Ok ss.
Proof.
  induction ss as [|s ss IH]; intros F.
  - exists []. split; reflexivity.
  - inversion F as [|? ? [(l & H) K] F']; subst. destruct (IH F') as (c & E & R).
    destruct (write_read cp cf s l H K) as (b & Eb & Rb & _). exists (b ++ c).
    cbn [write_postings]. rewrite Eb. cbn [bind]. rewrite E. split; [reflexivity|].
    cbn [length]. change (read_postings (S (S (length ss))) cp cf (b ++ c)) with
      (let* r := posting_from_file cp cf (b ++ c) in
       match r with None => Ok [] | Some (s, f) => let* l := read_postings (S (length ss)) cp cf f in Ok (s :: l) end).
    rewrite Rb. cbn [bind]. rewrite R. reflexivity.
Qed.

(** The compressors an index uses by default. *)
Lemma gcdup_ascending l : gcdup l -> Forall (fun x => 0 <= ip x) l ->
  ascending 0 (map ip l) /\ ascending 0 (map iq l).
Proof.
  intros G H.
  assert (K : forall p q, match l with [] => True | x :: _ => p <= ip x /\ q <= iq x end -> ascending p (map ip l) /\ ascending q (map iq l)).
  { clear H. induction l as [|x l IH]; intros p q Hd; [split; exact Logic.I|]. destruct G as (F & Hx & G).
    destruct (IH G (ip x) (iq x)) as [A B].
    - destruct l as [|y l]; [trivial|]. destruct Hx as [Hx|Hx]; [lia|subst; lia].
    - cbn [map ascending]. tauto. }
  apply K. destruct l as [|x l]; [trivial|]. inversion H; subst. destruct G as (F & _). unfold finite in F. lia.
Qed.

Lemma standard_storable s l : holds s l -> gcdup l -> Forall (fun x => 0 <= ip x /\ is_addr (ivl x)) l ->
  is_addr (feature s) -> Z.of_nat (length l) <= 288230376151711743 ->
  storable post_compressor (tfdf_compressor false) s.
Proof.
  intros H G V Af L. pose proof (holds_psize _ _ H) as Ep. apply rep_holds in H. destruct H as [Hq Hf H1 H2 H3].
  assert (V0 : Forall (fun x => 0 <= ip x) l) by (revert V; apply Forall_impl; tauto).
  destruct (gcdup_ascending l G V0) as [Aip Aiq].
  assert (Fin : forall x, In x l -> finite x) by (intros x; apply gcdup_finite; exact G).
  rewrite Forall_forall in V, V0.
  assert (Mp : Forall (fun a => a <= maxf) (map ip l)).
  { rewrite Forall_forall. intros a Ha. apply in_map_iff in Ha. destruct Ha as (x & <- & Hx). specialize (Fin x Hx). unfold finite in Fin. lia. }
  assert (Mq : Forall (fun a => a <= maxf) (map iq l)).
  { rewrite Forall_forall. intros a Ha. apply in_map_iff in Ha. destruct Ha as (x & <- & Hx). specialize (Fin x Hx). unfold finite in Fin. lia. }
  assert (Pp : Forall is_addr (map ip l)).
  { rewrite Forall_forall in *. intros a Ha. specialize (Mp a Ha). apply in_map_iff in Ha. destruct Ha as (x & <- & Hx). specialize (V0 x Hx). unfold is_addr, minf, maxf in *; lia. }
  assert (Pq : Forall is_addr (map iq l)).
  { rewrite Forall_forall in *. intros a Ha. specialize (Mq a Ha). apply in_map_iff in Ha. destruct Ha as (x & <- & Hx). specialize (V0 x Hx). specialize (Fin x Hx). unfold finite, is_addr, minf, maxf in *; lia. }
  assert (Pv : Forall is_addr (map ivl l)).
  { rewrite Forall_forall in *. intros a Ha. apply in_map_iff in Ha. destruct Ha as (x & <- & Hx). apply V; exact Hx. }
  assert (Eq : qostings s = [] \/ qostings s = map iq l) by (unfold ends in H2; destruct (qostings s); auto).
  assert (Ef : fostings s = [] \/ fostings s = map ivl l) by (unfold vals in H3; destruct (fostings s); auto).
  assert (Nil : forall c, c = post_compressor \/ c = tfdf_compressor false -> lossless c (word_bytes [])).
  { intros c [->| ->]; [apply post_lossless|apply tfdf_lossless]; cbn; auto. }
  assert (Xp : extra post_compressor (8 * psize s) = psize s + 2).
  { change (extra post_compressor (8 * psize s)) with (8 * psize s / 8 + 2). rewrite (Z.mul_comm 8), Z.div_mul by lia. reflexivity. }
  assert (Xf : extra (tfdf_compressor false) (8 * psize s) = 8 * psize s + 1) by reflexivity.
  assert (N0 : 0 <= psize s) by (unfold psize; apply len_nonneg).
  unfold storable. rewrite Xp, Xf.
  split; [exact Af|]. split; [rewrite H1; exact Pp|]. split; [destruct Eq as [->| ->]; [constructor|exact Pq]|].
  split; [destruct Ef as [->| ->]; [constructor|exact Pv]|]. unfold maxf.
  split; [lia|]. split; [lia|]. split; [lia|]. split; [lia|].
  split; [rewrite H1; apply post_lossless; assumption|].
  split; [destruct Eq as [->| ->]; [apply Nil; auto|apply post_lossless; assumption]|].
  destruct Ef as [->| ->]; [apply Nil; auto|apply tfdf_lossless; assumption].
Qed.
