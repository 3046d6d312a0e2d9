(** The loop of a Hazel merge: which features it takes, and what it does to the
    checkpoint files. *)
From Verif Require Import Base HopperModel ArrayDefs GclSpec VectorModel Bytes CodecModel CodecSpec CodecProofs
  PostingModel PostingSpec PostingProofs PostingIO ShardModel ShardSpec ShardProofs HazelModel HazelSpec HazelProofs HazelSources.

(* ------------------------------------------------------------------ *)
(** * The features *)
Inductive takes : list (list entry) -> list Z -> Prop :=
| takes_nil : forall rem, next_feature rem = maxf -> takes rem []
| takes_cons : forall rem f fs, next_feature rem = f -> f <> maxf -> takes (advance f rem) fs -> takes rem (f :: fs).
Definition rem_ok (d : list entry) : Prop := map_order (map en_feature d) /\ Forall (fun e => en_feature e < maxf) d.
Definition among (rem : list (list entry)) (f : Z) : Prop := exists d, In d rem /\ In f (map en_feature d).

Lemma next_le rem d e r : In d rem -> d = e :: r -> next_feature rem <= en_feature e.
Proof.
  induction rem as [|a rem IH]; intros Hd Ed; [destruct Hd|]. cbn [next_feature fold_right]. fold (next_feature rem).
  destruct Hd as [->|Hd]; [subst d; lia|]. specialize (IH Hd Ed). destruct a; lia.
Qed.
Lemma next_in rem : next_feature rem <> maxf -> exists d e r, In d rem /\ d = e :: r /\ en_feature e = next_feature rem.
Proof.
  induction rem as [|a rem IH]; intros N; [contradiction|]. cbn [next_feature fold_right] in *. fold (next_feature rem) in *.
  destruct a as [|e r].
  - destruct (IH N) as (d & e & r & Hd & Ed & Ee). exists d, e, r. split; [right; exact Hd|]. auto.
  - destruct (Z.le_gt_cases (en_feature e) (next_feature rem)).
    + exists (e :: r), e, r. split; [left; reflexivity|]. split; [reflexivity|]. lia.
    + rewrite Z.min_l by lia. assert (N2 : next_feature rem <> maxf) by lia.
      destruct (IH N2) as (d & e2 & r2 & Hd & Ed & Ee). exists d, e2, r2. split; [right; exact Hd|]. auto.
Qed.
Lemma next_max rem : next_feature rem <= maxf.
Proof. induction rem as [|a rem IH]; cbn; [lia|]. fold (next_feature rem). destruct a; lia. Qed.
Lemma among_next rem f : Forall rem_ok rem -> among rem f -> next_feature rem <= f.
Proof.
  intros H (d & Hd & Hf). destruct d as [|e r]; [destruct Hf|]. pose proof (next_le rem (e :: r) e r Hd eq_refl) as L.
  destruct Hf as [<-|Hf]; [exact L|]. rewrite Forall_forall in H. destruct (H _ Hd) as [M _]. cbn [map] in M.
  apply map_order_head in M. rewrite Forall_forall in M. specialize (M f Hf). lia.
Qed.
Lemma advance_ok f rem : Forall rem_ok rem -> Forall rem_ok (advance f rem).
Proof.
  intros H. unfold advance. rewrite Forall_map. eapply Forall_impl; [|exact H]. intros d K. destruct d as [|e r]; [exact K|].
  destruct (en_feature e =? f); [|exact K]. destruct K as [K1 K2]. split; [exact (map_order_tail _ _ K1)|inversion K2; assumption].
Qed.
Lemma advance_among rem f g : Forall rem_ok rem -> next_feature rem = f ->
  (among (advance f rem) g <-> among rem g /\ g <> f).
Proof.
  intros H Nf. split.
  - intros (d & Hd & Hg). unfold advance in Hd. apply in_map_iff in Hd. destruct Hd as (d0 & E & Hd0).
    rewrite Forall_forall in H. destruct (H _ Hd0) as [M _].
    destruct d0 as [|e r]; [subst d; destruct Hg|]. cbn [map] in M. pose proof (map_order_head _ _ M) as Lt. rewrite Forall_forall in Lt.
    destruct (Z.eqb_spec (en_feature e) f) as [Ee|Ee]; subst d.
    + split; [exists (e :: r); split; [exact Hd0|right; exact Hg]|]. specialize (Lt g Hg). lia.
    + split; [exists (e :: r); split; [exact Hd0|exact Hg]|]. pose proof (next_le rem _ e r Hd0 eq_refl).
      destruct Hg as [<-|Hg]; [lia|]. specialize (Lt g Hg). lia.
  - intros ((d & Hd & Hg) & Ng). destruct d as [|e r]; [destruct Hg|].
    exists (if en_feature e =? f then r else e :: r). split.
    + unfold advance. apply in_map_iff. exists (e :: r). split; [reflexivity|exact Hd].
    + destruct (Z.eqb_spec (en_feature e) f) as [Ee|Ee]; [|exact Hg]. destruct Hg as [Hg|Hg]; [congruence|exact Hg].
Qed.
Lemma takes_spec rem fs : takes rem fs -> Forall rem_ok rem -> map_order fs /\ forall f, In f fs <-> among rem f.
Proof.
  induction 1 as [rem N|rem f fs Nf Nm T IH]; intros H.
  - split; [exact Logic.I|]. intros f. split; [intros []|]. intros A. pose proof (among_next rem f H A) as L.
    destruct A as (d & Hd & Hf). rewrite Forall_forall in H. destruct (H _ Hd) as [_ B]. rewrite Forall_forall in B.
    apply in_map_iff in Hf. destruct Hf as (e & <- & He). specialize (B e He). lia.
  - destruct (IH (advance_ok f rem H)) as [M I].
    assert (I' : forall g, In g (f :: fs) <-> among rem g).
    { intros g. cbn [In]. rewrite I, (advance_among rem f g H Nf). split.
      - intros [<-|[K _]]; [|exact K]. rewrite <- Nf in Nm |- *. destruct (next_in rem Nm) as (d & e & r & Hd & -> & Ee).
        exists (e :: r). split; [exact Hd|]. left. exact Ee.
      - intros K. destruct (Z.eq_dec f g); [left; assumption|right; split; [exact K|congruence]]. }
    split; [|exact I']. destruct fs as [|g fs]; [exact Logic.I|]. split; [|exact M].
    assert (K : among rem g) by (apply I'; right; left; reflexivity).
    pose proof (among_next rem g H K). assert (K2 : among (advance f rem) g) by (apply I; left; reflexivity).
    apply (advance_among rem f g H Nf) in K2. lia.
Qed.
Lemma advance_shorter rem f : next_feature rem = f -> f <> maxf -> (length (concat (advance f rem)) < length (concat rem))%nat.
Proof.
  intros Nf Nm. rewrite <- Nf in Nm. destruct (next_in rem Nm) as (d & e & r & Hd & -> & Ee). rewrite Nf in Ee. clear Nf Nm.
  assert (Le : forall l, (length (concat (advance f l)) <= length (concat l))%nat).
  { induction l as [|[|a b] l IH]; [cbn; lia|cbn; exact IH|]. change (advance f ((a :: b) :: l)) with ((if en_feature a =? f then b else a :: b) :: advance f l).
    cbn [concat]. rewrite !app_length. destruct (en_feature a =? f); cbn [length]; lia. }
  induction rem as [|a rem IH]; [destruct Hd|].
  change (advance f (a :: rem)) with ((match a with e0 :: r0 => if en_feature e0 =? f then r0 else a | [] => [] end) :: advance f rem).
  cbn [concat]. rewrite !app_length. destruct Hd as [->|Hd].
  - rewrite Ee, Z.eqb_refl. specialize (Le rem). cbn [length]. lia.
  - specialize (IH Hd). assert (length (match a with e0 :: r0 => if (en_feature e0 =? f)%Z then r0 else a | [] => [] end) <= length a)%nat
      by (destruct a as [|e0 r0]; [lia|]; destruct (en_feature e0 =? f)%Z; cbn; lia). lia.
Qed.
Lemma takes_exists n : forall rem, (length (concat rem) < n)%nat -> exists fs, takes rem fs.
Proof.
  induction n as [|n IH]; intros rem L; [lia|]. destruct (Z.eq_dec (next_feature rem) maxf) as [E|E].
  - exists []. constructor. exact E.
  - destruct (IH (advance (next_feature rem) rem)) as [fs T]; [pose proof (advance_shorter rem _ eq_refl E); lia|].
    exists (next_feature rem :: fs). constructor; auto.
Qed.
Lemma map_order_unique a : forall b, map_order a -> map_order b -> (forall x, In x a <-> In x b) -> a = b.
Proof.
  induction a as [|x a IH]; intros [|y b] Ha Hb K; [reflexivity|exfalso; apply (proj2 (K y)); left; reflexivity|exfalso; apply (proj1 (K x)); left; reflexivity|].
  pose proof (map_order_head _ _ Ha) as La. pose proof (map_order_head _ _ Hb) as Lb. rewrite Forall_forall in La, Lb.
  assert (x = y) as ->.
  { destruct (proj1 (K x) (or_introl eq_refl)) as [E|E]; [congruence|]. destruct (proj2 (K y) (or_introl eq_refl)) as [E2|E2]; [congruence|].
    specialize (La y E2). specialize (Lb x E). lia. }
  f_equal. apply IH; [exact (map_order_tail _ _ Ha)|exact (map_order_tail _ _ Hb)|]. intros z. split; intros Hz.
  - destruct (proj1 (K z) (or_intror Hz)) as [<-|]; [|assumption]. specialize (La _ Hz). lia.
  - destruct (proj2 (K z) (or_intror Hz)) as [<-|]; [|assumption]. specialize (Lb _ Hz). lia.
Qed.
Lemma map_order_filter (P : Z -> bool) fs : map_order fs -> map_order (filter P fs).
Proof.
  induction fs as [|f fs IH]; intros M; [exact Logic.I|]. pose proof (map_order_head _ _ M) as Lt. specialize (IH (map_order_tail _ _ M)).
  cbn [filter]. destruct (P f); [|exact IH]. destruct (filter P fs) as [|g r] eqn:E; [exact Logic.I|]. split; [|exact IH].
  rewrite Forall_forall in Lt. apply Lt. apply (proj1 (filter_In P g fs)). rewrite E. left. reflexivity.
Qed.
Lemma after_ok t d : rem_ok d -> rem_ok (after t d).
Proof.
  induction d as [|e d IH]; intros K; [exact K|]. cbn [after]. destruct (en_feature e <=? t); [|exact K].
  apply IH. destruct K as [K1 K2]. split; [exact (map_order_tail _ _ K1)|inversion K2; assumption].
Qed.
Lemma after_in t d f : rem_ok d -> (In f (map en_feature (after t d)) <-> In f (map en_feature d) /\ t < f).
Proof.
  induction d as [|e d IH]; intros K; [cbn; tauto|]. cbn [after]. destruct K as [K1 K2]. cbn [map] in K1. pose proof (map_order_head _ _ K1) as Lt. rewrite Forall_forall in Lt.
  assert (K' : rem_ok d) by (split; [exact (map_order_tail _ _ K1)|inversion K2; assumption]).
  destruct (en_feature e <=? t) eqn:E.
  - rewrite (IH K'). cbn [map In]. split; [tauto|]. intros [[H|H] L]; [lia|tauto].
  - cbn [map In]. split; [|tauto]. intros [H|H]; [split; [left; exact H|lia]|]. specialize (Lt f H). split; [right; exact H|lia].
Qed.
(** Resuming after [t] takes what is left. *)
Lemma takes_after t t' ds fs fs' : Forall rem_ok ds -> t <= t' -> takes (map (after t) ds) fs -> takes (map (after t') ds) fs' ->
  fs' = filter (fun f => t' <? f) fs.
Proof.
  intros H L T T'.
  assert (O : forall u, Forall rem_ok (map (after u) ds)) by (intros u; rewrite Forall_map; eapply Forall_impl; [|exact H]; intros d; apply after_ok).
  destruct (takes_spec _ _ T (O t)) as [M I]. destruct (takes_spec _ _ T' (O t')) as [M' I'].
  assert (A : forall u f, among (map (after u) ds) f <-> among ds f /\ u < f).
  { intros u f. rewrite Forall_forall in H. split.
    - intros (d & Hd & Hf). apply in_map_iff in Hd. destruct Hd as (d0 & <- & Hd). apply (after_in u d0 f (H _ Hd)) in Hf.
      split; [exists d0; tauto|tauto].
    - intros ((d & Hd & Hf) & Lu). exists (after u d). split; [apply in_map, Hd|]. apply (after_in u d f (H _ Hd)). auto. }
  apply map_order_unique; [exact M'|apply map_order_filter, M|]. intros x. rewrite filter_In, I, I', !A. split.
  - intros [X Y]. split; [split; [exact X|lia]|lia].
  - intros [[X _] Y]. split; [exact X|lia].
Qed.

(* ------------------------------------------------------------------ *)
(** * The files *)
Definition pre (x y : bytes) : Prop := exists z, y = x ++ z.
Lemma pre_refl x : pre x x. Proof. exists []. rewrite app_nil_r. reflexivity. Qed.
Lemma pre_nil x : pre [] x. Proof. exists x. reflexivity. Qed.
Lemma pre_app x y z : pre y z -> pre (x ++ y) (x ++ z).
Proof. intros [w ->]. exists w. rewrite app_assoc. reflexivity. Qed.
Lemma pre_left x y z : pre (x ++ y) z -> pre x z.
Proof. intros [w ->]. exists (y ++ w). rewrite app_assoc. reflexivity. Qed.
Lemma pre_trans x y z : pre x y -> pre y z -> pre x z.
Proof. intros [a ->] [b ->]. exists (a ++ b). rewrite app_assoc. reflexivity. Qed.
Lemma pre_firstn n x : pre (firstn n x) x.
Proof. exists (skipn n x). symmetry. apply firstn_skipn. Qed.
Lemma pre_len x y : pre x y -> len x <= len y.
Proof. intros [z ->]. rewrite len_app. pose proof (len_nonneg z). lia. Qed.
Lemma pre_cut a p w : pre a w -> pre p w -> len a <= len p -> firstn (Z.to_nat (len a)) p = a.
Proof.
  intros [x Ex] [y Ey] L. unfold len in L |- *. rewrite Nat2Z.id.
  assert (E : firstn (length a) (a ++ x) = firstn (length a) (p ++ y)) by congruence.
  rewrite firstn_app, Nat.sub_diag, firstn_all, firstn_O, app_nil_r, firstn_app in E.
  replace (length a - length p)%nat with 0%nat in E by lia. rewrite firstn_O, app_nil_r in E. symmetry. exact E.
Qed.
Lemma exec_app s a b : exec s (a ++ b) = exec (exec s a) b.
Proof. apply fold_left_app. Qed.

(** The state a crash leaves lies in [G]. *)
Definition safe (G : files -> Prop) (s : files) (l : list act) : Prop := forall s', crashed s l s' -> G s'.
Lemma crashed_nil s s' : crashed s [] s' -> s' = s.
Proof.
  intros C. inversion C as [done rest E|done b c rest E|done b c rest E].
  - apply app_eq_nil in E. destruct E as [-> ->]. reflexivity.
  - apply app_eq_nil in E. destruct E as [_ E]. discriminate.
  - apply app_eq_nil in E. destruct E as [_ E]. discriminate.
Qed.
Lemma crashed_cons s a l s' : crashed s (a :: l) s' -> s' = s \/ crashed (exec1 s a) l s' \/
  (exists b c, a = Append_pst (b ++ c) /\ s' = exec1 s (Append_pst b)) \/
  (exists b c, a = Append_dct (b ++ c) /\ s' = exec1 s (Append_dct b)).
Proof.
  intros C. inversion C as [done rest E|done b c rest E|done b c rest E]; destruct done as [|x done].
  - left. reflexivity.
  - cbn in E. injection E as -> <-. right. left. apply (Crash_between (exec1 s a) done rest).
  - cbn in E. injection E as <- <-. right. right. left. exists b, c. auto.
  - cbn in E. injection E as -> <-. right. left. apply (Crash_in_pst (exec1 s a) done b c rest).
  - cbn in E. injection E as <- <-. right. right. right. exists b, c. auto.
  - cbn in E. injection E as -> <-. right. left. apply (Crash_in_dct (exec1 s a) done b c rest).
Qed.
Lemma safe_nil (G : files -> Prop) s : G s -> safe G s [].
Proof. intros H s' C. rewrite (crashed_nil _ _ C). exact H. Qed.
Definition no_append (a : act) : Prop := match a with Append_pst _ | Append_dct _ => False | _ => True end.
Lemma safe_step (G : files -> Prop) s a l : no_append a -> G s -> safe G (exec1 s a) l -> safe G s (a :: l).
Proof.
  intros N H K s' C. destruct (crashed_cons _ _ _ _ C) as [->|[C2|[(b & c & E & _)|(b & c & E & _)]]]; [exact H|exact (K s' C2)| |]; subst a; destruct N.
Qed.
Lemma safe_app (G : files -> Prop) a : forall s b, safe G s a -> safe G (exec s a) b -> safe G s (a ++ b).
Proof.
  induction a as [|x a IH]; intros s b A B; [exact B|]. cbn [app exec fold_left] in *. intros s' C.
  destruct (crashed_cons _ _ _ _ C) as [->|[C2|C2]].
  - apply A. apply (Crash_between s [] (x :: a)).
  - refine (IH (exec1 s x) b _ B s' C2). intros s2 C3. apply A. inversion C3 as [done rest E|done b' c rest E|done b' c rest E]; subst.
    + apply (Crash_between s (x :: done) rest).
    + apply (Crash_in_pst s (x :: done) b' c rest).
    + apply (Crash_in_dct s (x :: done) b' c rest).
  - apply A. destruct C2 as [(b1 & c & -> & ->)|(b1 & c & -> & ->)].
    + apply (Crash_in_pst s [] b1 c a).
    + apply (Crash_in_dct s [] b1 c a).
Qed.
Lemma safe_here (G : files -> Prop) s l : safe G s l -> G s.
Proof. intros K. apply K. apply (Crash_between s [] l). Qed.
Lemma safe_end (G : files -> Prop) s l : safe G s l -> G (exec s l).
Proof. intros K. apply K. pose proof (Crash_between s l []) as Q. rewrite app_nil_r in Q. exact Q. Qed.
Lemma safe_weaken (G G' : files -> Prop) s l : (forall x, G x -> G' x) -> safe G s l -> safe G' s l.
Proof. intros H K s' C. apply H, K, C. Qed.

(** Files that hold a first part of [P] and of [D]. *)
Definition part1 (o : option bytes) (w : bytes) : Prop := match o with None => True | Some x => pre x w end.
Definition part (P D : bytes) (s : files) : Prop := part1 (pst s) P /\ part1 (dct s) D.

Section Rows.
Variables cp cf : compressor.
Notation laid := (laid cp cf).

(** Actions that append [body] and [dir]. *)
Definition grows (s : files) (acts : list act) (p d body dir : bytes) : Prop :=
  s = Files (Some p) (Some d) /\ exec s acts = Files (Some (p ++ body)) (Some (d ++ dir)) /\
  safe (part (p ++ body) (d ++ dir)) s acts.
Lemma grows_app s acts p d body dir acts' body' dir' :
  grows s acts p d body dir -> grows (Files (Some (p ++ body)) (Some (d ++ dir))) acts' (p ++ body) (d ++ dir) body' dir' ->
  grows s (acts ++ acts') p d (body ++ body') (dir ++ dir').
Proof.
  intros (E & X & S) (_ & X' & S'). split; [exact E|]. rewrite exec_app, X, X', !app_assoc. split; [reflexivity|].
  apply safe_app.
  - refine (safe_weaken _ _ _ _ _ S). intros [a b] [A B]. split.
    + destruct a as [a|]; [|exact Logic.I]. cbn in *. eapply pre_trans; [exact A|]. exists body'. reflexivity.
    + destruct b as [b|]; [|exact Logic.I]. cbn in *. eapply pre_trans; [exact B|]. exists dir'. reflexivity.
  - rewrite X. exact S'.
Qed.
Lemma grows_nil p d : grows (Files (Some p) (Some d)) [] p d [] [].
Proof.
  split; [reflexivity|]. rewrite !app_nil_r. split; [reflexivity|]. apply safe_nil. split; apply pre_refl.
Qed.
Lemma append_grows f q p d b body e : plain_at q <> UB -> psize q <> 0 -> feature q = f -> b = header_length + len p ->
  laid b [(f, q)] body e ->
  exists acts, append_posting cp cf (Files (Some p) (Some d)) (Some q) = Ok (acts, e) /\
    grows (Files (Some p) (Some d)) acts p d body (dir_bytes e).
Proof.
  intros _ Z Ff -> L. unfold append_posting. replace (psize q =? 0) with false by lia. cbn [pst size_of]. inversion L; subst.
  - match goal with K : plain_at q = _ |- _ => rewrite K end. cbn [bind]. inversion H6; subst.
    eexists. split; [rewrite (Z.add_comm (len p)); reflexivity|].
    cbn [dir_bytes flat_map]. rewrite app_nil_r.
    split; [reflexivity|]. cbn [exec fold_left exec1 more pst dct]. rewrite app_nil_r. split; [reflexivity|].
    intros s' C. destruct (crashed_cons _ _ _ _ C) as [->|[C2|[(x & y & E & _)|(x & y & E & ->)]]].
    + split; [apply pre_refl|eexists; reflexivity].
    + rewrite (crashed_nil _ _ C2). split; apply pre_refl.
    + discriminate.
    + injection E as E. split; [apply pre_refl|]. cbn. apply pre_app. exists y. exact E.
  - match goal with K : plain_at q = _ |- _ => rewrite K end. cbn [bind].
    match goal with K : write cp cf q = _ |- _ => rewrite K end. cbn [bind]. inversion H7; subst.
    eexists. split; [replace (len p + len x + header_length) with (header_length + len p + len x) by lia; reflexivity|].
    cbn [dir_bytes flat_map]. rewrite !app_nil_r. split; [reflexivity|]. cbn [exec fold_left exec1 more pst dct]. split; [reflexivity|].
    intros s' C. destruct (crashed_cons _ _ _ _ C) as [->|[C2|[(y & z & E & ->)|(y & z & E & _)]]].
    + split; eexists; reflexivity.
    + cbn [exec1 pst dct more] in C2. destruct (crashed_cons _ _ _ _ C2) as [->|[C3|[(y & z & E & _)|(y & z & E & ->)]]].
      * split; [apply pre_refl|eexists; reflexivity].
      * rewrite (crashed_nil _ _ C3). split; apply pre_refl.
      * discriminate.
      * injection E as E. split; [apply pre_refl|]. cbn. apply pre_app. exists z. exact E.
    + injection E as E. split; [|eexists; reflexivity]. cbn. apply pre_app. exists z. exact E.
    + discriminate.
Qed.

Lemma good_psize f q : good_row cp cf (f, q) -> psize q <> 0 /\ plain_at q <> UB.
Proof.
  intros (_ & _ & l & H & N & _). cbn in H. rewrite (holds_psize _ _ H). split; [destruct l; [contradiction|cbn; lia]|].
  destruct (plain_at_ok q l H) as (o & E & _). congruence.
Qed.

Section Loop.
Variables (chunk : Z) (hs : list hidx) (bs : list Z) (ex : option posting) (R : Z -> option posting).
(** The rows that are written for some features. *)
Definition rows_of (fs : list Z) : index :=
  flat_map (fun f => match R f with Some p => [(f, p)] | None => [] end) fs.
Hypothesis Row : forall f, among (map hx_dir hs) f -> 0 < f -> row cp cf chunk hs bs ex f = Ok (Some (R f)) /\
  match R f with None => True | Some p => good_row cp cf (f, p) end.

Lemma loop_grows fs : forall rem n p d b body e, takes rem fs -> (length fs < n)%nat ->
  Forall (fun f => among (map hx_dir hs) f /\ 0 < f) fs ->
  b = header_length + len p -> laid b (rows_of fs) body e ->
  exists acts, merge_loop cp cf n chunk hs bs ex rem (Files (Some p) (Some d)) = Ok (Some acts) /\
    grows (Files (Some p) (Some d)) acts p d body (dir_bytes e).
Proof.
  induction fs as [|f fs IH]; intros rem n p d b body e T Ln A Eb L; inversion T as [? Nx|? ? ? Nx Nm T']; subst; (destruct n as [|n]; [cbn in Ln; lia|]); cbn [merge_loop].
  - rewrite Nx, Z.eqb_refl. inversion L; subst. exists []. split; [reflexivity|]. apply grows_nil.
  - replace (next_feature rem =? maxf) with false by lia. cbn in Ln.
    inversion A as [|? ? [A1 A2] A']; subst. destruct (Row (next_feature rem) A1 A2) as [Er Gr]. rewrite Er. cbn [bind].
    cbn [rows_of flat_map] in L. fold (rows_of fs) in L. destruct (R (next_feature rem)) as [q|].
    + apply laid_app_inv in L. destruct L as (b1 & d1 & b2 & d2 & -> & -> & L1 & L2).
      destruct (good_psize (next_feature rem) q Gr) as [Z1 Z2]. pose proof Gr as (Ff & _). cbn in Ff.
      destruct (append_grows (next_feature rem) q p d _ b1 d1 Z2 Z1 Ff eq_refl L1) as (acts & Ea & Ga). rewrite Ea. cbn [bind].
      pose proof Ga as (_ & X & _). rewrite X.
      destruct (IH (advance (next_feature rem) rem) n (p ++ b1) (d ++ dir_bytes d1) (header_length + len p + len b1) b2 d2 T') as (acts' & Ea' & Ga'); [lia|exact A'|rewrite len_app; lia|exact L2|].
      match goal with |- context [merge_loop ?a1 ?a2 ?a3 ?a4 ?a5 ?a6 ?a7 ?a8 ?a9] => replace (merge_loop a1 a2 a3 a4 a5 a6 a7 a8 a9) with (Ok (Some acts')) by (symmetry; exact Ea') end.
      cbn [bind]. exists (acts ++ acts'). split; [reflexivity|]. rewrite dir_app. exact (grows_app _ _ _ _ _ _ _ _ _ Ga Ga').
    + cbn [app] in L. cbn [append_posting bind exec fold_left].
      destruct (IH (advance (next_feature rem) rem) n p d (header_length + len p) body e T') as (acts' & Ea' & Ga'); [lia|exact A'|reflexivity|exact L|].
      change (exec (Files (Some p) (Some d)) []) with (Files (Some p) (Some d)). match goal with |- context [merge_loop ?a1 ?a2 ?a3 ?a4 ?a5 ?a6 ?a7 ?a8 ?a9] => replace (merge_loop a1 a2 a3 a4 a5 a6 a7 a8 a9) with (Ok (Some acts')) by (symmetry; exact Ea') end.
      cbn [bind app]. exists acts'. split; [reflexivity|exact Ga'].
Qed.
End Loop.

(* ------------------------------------------------------------------ *)
(** * Repairing *)
Lemma cut_part n b : 0 <= n <= len b -> cut n (Some b) = Some (firstn (Z.to_nat n) b).
Proof.
  intros L. cbn. unfold len in *. replace (Z.to_nat (n - Z.of_nat (length b))) with 0%nat by lia. cbn [repeat]. rewrite app_nil_r. reflexivity.
Qed.
Lemma keep_spec d : forall pe ce before, exists k, keep pe ce before d = k /\ (k <= length d)%nat /\
  (k = 0%nat \/ last_end pe (firstn k d) <= ce).
Proof.
  induction d as [|e d IH]; intros pe ce before; cbn [keep]; [exists 0%nat; auto|].
  destruct ((en_end e <? pe) || _); [exists 0%nat; repeat split; [lia|auto]|].
  destruct (ce <? en_end e) eqn:E; [exists 0%nat; repeat split; [lia|auto]|].
  destruct (IH (en_end e) ce (Some (en_feature e))) as (k & -> & Lk & Ck). exists (S k). split; [reflexivity|]. split; [cbn; lia|].
  right. cbn [firstn]. rewrite last_end_cons. destruct Ck as [->|Ck]; [cbn; lia|exact Ck].
Qed.
Lemma dir_firstn d k : firstn (24 * k) (dir_bytes d) = dir_bytes (firstn k d).
Proof.
  revert k. induction d as [|e d IH]; intros [|k]; try reflexivity; try (rewrite firstn_nil; reflexivity).
  cbn [dir_bytes flat_map firstn]. fold (dir_bytes d). fold (dir_bytes (firstn k d)).
  assert (Le : length (entry_bytes e) = 24%nat) by reflexivity. rewrite firstn_app, Le.
  rewrite firstn_all2 by lia. f_equal. replace (24 * S k - 24)%nat with (24 * k)%nat by lia. apply IH.
Qed.

Section Repair.
(** The rows of the whole merge and their layout. *)
Variables (rows : index) (P : bytes) (d : list entry).
Hypothesis L : laid header_length rows P d.
Hypothesis G : Forall (good_row cp cf) rows.
Hypothesis M : header_length + len P <= maxf.
Let D := dir_bytes d.

(** The files after the first [k] rows. *)
Definition stage (k : nat) (p : bytes) : Prop :=
  (k <= length rows)%nat /\ laid header_length (firstn k rows) p (firstn k d) /\ pre p P /\
  exists b2, P = p ++ b2 /\ laid (header_length + len p) (skipn k rows) b2 (skipn k d).
Lemma laid_length b r body e : laid b r body e -> length r = length e.
Proof. intros K. apply laid_features in K. apply (f_equal (@length Z)) in K. rewrite !map_length in K. symmetry. exact K. Qed.
Lemma stage_at k : (k <= length rows)%nat -> exists p, stage k p.
Proof.
  intros Lk. rewrite <- (firstn_skipn k rows) in L. destruct (laid_app_inv _ _ _ _ _ _ _ L) as (b1 & d1 & b2 & d2 & E1 & E2 & L1 & L2).
  pose proof (laid_length _ _ _ _ L1) as Ed. rewrite firstn_length_le in Ed by exact Lk.
  assert (F1 : firstn k d = d1) by (rewrite E2, firstn_app, <- Ed, Nat.sub_diag, firstn_O, app_nil_r; apply firstn_all2; lia).
  assert (F2 : skipn k d = d2) by (rewrite E2, skipn_app, skipn_all2, <- Ed, Nat.sub_diag by lia; reflexivity).
  exists b1. split; [exact Lk|]. rewrite F1, F2. split; [exact L1|]. split; [exists b2; exact E1|]. exists b2. split; [exact E1|exact L2].
Qed.
Lemma stage_len k p : stage k p -> last_end header_length (firstn k d) = header_length + len p.
Proof. intros (_ & K & _). exact (laid_last _ _ _ _ _ _ K). Qed.
Lemma stage_dir k : pre (dir_bytes (firstn k d)) D.
Proof. unfold D. rewrite <- (firstn_skipn k d) at 2. rewrite dir_app. eexists. reflexivity. Qed.
Lemma D_len : len D = 24 * Z.of_nat (length d).
Proof. unfold D. rewrite len_dir. unfold len. lia. Qed.

Lemma repair_ok s : part P D s ->
  match repair s with
  | None => True
  | Some (acts, d') => exists k p, d' = firstn k d /\ stage k p /\
      exec s acts = Files (Some p) (Some (dir_bytes (firstn k d))) /\ safe (part P D) s acts /\
      (match last_of d' with None => 0 | Some e => en_end e - header_length end) = len p
  end.
Proof.
  destruct s as [op od]. intros [Hp Hd]. unfold repair, read_checkpoint. cbn [pst dct] in *.
  destruct op as [p|]; [|exact Logic.I]. destruct od as [x|]; [|exact Logic.I]. cbn [part1] in *.
  pose proof (len_nonneg x) as Nx. pose proof (pre_len _ _ Hd) as Lx. rewrite D_len in Lx.
  set (m := Z.to_nat (len x / 24)).
  assert (Em : len x - len x mod 24 = 24 * Z.of_nat m).
  { unfold m. rewrite Z2Nat.id by (apply Z.div_pos; lia). pose proof (Z.div_mod (len x) 24). lia. }
  assert (Lm : 24 * Z.of_nat m <= len x) by (rewrite <- Em; pose proof (Z.mod_pos_bound (len x) 24); lia).
  assert (Lmd : (m <= length d)%nat) by lia.
  assert (Fm : firstn (Z.to_nat (len x - len x mod 24)) x = dir_bytes (firstn m d)).
  { rewrite Em. replace (24 * Z.of_nat m) with (len (dir_bytes (firstn m d))) in * by (rewrite len_dir; unfold len; rewrite firstn_length_le by lia; lia).
    apply (pre_cut _ _ D); [apply stage_dir|exact Hd|exact Lm]. }
  rewrite Fm, triples_words.
  2:{ apply Forall_forall. intros e He. pose proof (laid_addrs cp cf _ _ _ _ L G) as K. rewrite Forall_forall in K. apply K; [rewrite header_len_eq; lia|exact M|].
      rewrite <- (firstn_skipn m d). apply in_or_app. left. exact He. }
  destruct (keep_spec (firstn m d) header_length (header_length + len p) None) as (k & -> & Lk & Ck).
  rewrite firstn_length_le in Lk by exact Lmd. rewrite firstn_firstn, Nat.min_l in * by lia. rewrite firstn_length_le by exact Lmd.
  destruct (stage_at k) as (q & Sq); [rewrite (laid_length _ _ _ _ L); lia|].
  pose proof (stage_len k q Sq) as Lq.
  assert (Wq : match last_of (firstn k d) with None => 0 | Some e => en_end e - header_length end = len q).
  { unfold last_end in Lq. destruct (last_of (firstn k d)); lia. }
  assert (Lqp : len q <= len p).
  { destruct Ck as [->|Ck]; [|lia]. cbn in Wq. pose proof (len_nonneg p). lia. }
  assert (Pq : firstn (Z.to_nat (len q)) p = q) by (apply (pre_cut _ _ P); [apply Sq|exact Hp|exact Lqp]).
  exists k, q. split; [reflexivity|]. split; [exact Sq|]. rewrite Wq.
  set (a1 := if len x - len x mod 24 =? len x then [] else [Trunc_dct (len x - len x mod 24)]).
  set (a2 := if Nat.ltb k m then [Trunc_dct (Z.of_nat k * 24)] else []).
  assert (X1 : exec (Files (Some p) (Some x)) a1 = Files (Some p) (Some (dir_bytes (firstn m d)))).
  { unfold a1. destruct (Z.eqb_spec (len x - len x mod 24) (len x)) as [E|E].
    - cbn. f_equal. f_equal. rewrite <- Fm. rewrite E. unfold len. rewrite Nat2Z.id, firstn_all. reflexivity.
    - cbn [exec fold_left exec1 pst dct]. rewrite cut_part by lia. rewrite Fm. reflexivity. }
  assert (Ld : forall j, (j <= m)%nat -> len (dir_bytes (firstn j d)) = 24 * Z.of_nat j).
  { intros j Hj. rewrite len_dir. unfold len. rewrite firstn_length_le by lia. reflexivity. }
  assert (X2 : exec (Files (Some p) (Some (dir_bytes (firstn m d)))) a2 = Files (Some p) (Some (dir_bytes (firstn k d)))).
  { unfold a2. destruct (Nat.ltb_spec k m) as [E|E].
    - cbn [exec fold_left exec1 pst dct]. rewrite cut_part by (rewrite Ld; lia).
      replace (Z.to_nat (Z.of_nat k * 24)) with (24 * k)%nat by lia. rewrite dir_firstn, firstn_firstn, Nat.min_l by lia. reflexivity.
    - assert (k = m) as -> by lia. reflexivity. }
  assert (X3 : exec (Files (Some p) (Some (dir_bytes (firstn k d)))) [Trunc_pst (len q)] = Files (Some q) (Some (dir_bytes (firstn k d)))).
  { cbn [exec fold_left exec1 pst dct]. rewrite cut_part by (pose proof (len_nonneg q); lia). rewrite Pq. reflexivity. }
  split; [rewrite !exec_app, X1, X2, X3; reflexivity|]. split; [|reflexivity].
  assert (Gm : forall y j, pre y P -> part P D (Files (Some y) (Some (dir_bytes (firstn j d))))) by (intros y j Hy; split; [exact Hy|apply stage_dir]).
  apply safe_app; [|rewrite X1; apply safe_app; [|rewrite X2]].
  - unfold a1 in *. destruct (len x - len x mod 24 =? len x); [apply safe_nil; split; assumption|].
    apply safe_step; [exact Logic.I|split; assumption|]. apply safe_nil.
    change (exec1 (Files (Some p) (Some x)) (Trunc_dct (len x - len x mod 24))) with (exec (Files (Some p) (Some x)) [Trunc_dct (len x - len x mod 24)]).
    rewrite X1. apply Gm, Hp.
  - unfold a2 in *. destruct (Nat.ltb k m); [|apply safe_nil, Gm, Hp].
    apply safe_step; [exact Logic.I|apply Gm, Hp|]. apply safe_nil.
    match goal with |- part P D (exec1 ?a ?b) => change (exec1 a b) with (exec a [b]) end. rewrite X2. apply Gm, Hp.
  - apply safe_step; [exact Logic.I|apply Gm, Hp|]. apply safe_nil.
    match goal with |- part P D (exec1 ?a ?b) => change (exec1 a b) with (exec a [b]) end. rewrite X3. apply Gm, Sq.
Qed.
End Repair.
End Rows.
