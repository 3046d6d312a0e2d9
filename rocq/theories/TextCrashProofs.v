(** A crash of an appender, and recovery. *)
From Verif Require Import Base Bytes CodecModel CodecSpec CodecProofs ChunkModel ChunkSpec ChunkFiles ChunkProofs ChunkOps ChunkLife ChunkStep ChunkTop.
From Verif Require Import TokenModel PlainModel PlainSpec PlainWrite PlainLife PlainTop TextCrashModel TextCrashSpec.
From Verif Require TextSpec TextProofs FileSpec.
Local Arguments settle : simpl never.

(** * Files *)
Definition of_store (l : list fop) : list op := flat_map (fun o => match o with Store x => [x] | _ => [] end) l.
Lemma of_store_app a b : of_store (a ++ b) = of_store a ++ of_store b.
Proof. apply flat_map_app. Qed.
Lemma of_store_map l : of_store (map Store l) = l.
Proof. induction l as [|x l IH]; [reflexivity|]. cbn. unfold of_store in IH. rewrite IH. reflexivity. Qed.
Lemma fexec_store l : forall f, f_store (fexec f l) = exec (f_store f) (of_store l).
Proof.
  induction l as [|o l IH]; intros f; [reflexivity|]. change (fexec f (o :: l)) with (fexec (fexec1 f o) l). rewrite IH.
  destruct o; try reflexivity. cbn. destruct (f_new f); reflexivity.
Qed.
Lemma fexec_map l : forall f, fexec f (map Store l) = Files (exec (f_store f) l) (f_txt f) (f_new f) (f_open f) (f_lock f).
Proof.
  induction l as [|o l IH]; intros f; [destruct f; reflexivity|]. cbn [map]. change (fexec f (Store o :: map Store l)) with (fexec (fexec1 f (Store o)) (map Store l)).
  rewrite IH. reflexivity.
Qed.
Lemma fexec_app f a b : fexec f (a ++ b) = fexec (fexec f a) b.
Proof. apply fold_left_app. Qed.
Lemma store_crash all f l f' : file_crash all f l f' -> crashed (f_store f) (of_store l) (f_store f').
Proof.
  induction 1 as [f l f' L|f p b l k f' L|f o l f' H IH].
  - destruct L as (-> & _). constructor.
  - destruct L as (-> & _). cbn. apply crash_torn.
  - destruct o; try exact IH.
    + cbn. apply crash_later. exact IH.
    + replace (f_store (fexec1 f Rename_new)) with (f_store f) in IH by (cbn; destruct (f_new f); reflexivity). exact IH.
Qed.
Lemma file_crash_app all a : forall f b f', file_crash all f (a ++ b) f' -> file_crash all f a f' \/ file_crash all (fexec f a) b f'.
Proof.
  induction a as [|o a IH]; intros f b f' H; [right; exact H|]. cbn [app] in H. inversion H as [? ? ? L|? ? ? ? ? ? L|? ? ? ? L]; subst.
  - left. apply file_crash_now. exact L.
  - left. eapply file_crash_torn. exact L.
  - destruct (IH _ _ _ L) as [Q|Q]; [left; apply file_crash_later; exact Q|right; exact Q].
Qed.
Lemma crash_txt all f l f' : file_crash all f l f' -> ~ In Rename_new l -> f_txt f' = f_txt f.
Proof.
  induction 1 as [f l f' L|f p b l k f' L|f o l f' H IH]; intros N.
  - apply L.
  - destruct L as (_ & -> & _). reflexivity.
  - rewrite IH by (intros Q; apply N; right; exact Q). destruct o; try reflexivity. exfalso. apply N. left. reflexivity.
Qed.
Lemma crash_open all f l f' : file_crash all f l f' -> f_open f' = false.
Proof. induction 1 as [f l f' L|f p b l k f' L|f o l f' H IH]; [apply L|apply L|exact IH]. Qed.
(** What txt will be when txt.new replaces it. *)
Definition next_txt (f : files) : record_file := match f_new f with Some x => x | None => f_txt f end.
Lemma crash_next f l f' : file_crash true f l f' -> (forall o, In o l -> match o with Store _ | Close_new | Rename_new | Unlink => True | _ => False end) ->
  next_txt f' = next_txt f.
Proof.
  assert (Q : forall f f', lost true f f' -> next_txt f' = next_txt f).
  { intros g g' (_ & T & _ & _ & N). unfold next_txt. rewrite andb_false_r in N. destruct (f_new g), (f_new g'); try contradiction; congruence. }
  induction 1 as [f l f' L|f p b l k f' L|f o l f' H IH]; intros N.
  - apply Q. exact L.
  - rewrite (Q _ _ L). reflexivity.
  - rewrite IH by (intros o' Ho; apply N; right; exact Ho). specialize (N o (or_introl eq_refl)). destruct o; try contradiction; try reflexivity.
    unfold next_txt. cbn. destruct (f_new f) eqn:E; cbn; [reflexivity|rewrite E; reflexivity].
Qed.
Lemma recovers_files c cs commit f f' : file_recovers c cs commit f f' ->
  ChunkSpec.recovers c cs commit (f_store f) (f_store f') /\ f_new f' = None /\ f_lock f' = false /\
  f_txt f' = (if commit then next_txt f else f_txt f).
Proof.
  induction 1 as [f l E|f l f1 f2 E C H (I1 & I2 & I3 & I4)].
  - unfold recover_files in E. destruct (recover c cs commit (f_store f)) as [r| |] eqn:R; try discriminate. cbn [bind] in E. injection E as <-.
    rewrite fexec_app, fexec_map. cbn [fexec fold_left]. split; [|split; [|split]].
    + assert (Q : f_store (fexec1 (fexec1 (Files (exec (f_store f) r) (f_txt f) (f_new f) (f_open f) (f_lock f)) (if commit then Rename_new else Remove_new)) Unlink) = exec (f_store f) r).
      { destruct commit; cbn; [destruct (f_new f); reflexivity|reflexivity]. }
      rewrite Q. apply recover_through. exact R.
    + destruct commit; cbn; [destruct (f_new f); reflexivity|reflexivity].
    + destruct commit; cbn; [destruct (f_new f); reflexivity|reflexivity].
    + unfold next_txt. destruct commit; cbn; [destruct (f_new f); reflexivity|reflexivity].
  - unfold recover_files in E. destruct (recover c cs commit (f_store f)) as [r| |] eqn:R; try discriminate. cbn [bind] in E. injection E as <-.
    split; [|split; [exact I2|split; [exact I3|]]].
    + pose proof (store_crash _ _ _ _ C) as Cs. rewrite of_store_app, of_store_map in Cs.
      replace (of_store [if commit then Rename_new else Remove_new; Unlink]) with (@nil op) in Cs by (destruct commit; reflexivity).
      rewrite app_nil_r in Cs. eapply recover_again; [exact R|exact Cs|exact I1].
    + rewrite I4. destruct commit.
      * eapply crash_next; [exact C|]. intros o Ho. apply in_app_or in Ho. destruct Ho as [Ho|[<-|[<-|[]]]]; auto.
        apply in_map_iff in Ho. destruct Ho as (x & <- & _). exact I.
      * eapply crash_txt; [exact C|]. intros Ho. apply in_app_or in Ho. destruct Ho as [Ho|[Ho|[Ho|[]]]]; try discriminate.
        apply in_map_iff in Ho. destruct Ho as (x & Ho & _). discriminate.
Qed.

(** * Calls *)
Section Calls.
Variable c : compressor.
Variable cs : Z.
Variable held : Z -> bool.
Hypothesis Hcs : 0 < cs.
Hypothesis Hloss : forall b, Forall is_byte b -> lossless c b.
Hypothesis Hfit : forall n, 0 <= n <= cs -> n + extra c n <= buffer_size c cs.
Variable tokenize : bytes -> list token.
Variable skip : bytes -> Z -> Z.
Variable stop : bytes -> Prop.
Variable starts : bytes -> list Z.
Variable split : bytes -> list bytes.
Hypothesis laws : TextSpec.tokenizer_laws tokenize skip stop starts.
Hypothesis Hsplit : split_law split starts.
Hypothesis Hfeat : features_ok tokenize.
Notation sys := (sys c cs).
Notation ainv := (ainv c cs stop starts).
Notation holding := (holding c cs).
Notation whole_starts l := (starts (whole l)).

Lemma one_step e w f r w' : run1 c cs held e w = Ok (r, w') -> sys w f -> allowed c cs e f ->
  exists os, done (s_ w') = done (s_ w) ++ os /\ dk (s_ w') = exec (dk (s_ w)) os /\ crash_ok c cs e f (dk (s_ w)) os /\ sys w' (snd (flat1 e f)).
Proof.
  intros R Sy A. destruct (step c cs held Hcs Hloss Hfit e w f Sy A) as (w1 & os & R1 & Sy1 & D & X & K). rewrite R1 in R. injection R as _ <-. eauto.
Qed.
Lemma of_store_ops a a' os : log a' = log a ++ os -> of_store (store_ops a a') = os.
Proof. intros E. unfold store_ops. rewrite of_store_map, E, skipn_app, skipn_all, Nat.sub_diag. reflexivity. Qed.
Lemma rest_holding a b : ainv a b -> holding (disk_of a) (whole (kept b)).
Proof.
  intros (_ & _ & _ & _ & S). unfold state_ok in S. unfold disk_of. destruct (open b) as [l|].
  - destruct S as (_ & _ & _ & _ & _ & (w & f & E & Sy & T & M & _) & _). rewrite E.
    assert (N : mark f <> None) by congruence.
    pose proof (sys_holding c cs w f Sy (or_introl N)) as Q. unfold committed in Q. rewrite M in Q. exact Q.
  - destruct S as (_ & _ & _ & S). destruct (a_io a) as [w|d].
    + destruct S as (f & Sy & T & M & U). pose proof (sys_holding c cs w f Sy (or_intror U)) as Q.
      unfold committed in Q. rewrite M, T in Q. exact Q.
    + left. apply S.
Qed.
Lemma kept_same e b : undecided e -> kept (snd (burrow1 tokenize starts e b)) = kept b.
Proof. intros [H1 H2]. destruct e, (open b) eqn:E; cbn; rewrite ?E; cbn; try reflexivity; congruence. Qed.
Lemma tokens_same toks : forall a, exists x n, append_tokens toks a = set_annotations x (set_new (a_new a ++ n) a).
Proof.
  induction toks as [|t r IH]; intros a; cbn [append_tokens].
  - exists (a_annotations a), []. rewrite app_nil_r. destruct a; reflexivity.
  - set (a1 := if t_feature t <=? ShardModel.null_feature then a else _).
    assert (E1 : exists y, a1 = set_annotations y a).
    { unfold a1. destruct (_ <=? _); [exists (a_annotations a); destruct a; reflexivity|eauto]. }
    destruct E1 as (y & E1). rewrite E1. destruct (_ && _).
    + match goal with |- context [append_tokens r ?u] => destruct (IH u) as (x & n & E) end. rewrite E.
      cbn [set_annotations set_new a_new a_annotations]. rewrite <- app_assoc. eexists. eexists. reflexivity.
    + destruct (IH (set_annotations y a)) as (x & n & E). rewrite E. eexists. eexists. reflexivity.
Qed.
Lemma skipn_self {A} (l r : list A) : skipn (length l) (l ++ r) = r.
Proof. rewrite skipn_app, skipn_all, Nat.sub_diag. reflexivity. Qed.
Lemma transaction_inv a a' : appender_transaction_ c cs held split a = Ok (true, a') ->
  exists w w1, match a_io a with inl w => Ok w | inr d => opened c cs held d end = Ok w /\ run1 c cs held Begin w = Ok (Flag true, w1) /\
    exists w2, (w2 = w1 \/ exists x t b, rev (a_txt a) = x :: t /\ r_start x < io_size w1 /\ run1 c cs held (Read (r_start x) (io_size w1 - r_start x)) w1 = Ok (Bytes b, w2)) /\
      a_io a' = inl w2 /\ a_txt a' = a_txt a /\ a_new a' = a_txt a /\ a_adding a' = true /\ a_lock a' = true /\ a_failed a = false /\ a_lock a = false.
Proof.
  unfold appender_transaction_. destruct (a_failed a) eqn:Hf; [discriminate|]. destruct (a_lock a) eqn:Hl; [discriminate|]. cbv zeta.
  cbn [set_lock a_io]. destruct (match a_io a with inl w => Ok w | inr d => opened c cs held d end) as [w| |] eqn:Ew; try discriminate. cbn [bind].
  destruct (run1 c cs held Begin w) as [[bb w1]| |] eqn:E1; try discriminate. cbn [bind].
  destruct bb as [| | |[|]]; try discriminate. cbn [set_io set_lock set_new a_txt].
  intros H. exists w, w1. split; [reflexivity|]. split; [exact E1|].
  destruct (rev (a_txt a)) as [|x t] eqn:Er.
  - injection H as <-. exists w1. cbn [set_adding set_place set_new set_io set_lock a_io a_txt a_new a_adding a_lock]. splits; auto.
  - unfold refuse in H. destruct (Z.leb_spec (io_size w1) (r_start x)) as [Hle|Hlt].
    { destruct (run1 c cs held Abort w1) as [[? ?]| |]; discriminate. }
    unfold io_read in H. destruct (run1 c cs held (Read (r_start x) (io_size w1 - r_start x)) w1) as [[rb w2]| |] eqn:E2; try discriminate. cbn [bind] in H.
    destruct rb as [|tail| |]; try discriminate. cbn [bind] in H.
    destruct (negb (len tail =? io_size w1 - r_start x)). { destruct (run1 c cs held Abort w2) as [[? ?]| |]; discriminate. }
    destruct (Z.of_nat (length (split (c_string tail))) =? 0). { destruct (run1 c cs held Abort w2) as [[? ?]| |]; discriminate. }
    injection H as <-. exists w2. split; [right; exists x, t, tail; auto|].
    cbn [set_adding set_place set_new set_io set_lock a_io a_txt a_new a_adding a_lock]. splits; auto.
Qed.
Definition goes (a a' : appender) (ops : list fop) (b : burrow) : Prop :=
  (forall d', crashed (disk_of a) (of_store ops) d' -> holding d' (whole (kept b))) /\
  fexec (files_of a) ops = files_of a' /\ ~ In Rename_new ops.
Lemma store_no_rename a a' : ~ In Rename_new (store_ops a a').
Proof. unfold store_ops. intros H. apply in_map_iff in H. destruct H as (x & H & _). discriminate. Qed.
Lemma exec_store_ops a a' os : log a' = log a ++ os -> fexec (files_of a) (store_ops a a') =
  Files (exec (disk_of a) os) (f_txt (files_of a)) (f_new (files_of a)) (f_open (files_of a)) (f_lock (files_of a)).
Proof.
  intros E. unfold store_ops. rewrite E, skipn_self, fexec_map. reflexivity.
Qed.
Lemma same_log a a' : a_io a' = a_io a -> log a' = log a ++ [].
Proof. intros E. unfold log. rewrite E, app_nil_r. reflexivity. Qed.
Lemma holding_nil a b : ainv a b -> forall d', crashed (disk_of a) [] d' -> holding d' (whole (kept b)).
Proof. intros H d' C. apply crashed_nil in C. subst d'. apply rest_holding. exact H. Qed.

Lemma call_crash e a b r a' : ainv a b -> permitted c cs tokenize stop starts e b -> undecided e ->
  call1 c cs held tokenize split e a = Ok (r, a') -> goes a a' (call_ops e a a') b.
Proof.
  intros Ha Hp [U1 U2] E. assert (Ha0 := Ha). destruct Ha as (Hf & Hk & Hx & Hlen & Hs). unfold state_ok in Hs.
  destruct e as [|t| | | |]; try congruence; cbn [call1 call_ops] in *.
  - destruct (a_started a) eqn:Es.
    { injection E as _ <-. cbn [orb]. split; [apply holding_nil; exact Ha0|]. split; [reflexivity|intros []]. }
    destruct (open b) as [l|] eqn:Ho; [destruct Hs as (S1 & _); congruence|].
    destruct (begin_ok c cs held Hcs Hloss Hfit tokenize skip stop starts split laws Hsplit a b Ha0 Ho (Hp Ho)) as (a1 & E1 & I1).
    rewrite E1 in E. cbn [bind] in E. injection E as _ <-. destruct Hs as (_ & S2 & S3 & S4).
    destruct (transaction_inv _ _ E1) as (w & w1 & Ew & Eb & w2 & Er & A1 & A2 & A3 & A4 & A5 & A6 & A7).
    cbn [set_protocol a_io a_txt a_failed a_lock] in *. cbn [orb]. rewrite Hf, S3. cbn [orb set_protocol a_adding]. rewrite A4.
    assert (Hio : exists f, sys w f /\ text f = whole (kept b) /\ mark f = None /\ unflushed f = false /\ log a = done (s_ w) /\ disk_of a = dk (s_ w)).
    { unfold log, disk_of. destruct (a_io a) as [w0|d].
      - injection Ew as ->. destruct S4 as (f & Q1 & Q2 & Q3 & Q4). exists f. splits; auto.
      - destruct S4 as [Q1 Q2]. destruct (opened_ok c cs held Hcs Hloss Hfit d _ Q1 Q2) as (w0 & O & Sy & Dk).
        assert (w0 = w) by congruence. subst w0. eexists. split; [exact Sy|]. splits; auto.
        unfold opened in O. destruct (make c cs held d) as [hh| |]; try discriminate. cbn [bind] in O. injection O as <-. reflexivity. }
    destruct Hio as (f & Sy & Tf & Mf & Uf & Elog & Edk).
    destruct (one_step Begin w f _ w1 Eb Sy (fun _ => conj (fun N => Hp Ho (eq_trans (eq_sym Tf) N)) Uf)) as (os1 & D1 & X1 & K1 & Sy1).
    cbn [flat1 snd] in Sy1. rewrite Mf in Sy1. cbn [snd] in Sy1.
    assert (Esz : io_size w1 = len (whole (kept b))).
    { destruct (step c cs held Hcs Hloss Hfit Size w1 _ Sy1 I) as (w3 & op2 & R2 & _). cbn [run1 flat1 fst text] in R2.
      unfold io_size. injection R2 as R2 _. rewrite R2, Tf. reflexivity. }
    assert (H2 : exists os2, done (s_ w2) = done (s_ w1) ++ os2 /\ dk (s_ w2) = exec (dk (s_ w1)) os2 /\
      forall d', crashed (dk (s_ w1)) os2 d' -> holding d' (whole (kept b))).
    { destruct Er as [-> |(x & tl & bb & Er & Hlt & R2)].
      - exists []. rewrite app_nil_r. split; [reflexivity|]. split; [reflexivity|]. intros d' C. apply crashed_nil in C. subst d'.
        pose proof (sys_holding c cs w1 _ Sy1 (or_intror Uf)) as Q. unfold committed in Q. cbn [mark] in Q. rewrite Tf in Q. exact Q.
      - pose proof (marks_recorded starts (whole (kept b)) (a_txt a) Hx) as Hrec.
        destruct (last_marked starts _ _ x tl Hrec Er) as [Hxx Hx0].
        pose proof (TextSpec.law_inside _ _ _ _ laws (whole (kept b))) as Hasc.
        pose proof (TextProofs.ascending_in _ _ _ (r_start x) Hasc (nth_error_In _ _ Hxx)) as Hin.
        rewrite app_nil_r in Hlen.
        destruct (one_step _ w1 _ _ w2 R2 Sy1) as (os2 & D2 & X2 & (_ & K2 & _) & _).
        { cbn [allowed]. rewrite Z.max_r by lia. unfold minf. lia. }
        exists os2. split; [exact D2|]. split; [exact X2|]. intros d' C.
        assert (N : mark (Flat (text f) (Some (text f)) (unflushed f)) <> None) by (cbn; congruence).
        destruct (K2 (or_introl N) d' C) as [Q|[Q _]]; [|discriminate]. unfold committed in Q. cbn [mark] in Q. rewrite Tf in Q. exact Q. }
    destruct H2 as (os2 & D2 & X2 & K2).
    assert (L : log (set_protocol true false false a1) = log a ++ os1 ++ os2).
    { unfold log at 1. cbn [set_protocol a_io]. rewrite A1, D2, D1, Elog, app_assoc. reflexivity. }
    split; [|split].
    + cbn [of_store flat_map app]. change (flat_map (fun o : fop => match o with Store x => [x] | _ => [] end)) with of_store.
      rewrite of_store_app, (of_store_ops _ _ _ L). cbn [of_store flat_map app]. rewrite app_nil_r. intros d' C. rewrite Edk in C.
      destruct (crashed_app os1 _ os2 d' C) as [C1|C1]; [|rewrite <- X1 in C1; exact (K2 d' C1)].
      destruct K1 as (_ & K1 & _). assert (G : guarded Begin f) by (right; split; [exact Uf|congruence]).
      destruct (K1 G d' C1) as [Q|[Q _]]; [|discriminate]. unfold committed in Q. rewrite Mf, Tf in Q. exact Q.
    + change (fexec (files_of a) (Link :: store_ops a (set_protocol true false false a1) ++ [Open_new; Write_new (a_txt a)])) with
        (fexec (fexec1 (files_of a) Link) (store_ops a (set_protocol true false false a1) ++ [Open_new; Write_new (a_txt a)])).
      rewrite fexec_app. unfold store_ops. rewrite L, skipn_self, fexec_map. cbn [fexec1 files_of f_store f_txt f_new f_open f_lock fexec fold_left option_map fst snd app].
      unfold files_of. cbn [set_protocol a_io a_txt a_adding a_new a_lock]. rewrite A1, A2, A3, A4, A5.
      change (match a_io a with inl w3 => dk (s_ w3) | inr d => d end) with (disk_of a). rewrite Edk, exec_app, <- X1, <- X2. reflexivity.
    + intros [H|H]; [discriminate|]. apply in_app_or in H. destruct H as [H|[H|[H|[]]]]; try discriminate. exact (store_no_rename _ _ H).
  - destruct (append_text c cs held tokenize t (set_annotations [] a)) as [[rr a1]| |] eqn:Et; try discriminate. cbn [bind] in E. injection E as _ <-.
    assert (Same : a_io a1 = a_io a -> a_txt a1 = a_txt a -> a_new a1 = a_new a -> a_adding a1 = a_adding a -> a_lock a1 = a_lock a ->
      goes a a1 (store_ops a a1 ++ [Write_new (skipn (length (a_new a)) (a_new a1))]) b).
    { intros Q1 Q2 Q3 Q4 Q5. split; [|split].
      - rewrite of_store_app, (of_store_ops _ _ _ (same_log _ _ Q1)). apply holding_nil. exact Ha0.
      - rewrite fexec_app, (exec_store_ops _ _ _ (same_log _ _ Q1)), Q3, skipn_all. unfold files_of. rewrite Q1, Q2, Q3, Q4, Q5.
        cbn [fexec fold_left fexec1 f_new f_txt f_store f_open f_lock exec]. unfold disk_of. f_equal. destruct (a_adding a); [|reflexivity]. cbn [option_map fst snd]. rewrite app_nil_r. reflexivity.
      - intros H. apply in_app_or in H. destruct H as [H|[H|[]]]; [exact (store_no_rename _ _ H)|discriminate]. }
    unfold append_text in Et. cbn [set_annotations a_failed a_adding a_io a_address] in Et. rewrite Hf in Et. cbn [orb] in Et.
    destruct (a_adding a) eqn:Ead; cbn [negb] in Et; [|injection Et as _ <-; apply Same; try reflexivity; exact Ead].
    destruct t as [|t0 t]; [injection Et as _ <-; apply Same; try reflexivity; exact Ead|].
    destruct (open b) as [l|] eqn:Ho; [|destruct Hs as (_ & S2 & _); congruence].
    destruct Hs as (S1 & S2 & S3 & S4 & S5 & (w & f & Eio & Sy & Tf & Mf & Uf) & _). rewrite Eio in Et.
    unfold io_append in Et. destruct (run1 c cs held (Append (ended (t0 :: t))) w) as [[ra w1]| |] eqn:R; try discriminate. cbn [bind] in Et.
    cbn [PlainSpec.permitted] in Hp. rewrite Ho in Hp. destruct Hp as (_ & Ht & _).
    destruct (one_step _ w f _ w1 R Sy) as (os & D & X & (_ & K & _) & _).
    { cbn [allowed]. rewrite <- closed_ended by discriminate. apply closed_bytes. apply Ht. }
    assert (Fin : exists n, a_io a1 = inl w1 /\ a_txt a1 = a_txt a /\ a_new a1 = a_new a ++ n /\ a_adding a1 = true /\ a_lock a1 = a_lock a).
    { destruct (rev (tokenize (ended (t0 :: t)))) as [|tk ?].
      - injection Et as _ <-. exists []. rewrite app_nil_r. cbn [set_place set_io set_annotations a_io a_txt a_new a_adding a_lock]. splits; auto.
      - injection Et as _ <-. match goal with |- context [append_tokens ?l ?u] => destruct (tokens_same l u) as (x & n & En) end. rewrite En.
        exists n. cbn [set_place set_new set_io set_annotations a_io a_txt a_new a_adding a_lock]. splits; auto. }
    destruct Fin as (n & F1 & F2 & F3 & F4 & F5).
    assert (L : log a1 = log a ++ os) by (unfold log; rewrite F1, Eio; exact D).
    split; [|split].
    + rewrite of_store_app, (of_store_ops _ _ _ L). cbn [of_store flat_map]. rewrite app_nil_r. unfold disk_of. rewrite Eio. intros d' C.
      assert (N : mark f <> None) by congruence. destruct (K (or_introl N) d' C) as [Q|[Q _]]; [|discriminate]. unfold committed in Q. rewrite Mf in Q. exact Q.
    + rewrite fexec_app, (exec_store_ops _ _ _ L), F3, skipn_self. unfold files_of, disk_of. rewrite F1, F2, F3, F4, F5, Eio, Ead.
      cbn [fexec fold_left fexec1 f_new f_txt f_store f_open f_lock option_map fst snd]. rewrite X. reflexivity.
    + intros H. apply in_app_or in H. destruct H as [H|[H|[]]]; [exact (store_no_rename _ _ H)|discriminate].
  - assert (Same : forall x y z, goes a (set_protocol x y z a) (store_ops a (set_protocol x y z a)) b).
    { intros x y z. split; [|split].
      - rewrite (of_store_ops _ _ _ (same_log a (set_protocol x y z a) eq_refl)). apply holding_nil. exact Ha0.
      - rewrite (exec_store_ops _ _ _ (same_log a (set_protocol x y z a) eq_refl)). reflexivity.
      - apply store_no_rename. }
    assert (Ep : a = set_protocol (a_started a) (a_readied a) (a_vote a) a) by (destruct a; reflexivity).
    destruct (a_started a) eqn:Es; cbn [negb] in E; [|injection E as _ <-; rewrite Ep at 2 3; apply Same].
    destruct (a_readied a) eqn:Erd; [injection E as _ <-; rewrite Ep at 2 3; apply Same|].
    destruct (open b) as [l|] eqn:Ho; [|destruct Hs as (S1 & _); congruence].
    destruct Hs as (S1 & S2 & S3 & S4 & S5 & (w & f & Eio & Sy & Tf & Mf & Uf) & _).
    unfold appender_ready_ in E. rewrite Hf, S2, Eio in E. cbn [orb negb] in E.
    destruct (run1 c cs held Flush w) as [[ra w1]| |] eqn:R; try discriminate. cbn [bind] in E. injection E as _ <-.
    destruct (one_step _ w f _ w1 R Sy I) as (os & D & X & (_ & K & _) & _).
    match goal with |- goes a ?u _ _ => set (a1 := u) end.
    assert (L : log a1 = log a ++ os) by (unfold log; cbn [a1 set_protocol set_io a_io]; rewrite Eio; exact D).
    split; [|split].
    + rewrite (of_store_ops _ _ _ L). unfold disk_of. rewrite Eio. intros d' C.
      assert (N : mark f <> None) by congruence. destruct (K (or_introl N) d' C) as [Q|[Q _]]; [|discriminate]. unfold committed in Q. rewrite Mf in Q. exact Q.
    + rewrite (exec_store_ops _ _ _ L). unfold files_of, disk_of, a1. cbn [set_protocol set_io a_io a_txt a_adding a_new a_lock f_txt f_new f_open f_lock]. rewrite Eio, X. reflexivity.
    + apply store_no_rename.
  - destruct (a_started a) eqn:Es.
    2:{ injection E as _ <-. split; [apply holding_nil; exact Ha0|]. split; [reflexivity|intros []]. }
    destruct (open b) as [l|] eqn:Ho; [|destruct Hs as (S1 & _); congruence].
    destruct Hs as (S1 & S2 & S3 & S4 & S5 & (w & f & Eio & Sy & Tf & Mf & Uf) & _).
    unfold appender_abort_ in E. rewrite Eio in E.
    destruct (run1 c cs held Abort w) as [[ra w1]| |] eqn:R; try discriminate. cbn [bind set_io a_failed a_adding] in E. rewrite Hf, S2 in E. cbn [negb andb bind] in E. injection E as _ <-.
    destruct (one_step _ w f _ w1 R Sy) as (os & D & X & (_ & K & _) & _).
    { cbn [allowed]. cbn [PlainSpec.permitted] in Hp. rewrite Ho in Hp. destruct Uf as [Uf|[Uf1 Uf2]]; [left; exact Uf|]. destruct Hp as [Hp|[Hp|Hp]]; [congruence|congruence|right; exact Hp]. }
    rewrite Hf, S2. cbn [negb andb].
    match goal with |- goes a ?u _ _ => set (a1 := u) end.
    assert (L : log a1 = log a ++ os) by (unfold log; cbn [a1 set_protocol set_io set_lock set_new set_adding a_io]; rewrite Eio; exact D).
    split; [|split].
    + rewrite of_store_app, (of_store_ops _ _ _ L). cbn [of_store flat_map]. rewrite app_nil_r. unfold disk_of. rewrite Eio. intros d' C.
      assert (N : mark f <> None) by congruence. destruct (K (or_introl N) d' C) as [Q|[Q _]]; [|discriminate]. unfold committed in Q. rewrite Mf in Q. exact Q.
    + rewrite fexec_app, (exec_store_ops _ _ _ L). unfold files_of, disk_of, a1.
      cbn [set_protocol set_io set_lock set_new set_adding a_io a_txt a_adding a_new a_lock fexec fold_left fexec1 f_store f_txt f_new f_open f_lock]. rewrite Eio, X. reflexivity.
    + intros H. apply in_app_or in H. destruct H as [H|[H|[H|[H|[]]]]]; try discriminate. exact (store_no_rename _ _ H).
Qed.
Lemma trace_ok l : forall a b, ainv a b -> all_permitted c cs tokenize stop starts l b -> Forall undecided l ->
  exists ops a', trace c cs held tokenize split l a = Ok (ops, a') /\ ainv a' (snd (burrow_run tokenize starts l b)) /\
    kept (snd (burrow_run tokenize starts l b)) = kept b /\ goes a a' ops b.
Proof.
  induction l as [|e l IH]; intros a b Ha Hp Hu.
  - exists [], a. cbn. split; [reflexivity|]. split; [exact Ha|]. split; [reflexivity|]. split; [apply holding_nil; exact Ha|]. split; [reflexivity|intros []].
  - destruct Hp as [P1 P2]. inversion Hu as [|? ? U1 U2]; subst.
    destruct (call_ok c cs held Hcs Hloss Hfit tokenize skip stop starts split laws Hsplit Hfeat e a b Ha P1) as (a1 & E1 & I1).
    destruct (call_crash e a b _ a1 Ha P1 U1 E1) as (G1 & G2 & G3).
    destruct (IH a1 _ I1 P2 U2) as (o2 & a2 & E2 & I2 & K2 & (H1 & H2 & H3)).
    cbn [trace burrow_run]. rewrite E1. cbn [bind]. rewrite E2. cbn [bind]. exists (call_ops e a a1 ++ o2), a2.
    pose proof (kept_same e b U1) as Ke. destruct (burrow1 tokenize starts e b) as [r1 b1]. cbn [fst snd] in *.
    destruct (burrow_run tokenize starts l b1) as [rs b2]. cbn [snd] in *.
    split; [reflexivity|]. split; [exact I2|]. split; [congruence|]. split; [|split].
    + intros d' C. rewrite of_store_app in C. destruct (crashed_app _ _ _ _ C) as [C1|C1]; [exact (G1 d' C1)|].
      rewrite <- Ke. apply H1. replace (disk_of a1) with (exec (disk_of a) (of_store (call_ops e a a1))); [exact C1|].
      pose proof (fexec_store (call_ops e a a1) (files_of a)) as Q. rewrite G2 in Q. symmetry. exact Q.
    + rewrite fexec_app, G2. exact H2.
    + intros H. apply in_app_or in H. tauto.
Qed.
Lemma texts_held f ts recs : resting c cs (f_store f) (whole ts) -> lock (f_store f) = false -> f_new f = None -> f_lock f = false -> f_txt f = (recs, false) ->
  map key recs = marks 0 0 (whole_starts ts) -> Forall (text_ok stop) ts -> len (whole ts) <= maxf -> FileSpec.cut_law starts ->
  holds_texts c cs held tokenize skip stop starts split f ts.
Proof.
  intros R L N K T M Hts Hm Hcut. split; [exact N|]. split; [exact K|]. unfold open_txt, open_appender. rewrite T, K. cbn [fst snd]. split.
  - intros la Hq. apply (reader_ok c cs held tokenize skip stop starts split _ _ _ la laws Hcut Hsplit (resting_serves c cs held Hcs Hloss Hfit _ _ R L) Hm); auto.
    + apply marks_recorded. exact M.
    + intros _. eapply whole_clean. exact Hts.
  - intros l Hp. destruct (calls_ok c cs held Hcs Hloss Hfit tokenize skip stop starts split laws Hsplit Hfeat l (appender_make (f_store f) recs false) (Burrow ts None false)) as (a & E & _); [|exact Hp|eauto].
    split; [reflexivity|]. split; [exact Hts|]. split; [exact M|]. cbn [open kept]. rewrite app_nil_r. split; [exact Hm|]. unfold state_ok. cbn. splits; auto.
Qed.
Lemma rolled_back a b ops a' f1 f2 all : FileSpec.cut_law starts -> ainv a b -> goes a a' ops b ->
  file_crash all (files_of a) ops f1 -> file_recovers c cs false f1 f2 -> holds_texts c cs held tokenize skip stop starts split f2 (kept b).
Proof.
  intros Hcut Ha (G1 & _ & G3) C R. destruct (recovers_files _ _ _ _ _ R) as (Rs & Rn & Rl & Rt).
  pose proof (G1 _ (store_crash _ _ _ _ C)) as Hh. destruct (recovers_holding c cs held Hcs Hloss Hfit _ _ _ Hh Rs) as [Q1 Q2].
  destruct Ha as (_ & Hk & Hx & Hlen & _). apply (texts_held f2 (kept b) (a_txt a)); auto.
  - rewrite Rt, (crash_txt _ _ _ _ C G3). reflexivity.
  - rewrite whole_app in Hlen. unfold len in *. rewrite app_length in Hlen. lia.
Qed.
Lemma can_roll_back a b ops a' f1 all : goes a a' ops b -> file_crash all (files_of a) ops f1 -> exists f2, file_recovers c cs false f1 f2.
Proof.
  intros (G1 & _ & _) C. destruct (restore_holding c cs held Hcs Hloss Hfit _ _ (G1 _ (store_crash _ _ _ _ C))) as (l & E).
  eexists. eapply file_recover_through. unfold recover_files. rewrite E. reflexivity.
Qed.
Lemma commit_goes a b l : ainv a b -> open b = Some l -> sure b = true ->
  exists a', call1 c cs held tokenize split Commits a = Ok (Nothing, a') /\ ainv a' (Burrow (kept b ++ l) None false) /\
    fexec (files_of a) (call_ops Commits a a') = files_of a' /\
    exists os, call_ops Commits a a' = map Store os ++ [Close_new; Rename_new; Unlink] /\
    forall d', crashed (disk_of a) os d' -> shape c cs d' (whole (kept b ++ l)).
Proof.
  intros Ha Ho Hsure. destruct (call_ok c cs held Hcs Hloss Hfit tokenize skip stop starts split laws Hsplit Hfeat Commits a b Ha) as (a' & E & I').
  { cbn. split; congruence. }
  exists a'. cbn [PlainSpec.burrow1] in E, I'. rewrite Ho in E, I'. cbn [fst snd] in E, I'. split; [exact E|]. split; [exact I'|].
  destruct Ha as (Hf & Hk & Hx & Hlen & Hs). unfold state_ok in Hs. rewrite Ho in Hs.
  destruct Hs as (S1 & S2 & S3 & S4 & S5 & (w & f & Eio & Sy & Tf & Mf & Uf) & _).
  cbn [call1 call_ops] in *. rewrite S1, S5, Hsure in E. cbn [andb] in E. unfold appender_commit_ in E. rewrite Eio in E.
  destruct (run1 c cs held Commit w) as [[ra w1]| |] eqn:R; try discriminate. cbn [bind set_io a_failed a_adding a_new] in E. rewrite Hf, S2 in E. cbn [negb andb bind] in E. injection E as E.
  destruct (one_step _ w f _ w1 R Sy I) as (os & D & X & (_ & _ & K) & _).
  assert (L : log a' = log a ++ os) by (unfold log; rewrite <- E; cbn [set_protocol set_io set_lock set_new set_txt set_adding a_io]; rewrite Eio; exact D).
  rewrite Hf, S2. cbn [negb andb]. split.
  - rewrite fexec_app, (exec_store_ops _ _ _ L). unfold files_of, disk_of. rewrite S2. rewrite <- E.
    cbn [set_protocol set_io set_lock set_new set_txt set_adding a_io a_txt a_adding a_new a_lock fexec fold_left fexec1 f_store f_txt f_new f_open f_lock]. rewrite Eio, X. reflexivity.
  - exists os. split; [unfold store_ops; rewrite L, skipn_self; reflexivity|]. intros d' C. rewrite <- Tf. apply K; auto.
    + destruct Uf as [Uf|[Uf _]]; [exact Uf|congruence].
    + unfold disk_of in C. rewrite Eio in C. exact C.
Qed.
Lemma rolled_forward a b l a' f1 f2 : FileSpec.cut_law starts -> ainv a b -> open b = Some l -> sure b = true ->
  call1 c cs held tokenize split Commits a = Ok (Nothing, a') -> file_crash true (files_of a) (call_ops Commits a a') f1 -> file_recovers c cs true f1 f2 ->
  holds_texts c cs held tokenize skip stop starts split f2 (kept b ++ l).
Proof.
  intros Hcut Ha Ho Hsure E C R. destruct (commit_goes a b l Ha Ho Hsure) as (a1 & E1 & I1 & _ & os & Eo & K). rewrite E1 in E. injection E as ->.
  destruct (recovers_files _ _ _ _ _ R) as (Rs & Rn & Rl & Rt).
  pose proof (store_crash _ _ _ _ C) as Cs. rewrite Eo, of_store_app, of_store_map in Cs. cbn [of_store flat_map] in Cs. rewrite app_nil_r in Cs.
  destruct (recovers_shape c cs _ _ _ (K _ Cs) Rs) as [Q1 Q2].
  destruct Ha as (Hf & Hk & Hx & Hlen & Hs). unfold state_ok in Hs. rewrite Ho in Hs, Hlen. destruct Hs as (_ & S2 & _ & _ & _ & _ & Hnew & _ & _ & Hl).
  apply (texts_held f2 (kept b ++ l) (a_new a)); auto.
  - rewrite Rt. rewrite (crash_next _ _ _ C).
    + unfold next_txt, files_of. cbn [f_new]. rewrite S2. reflexivity.
    + rewrite Eo. intros o Hi. apply in_app_or in Hi. destruct Hi as [Hi|[<-|[<-|[<-|[]]]]]; auto. apply in_map_iff in Hi. destruct Hi as (x & <- & _). exact I.
  - apply Forall_app. split; assumption.
Qed.
Lemma can_roll_forward f : exists f2, file_recovers c cs true f f2.
Proof.
  assert (Q : exists l, recover c cs true (f_store f) = Ok l) by (unfold recover; cbn [bind]; eauto).
  destruct Q as (l & E). eexists. eapply file_recover_through. unfold recover_files. rewrite E. reflexivity.
Qed.
End Calls.

(** A transaction that cannot begin, because this appender or another has one open, leaves
    the files as they are. *)
Lemma refused_ok c cs held tokenize split a r a' : call1 c cs held tokenize split Transaction a = Ok (r, a') ->
  (a_started a = false -> a_adding a = false) ->
  a_started a = true \/ f_lock (files_of a) = true \/ lock (f_store (files_of a)) = true ->
  r = Yes false /\ fexec (files_of a) (call_ops Transaction a a') = files_of a /\ files_of a' = files_of a.
Proof.
  intros H N L. cbn [call1] in H. unfold call_ops. destruct (a_started a) eqn:S.
  { injection H as <- <-. auto. }
  specialize (N eq_refl). destruct L as [L|L]; [discriminate|]. unfold appender_transaction_ in H.
  change (a_failed (set_protocol false false false a)) with (a_failed a) in H.
  change (a_lock (set_protocol false false false a)) with (a_lock a) in H. cbn [orb].
  destruct (a_failed a); [injection H as <- <-; auto|]. destruct (a_lock a) eqn:K; [injection H as <- <-; auto|].
  destruct L as [L|L]; [cbn in L; congruence|]. cbn [orb].
  change (a_io (set_lock true (set_protocol false false false a))) with (a_io a) in H.
  destruct (match a_io a with inl w => Ok w | inr d => opened c cs held d end) as [w| |] eqn:Ew; try discriminate. cbn [bind] in H.
  assert (dk (s_ w) = f_store (files_of a) /\ done (s_ w) = log a) as [Ed El].
  { unfold files_of, log. cbn [f_store]. destruct (a_io a) as [w0|d]; [injection Ew as <-; auto|].
    unfold opened in Ew. destruct (make c cs held d); try discriminate. cbn [bind] in Ew. injection Ew as <-. auto. }
  assert (exists w', run1 c cs held Begin w = Ok (Flag false, w') /\ s_ w' = s_ w) as (w' & Eb & Es).
  { cbn [run1]. destruct (started w); [exists w; auto|]. unfold transaction_. rewrite Ed, L.
    destruct (read_only (h (s_ w))); cbn [bind]; eexists; split; reflexivity. }
  rewrite Eb in H. cbn [bind] in H. injection H as <- <-. split; [reflexivity|].
  assert (files_of (set_protocol false false false (set_lock false (set_io w' (set_io w (set_lock true (set_protocol false false false a)))))) = files_of a) as EF.
  { unfold files_of. cbn. rewrite N, K, Es, Ed. reflexivity. }
  split; [|exact EF]. unfold store_ops.
  match goal with |- context [log (set_protocol _ _ _ ?x)] => change (log (set_protocol false false false x)) with (done (s_ w')) end.
  rewrite Es, El, skipn_all. cbn [map app].
  match goal with |- context [if ?b then _ else _] => change b with (a_adding a) end. rewrite N. unfold files_of. cbn. rewrite N, K. reflexivity.
Qed.

(** Only a txt of whole records is opened. *)
Lemma whole_records c cs held f x : open_txt c cs held f = Ok (Some x) -> snd (f_txt f) = false.
Proof. unfold open_txt. destruct (snd (f_txt f)); [discriminate|reflexivity]. Qed.
