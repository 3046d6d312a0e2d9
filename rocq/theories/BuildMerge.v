(** Making one index of the files of lists a builder has written. *)
From Verif Require Import Base HopperModel ArrayDefs GclSpec ArrayProofs UnaryProofs Bytes CodecModel CodecSpec CodecProofs PostingModel PostingSpec PostingProofs PostingIO
  ShardModel ShardSpec ShardProofs HazelSpec HazelProofs SingleModel SingleSpec SingleLookup SingleMerge BuildModel.
From Verif Require TokenModel ChunkModel PlainModel.

(** * Lists one after the other *)
Lemma gcdup_app a : forall b, gcdup a -> gcdup b -> (forall x y, In x a -> In y b -> (ip x < ip y /\ iq x < iq y) \/ x = y) -> gcdup (a ++ b).
Proof.
  induction a as [|x a IH]; intros b A B H; [exact B|]. cbn [app]. pose proof (gcdup_tail _ _ A) as A'.
  assert (K : gcdup (a ++ b)) by (apply IH; [exact A'|exact B|]; intros u v Hu Hv; apply H; [right; exact Hu|exact Hv]).
  split; [apply A|]. split; [|exact K]. destruct a as [|y a]; cbn [app] in *; [|apply A]. destruct b as [|y b]; [exact Logic.I|]. apply H; left; reflexivity.
Qed.
Lemma gcdup_concat ls : Forall gcdup ls ->
  (forall i j l m x y, (i < j)%nat -> nth_error ls i = Some l -> nth_error ls j = Some m -> In x l -> In y m -> (ip x < ip y /\ iq x < iq y) \/ x = y) ->
  gcdup (concat ls).
Proof.
  induction 1 as [|l ls G _ IH]; intros H; [exact Logic.I|]. cbn [concat]. apply gcdup_app; [exact G| |].
  - apply IH. intros i j a b x y L A B. apply (H (S i) (S j) a b x y); [lia|exact A|exact B].
  - intros x y Hx Hy. apply in_concat in Hy. destruct Hy as (m & Hm & Hy). apply In_nth_error in Hm. destruct Hm as [j Hm].
    apply (H 0%nat (S j) l m x y); [lia|reflexivity|exact Hm|exact Hx|exact Hy].
Qed.

Section Merge.
Variables cp cf : compressor.
Hypothesis stores : stores_lists cp cf.

(** What the loop makes of indexes: the lists of each feature one after the other. *)
Definition joined (Rs : list index) (ix : index) : Prop :=
  index_ok ix /\ (forall f, fiver_count ix f <= bigwig_count Rs f) /\
  (forall f, In f (map fst ix) -> exists R, In R Rs /\ In f (map fst R)) /\
  forall f ls, Forall2 (lst_of f) Rs ls -> good_opt f (find_posting ix f) (concat ls).
Definition lined (Rs : list index) : Prop := forall f ls, Forall2 (lst_of f) Rs ls -> gcdup (concat ls).
Lemma append_all_ok f Rs ls : Forall2 (lst_of f) Rs ls -> forall m l, holds m l -> feature m = f ->
  exists p, append_all m (postings_of Rs f) = Ok p /\ holds p (l ++ concat ls) /\ feature p = f.
Proof.
  induction 1 as [|R k Rs ls L _ IH]; intros m l H F; cbn [postings_of flat_map concat]; [exists m; rewrite app_nil_r; auto|].
  change (flat_map _ Rs) with (postings_of Rs f). destruct L as [N|p k Fp Ff Hp _ _ _].
  - rewrite N. cbn [app]. apply IH; assumption.
  - rewrite Fp. cbn [app append_all]. destruct (append_holds m p l k H Hp ltac:(congruence)) as (r & -> & Hr & Fr). cbn [bind].
    destruct (IH r (l ++ k) Hr ltac:(congruence)) as (q & -> & Hq & Fq). exists q. rewrite app_assoc. auto.
Qed.
Lemma empty_holds f : holds (posting_from_feature f) [].
Proof. split; [left; reflexivity|]. split; [left; reflexivity|]. intros i. destruct i; reflexivity. Qed.
Lemma lists_values f Rs ls : Forall2 (lst_of f) Rs ls -> Forall value_ok (concat ls).
Proof. induction 1 as [|R k Rs ls L _ IH]; [constructor|]. cbn. apply Forall_app. split; [|exact IH]. destruct L; [constructor|assumption]. Qed.
Lemma joined_nil Rs : heads Rs = [] -> joined Rs [].
Proof.
  intros H. destruct (merged_nil Rs H) as (A & B & C & D). pose proof (no_heads Rs H) as E.
  split; [exact A|]. split; [exact B|]. split; [exact C|]. intros f ls F. cbn. clear A B C D H.
  induction F as [|R l Rs ls L _ IH]; [reflexivity|]. cbn. destruct L as [|p l Fp]; [apply IH; intros R' K; apply E; right; exact K|]. rewrite (E R (or_introl eq_refl)) in Fp. discriminate.
Qed.
Lemma lined_drop Rs f : Forall index_ok Rs -> (forall g, In g (heads Rs) -> f <= g) -> lined Rs -> lined (map (drop_head f) Rs).
Proof.
  intros O Mn H g ls F. destruct (Z.eq_dec g f) as [->|Ne].
  - pose proof (drop_above Rs f O Mn) as Ab. assert (E : concat ls = []); [|rewrite E; exact Logic.I].
    clear H O Mn. set (D := map (drop_head f) Rs) in *. clearbody D. induction F as [|R l D ls L _ IH]; [reflexivity|]. cbn. rewrite IH by (intros R' h HR; apply Ab; right; exact HR).
    destruct L as [N|p l Fp]; [reflexivity|]. apply find_some_in in Fp. destruct (Ab R f (or_introl eq_refl) Fp). lia.
  - apply (H g). clear H Mn. revert ls F. induction O as [|R Rs O1 O2 IH]; intros ls F; inversion F as [|? l ? ls' L F']; subst; [constructor|]. constructor; [|apply IH; exact F'].
    apply (lst_find g (drop_head f R)); [|exact L]. rewrite drop_find by exact O1. replace (g =? f) with false by lia. reflexivity.
Qed.
Lemma build_loop_ok n : forall Rs ss m out, (rows Rs <= n)%nat -> Forall index_ok Rs -> (forall f, bigwig_count Rs f <= 288230376151711743) -> lined Rs -> Forall2 (SingleMerge.reads cp cf) Rs ss ->
  exists ix m' out', build_loop cp cf n ss m out = Ok (m ++ m', out ++ out') /\ filed cp cf (len out) ix m' out' /\ joined Rs ix.
Proof.
  induction n as [|n IH]; intros Rs ss m out L O Sm Ln F; pose proof (least_ok cp cf Rs ss F None) as Lf; cbn [build_loop]; destruct (least_feature None ss) as [f|] eqn:El.
  - exfalso. destruct Lf as ([A|A] & _ & _); [discriminate|]. destruct (rows_drop f Rs) as [_ K]. specialize (K A). lia.
  - exists [], [], []. rewrite !app_nil_r. split; [reflexivity|]. split; [constructor|]. apply joined_nil. apply Lf.
  - destruct Lf as ([A|A] & _ & Mn); [discriminate|]. rewrite (with_feature_ok cp cf Rs ss f F O Mn).
    destruct (rows_lst Rs f O) as (ls & Ls). destruct (append_all_ok f Rs ls Ls (posting_from_feature f) [] (empty_holds f) eq_refl) as (p & Em & Hp & Fp). cbn [app] in Hp.
    set (l := concat ls) in *. pose proof (Ln f ls Ls) as Gl. fold l in Gl. pose proof (lists_values f Rs ls Ls) as Vl. fold l in Vl. rewrite Em. cbn [bind]. rewrite (invariants_ok p l Hp Gl). cbn [negb].
    assert (Nl : l <> []).
    { intros E. apply in_flat_map in A. destruct A as (R & HR & A). destruct R as [|[g q] r]; [destruct A|]. destruct A as [->|[]]. unfold l in E. clear -Ls HR E.
      induction Ls as [|R' k Rs ls L _ IH]; [destruct HR|]. cbn in E. apply app_eq_nil in E. destruct E as [E1 E2]. destruct HR as [->|HR]; [|exact (IH HR E2)].
      destruct L as [N|p' k Fp A B C]; [rewrite find_head in N; discriminate|contradiction]. }
    assert (Rg : forall x, In x l -> 0 <= f < maxf /\ 0 <= ip x /\ is_addr (ivl x)) by (intros x Hx; apply (rows_range Rs f ls x O Ls); exact Hx).
    assert (Hf : 0 <= f < maxf) by (destruct l as [|x l0]; [congruence|apply (Rg x (or_introl eq_refl))]).
    assert (Cl : bigwig_count Rs f = Z.of_nat (length l)) by exact (lsts_count f Rs ls Ls).
    assert (St : storable cp cf p).
    { apply (stores p l Hp Gl); [rewrite Forall_forall; intros x Hx; apply (Rg x Hx)|rewrite Fp; unfold is_addr, minf, maxf in *; lia|]. specialize (Sm f). unfold len. lia. }
    destruct (write_read cp cf p l Hp St) as (b & Wb & _). rewrite Wb. cbn [bind].
    destruct (step_ok cp cf stores f Rs ss O (small_each Rs O Sm) F) as (ss' & Es & Fs). rewrite Es. cbn [bind].
    assert (O' : Forall index_ok (map (drop_head f) Rs)) by (rewrite Forall_map; eapply Forall_impl; [|exact O]; intros R; apply drop_ok).
    destruct (IH (map (drop_head f) Rs) ss' (m ++ [(f, len (out ++ b))]) (out ++ b)) as (ix & m' & out' & El' & Fd & Mo & Mc & Mf & Ms); [destruct (rows_drop f Rs) as [_ K]; specialize (K A); lia|exact O'|intros g; pose proof (bigwig_drop f Rs g O); specialize (Sm g); lia|exact (lined_drop Rs f O Mn Ln)|exact Fs|].
    exists ((f, p) :: ix), ((f, len (out ++ b)) :: m'), (b ++ out'). split; [rewrite El', <- !app_assoc; reflexivity|].
    split; [rewrite len_app; constructor; [exact Wb|rewrite <- len_app; exact Fd]|].
    pose proof (drop_above Rs f O Mn) as Ab.
    split; [split|split; [|split]].
    + destruct Mo as [Mo _]. apply order_cons; [exact Mo|]. intros g Hg. destruct (Mf g Hg) as (R & HR & HgR). apply (Ab R g HR HgR).
    + constructor; [|apply Mo]. split; [exact Hf|]. cbn [fst snd]. split; [split; [exact Fp|exists l; auto]|]. intros i x Hx. destruct Hp as (_ & _ & Hp). rewrite Hp in Hx. injection Hx as Hx. apply (Rg x). exact (nth_error_In _ _ Hx).
    + intros g. unfold fiver_count. cbn [find_posting]. destruct (Z.eqb_spec f g) as [->|Ne]; [rewrite (holds_psize _ _ Hp); unfold len; lia|].
      specialize (Mc g). unfold fiver_count in Mc. pose proof (bigwig_drop f Rs g O). lia.
    + intros g [<-|Hg]; [apply in_flat_map in A; destruct A as (R & HR & A); exists R; split; [exact HR|]; destruct R as [|[h q] r]; [destruct A|]; destruct A as [->|[]]; left; reflexivity|].
      destruct (Mf g Hg) as (R & HR & HgR). apply (Ab R g HR HgR).
    + intros g ks Ks. cbn [find_posting]. destruct (Z.eqb_spec f g) as [->|Ne].
      * destruct (append_all_ok g Rs ks Ks (posting_from_feature g) [] (empty_holds g) eq_refl) as (p' & Em' & Hp' & _). rewrite Em in Em'. injection Em' as <-.
        assert (E : concat ks = l) by (destruct Hp as (_ & _ & Hp); destruct Hp' as (_ & _ & Hp'); apply nth_error_ext; intros i; specialize (Hp i); specialize (Hp' i); cbn [app] in Hp'; congruence).
        rewrite E. split; [exact Fp|]. auto.
      * apply Ms. apply postings_drop; [lia|exact O|exact Ks].
  - exists [], [], []. rewrite !app_nil_r. split; [reflexivity|]. split; [constructor|]. apply joined_nil. apply Lf.
Qed.
Theorem build_index_ok Ts As tq aq : Ts <> [] -> Forall index_ok (Ts ++ As) -> (forall f, bigwig_count (Ts ++ As) f <= 288230376151711743) -> lined (Ts ++ As) ->
  Forall2 (fun R b => exists o m, filed cp cf o R m b) Ts tq -> Forall2 (fun R b => exists o m, filed cp cf o R m b) As aq ->
  exists ix m out, build_index cp cf tq aq = Ok (map_bytes m, out) /\ filed cp cf 0 ix m out /\ joined (Ts ++ As) ix.
Proof.
  intros N O Sm Ln F1 F2. pose proof (small_each _ O Sm) as S. pose proof (Forall2_app F1 F2) as F. unfold build_index.
  destruct tq as [|b tq]; [inversion F1; subst; congruence|]. remember (b :: tq) as q eqn:Eq. clear Eq b tq.
  destruct (advance_all_ok cp cf stores _ _ O S F) as (ss & Ea & Fs). rewrite Ea. cbn [bind].
  destruct (build_loop_ok (length (concat (q ++ aq))) (Ts ++ As) ss [] []) as (ix & m & out & E & Fd & M); [|exact O|exact Sm|exact Ln|exact Fs|].
  - clear -O S F stores. unfold rows. induction F as [|R b Rs bs (o & m & F) _ IH]; [cbn; lia|]. inversion O; inversion S; subst. cbn [concat]. rewrite !app_length. pose proof (filed_rows cp cf stores o R m b) as K. specialize (K ltac:(assumption) ltac:(assumption) F). specialize (IH ltac:(assumption) ltac:(assumption)). lia.
  - rewrite E. cbn [bind app]. exists ix, m, out. split; [reflexivity|]. split; assumption.
Qed.
End Merge.
