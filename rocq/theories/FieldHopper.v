(** The hopper of a term over weighted fields answers ahead what it should. *)
From Verif Require Import Base HopperModel GclSpec HopperProofs UnaryProofs ArrayProofs AnswerProofs VectorModel VectorProofs StatsModel StatsHopper FieldModel FieldSpec.

Lemma every_ok (m : forall C, St C -> Z -> res (St C * iv)) (spec : (iv -> Prop) -> Z -> iv -> Prop) :
  (forall C S I, hop_ok C S I -> forall s k, I s -> minf <= k <= maxf -> wp (m C s k) (fun '(s', r) => I s' /\ spec S k r)) ->
  forall Cs Ss J, vec_ok Cs Ss J -> forall s k, J s -> minf <= k <= maxf ->
  wp (every m Cs s k) (fun '(s', xs) => J s' /\ Forall2 (fun S x => spec S k x) Ss xs).
Proof.
  intros Hm Cs Ss J V. induction V as [|C Cs S Ss I J HC V IH]; intros s k Hs Hk; cbn [every].
  - apply wp_ok. auto.
  - destruct Hs as [H1 H2]. step (Hm C S I HC) as [a x]; [exact H1|exact Hk|intros [Ha Hx]].
    step IH as [b l]; [exact H2|exact Hk|intros [Hb Hl]]. apply wp_ok. auto.
Qed.

(** The value of an item at [p] from the lists of the fields. *)
Definition value_at (fzero : Z) (fadd fmul : Z -> Z -> Z) (p : Z) (wls : list (Z * list iv)) : Z :=
  fold_left (fun v '(w, l) => match find (fun x => ip x =? p) l with Some x => fadd v (fmul w (ivl x)) | None => v end) wls fzero.

Lemma fold_min_le l : forall a, fold_left Z.min l a <= a /\ forall x, In x l -> fold_left Z.min l a <= x.
Proof.
  induction l as [|y l IH]; intros a; cbn [fold_left]; [split; [lia|intros x []]|].
  destruct (IH (Z.min a y)) as [H1 H2]. split; [lia|]. intros x [<-|Hx]; [lia|exact (H2 x Hx)].
Qed.
Lemma fold_min_in l : forall a, fold_left Z.min l a = a \/ In (fold_left Z.min l a) l.
Proof.
  induction l as [|y l IH]; intros a; cbn [fold_left]; [auto|].
  destruct (IH (Z.min a y)) as [E|H]; [|right; right; exact H].
  rewrite E. destruct (Z.min_spec a y) as [[_ ->]|[_ ->]]; [auto|right; left; reflexivity].
Qed.

Section Ok.
Context (Cs : list hcls) (C : hcls) (weights : list Z) (fadd fmul : Z -> Z -> Z).
Context (Ls : list (list iv)) (J : tup Cs -> Prop) (V : vec_ok Cs (map set_of Ls) J) (NE : Ls <> []).
Context (SC : iv -> Prop) (IC : St C -> Prop) (HC : hop_ok C SC IC).
Context (LW : length weights = length Ls).
Context (Z0 : forall w, In w weights -> fadd 0 (fmul w 0) = 0).
Context (GL : Forall gclist Ls).
Context (HP : forall l x, In l Ls -> In x l -> exists y, SC y /\ ip y = ip x).
Notation value p := (value_at 0 fadd fmul p (combine weights Ls)).

Definition gathered (z : iv) : Prop :=
  exists y, SC y /\ (exists l x, In l Ls /\ In x l /\ ip x = ip y) /\ z = Iv (ip y) (iq y) (value (ip y)).
Notation S := gathered.

Lemma gathered_GC : GC S.
Proof.
  split.
  - intros z (y & Hy & _ & ->). apply (hop_GC HC) in Hy. exact Hy.
  - intros z z' (y & Hy & _ & ->) (y' & Hy' & _ & ->) N.
    assert (y = y') as <- by (apply (hop_GC HC); [exact Hy|exact Hy'|exact N]). reflexivity.
Qed.
Notation P := (fun s : tup Cs * St C => J (fst s) /\ IC (snd s)).
Notation I := (Iof P S).

Lemma every_left s k : I s -> minf <= k <= maxf ->
  wp (on_left (every h_tau Cs) s k) (fun '(s', xs) => I s' /\ Forall2 (fun l x => tau_spec (set_of l) k x) Ls xs).
Proof.
  intros [[P1 P2] M] Hk. unfold on_left. destruct (sub s) as [t c] eqn:E. cbn [fst snd] in P1, P2.
  step (every_ok h_tau tau_spec (fun C S I H => hop_tau H) Cs _ J V) as [t' xs]; [exact P1|exact Hk|intros [Ht Hx]].
  apply wp_ok. split; [split; [split; assumption|exact M]|].
  clear - Hx. remember (map set_of Ls) as Ss eqn:E. revert Ls E. induction Hx as [|Q x Ss xs H Hx IH]; intros [|l Ls] E; try discriminate; constructor.
  - injection E as -> _. exact H.
  - injection E as _ E. apply IH. exact E.
Qed.
Lemma right_content (f : St C -> Z -> res (St C * iv)) spec :
  (forall s k, IC s -> minf <= k <= maxf -> wp (f s k) (fun '(s', r) => IC s' /\ spec k r)) ->
  forall s k, I s -> minf <= k <= maxf -> wp (on_right f s k) (fun '(s', r) => I s' /\ spec k r).
Proof.
  intros H s k [[P1 P2] M] Hk. unfold on_right. destruct (sub s) as [t c] eqn:E. cbn [fst snd] in P1, P2.
  step H as [t' r]; [exact P2|exact Hk|intros [Ht Hr]]. apply wp_ok. split; [|exact Hr]. split; [split; assumption|exact M].
Qed.

Lemma fin_L l x : In l Ls -> In x l -> minf < ip x < maxf.
Proof. intros Hl Hx. rewrite Forall_forall in GL. pose proof (gclist_finite l x (GL l Hl) Hx). fin. Qed.
Lemma fin_C x : SC x -> minf < ip x < maxf /\ ip x <= iq x < maxf.
Proof. intros H. apply (hop_GC HC) in H. fin. Qed.

(** All lists at their end. *)
Lemma weigh_nothing p : forall ws xs, (forall w, In w ws -> fadd 0 (fmul w 0) = 0) -> (forall x, In x xs -> ivl x = 0) ->
  weigh fadd fmul p ws xs 0 = 0.
Proof.
  induction ws as [|w ws IH]; intros xs Hw Hx; [reflexivity|]. destruct xs as [|x xs]; [reflexivity|]. cbn [weigh].
  rewrite (Hx x (or_introl eq_refl)). rewrite (Hw w (or_introl eq_refl)). rewrite Tauto.if_same.
  apply IH; [intros w' Hw'; apply Hw; right; exact Hw'|intros x' Hx'; apply Hx; right; exact Hx'].
Qed.
(** The lists at [p] are those with an entry there. *)
Lemma weigh_value p k : k <> minf -> p < maxf -> k <= p ->
  forall ws ls xs v, Forall gclist ls -> Forall2 (fun l x => tau_spec (set_of l) k x) ls xs -> (forall x, In x xs -> p <= ip x) ->
  weigh fadd fmul p ws xs v =
  fold_left (fun v '(w, l) => match find (fun x => ip x =? p) l with Some x => fadd v (fmul w (ivl x)) | None => v end) (combine ws ls) v.
Proof.
  intros Nk Hp Kp. induction ws as [|w ws IH]; intros ls xs v G F M; [reflexivity|].
  destruct F as [|l x ls xs T F]; [reflexivity|]. cbn [weigh combine fold_left]. inversion G as [|? ? Gl G']; subst.
  rewrite (IH ls xs _ G' F) by (intros z Hz; apply M; right; exact Hz). f_equal.
  specialize (M x (or_introl eq_refl)). destruct (find (fun x => ip x =? p) l) as [e|] eqn:E.
  - apply find_some in E. destruct E as [He Ep]. apply Z.eqb_eq in Ep.
    destruct T as [[? _]|[_ [(Tx & Kx & Mx)|[-> Mx]]]]; [congruence| |specialize (Mx e He); lia].
    specialize (Mx e He ltac:(lia)).
    assert (x = e) as -> by (apply (GC_eq_ip (set_of l)); [apply gclist_GC; exact Gl|exact Tx|exact He|lia]).
    rewrite (proj2 (Z.eqb_eq _ _) Ep). reflexivity.
  - destruct (ip x =? p) eqn:Q; [|reflexivity]. apply Z.eqb_eq in Q.
    destruct T as [[? _]|[_ [(Tx & _)|[-> _]]]]; [congruence| |cbn [ip] in Q; lia].
    pose proof (find_none _ _ E x Tx) as N. cbv beta in N. lia.
Qed.

Lemma in_right {A B} (R : A -> B -> Prop) l m : Forall2 R l m -> forall b, In b m -> exists a, In a l /\ R a b.
Proof. induction 1 as [|a b l m H F IH]; intros c []; [subst; exists a; split; [left; reflexivity|exact H]|]. destruct (IH c H0) as (a' & ? & ?). exists a'. split; [right|]; assumption. Qed.
Lemma in_left {A B} (R : A -> B -> Prop) l m : Forall2 R l m -> forall a, In a l -> exists b, In b m /\ R a b.
Proof. induction 1 as [|a b l m H F IH]; intros c []; [subst; exists b; split; [left; reflexivity|exact H]|]. destruct (IH c H0) as (a' & ? & ?). exists a'. split; [right|]; assumption. Qed.

Lemma ft_tau_ok : meth_ok P S tau_spec (ft_tau_ Cs C weights 0 fadd fmul).
Proof.
  intros s k Hs Hk. unfold ft_tau_. inf.
  step every_left as [s1 xs]; [exact Hs|exact Hk|intros [H1 F]].
  set (p := fold_left Z.min (map ip xs) maxf).
  assert (minf <= p <= maxf) as Bp.
  { destruct (fold_min_le (map ip xs) maxf) as [U _]. split; [|exact U]. destruct (fold_min_in (map ip xs) maxf) as [E|Hi]; [subst p; lia|].
    fold p in Hi. apply in_map_iff in Hi. destruct Hi as (x & E & Hx). destruct (in_right _ _ _ F x Hx) as (l & Hl & T).
    destruct T as [[_ ->]|[_ [(Tx & _)|[-> _]]]]; cbn [ip] in E; try lia. pose proof (fin_L l x Hl Tx). lia. }
  assert (forall x, In x xs -> p <= ip x) as Mp by (intros x Hx; apply fold_min_le, in_map, Hx).
  step (right_content (h_tau C) (tau_spec SC)) as [s2 y]; [exact (hop_tau HC)|exact H1|exact Bp|intros [H2 Hy]].
  apply wp_ok. split; [exact H2|].
  destruct (Z.eq_dec k minf) as [->|Nk].
  { assert (forall x, In x xs -> x = minr) as A.
    { intros x Hx. destruct (in_right _ _ _ F x Hx) as (l & Hl & [[_ ->]|[N _]]); [reflexivity|congruence]. }
    assert (p = minf) as Ep.
    { destruct Ls as [|l Ls']; [congruence|]. inversion F as [|? x ? xs' T F']; subst. specialize (Mp x (or_introl eq_refl)). rewrite (A x (or_introl eq_refl)) in Mp. cbn [ip minr] in Mp. lia. }
    rewrite Ep in Hy. destruct Hy as [[_ ->]|[N _]]; [|congruence]. cbn [ip iq]. rewrite weigh_nothing; [left; auto|exact Z0|intros x Hx; rewrite (A x Hx); reflexivity]. }
  right. split; [exact Nk|].
  destruct (Z.eq_dec p maxf) as [Ep|Np].
  - assert (forall x, In x xs -> x = maxr) as A.
    { intros x Hx. specialize (Mp x Hx). destruct (in_right _ _ _ F x Hx) as (l & Hl & [[E _]|[_ [(Tx & _)|[-> _]]]]); [congruence| |reflexivity]. pose proof (fin_L l x Hl Tx). lia. }
    right. split.
    + rewrite Ep in Hy. destruct Hy as [[E _]|[_ [(Sy & Ky & _)|[-> _]]]]; [lia|pose proof (fin_C y Sy); lia|]. cbn [ip iq].
      rewrite weigh_nothing; [reflexivity|exact Z0|intros x Hx; rewrite (A x Hx); reflexivity].
    + intros z (c & Hc & (l & x & Hl & Hx & E) & ->). cbn [ip]. destruct (in_left _ _ _ F l Hl) as (x' & Hx' & T).
      rewrite (A x' Hx') in T. destruct T as [[E' _]|[_ [(Tx & _)|[_ M]]]]; [congruence|pose proof (fin_L l _ Hl Tx); cbn [ip maxr] in *; lia|].
      specialize (M x Hx). lia.
  - assert (exists l x, In l Ls /\ In x l /\ ip x = p /\ k <= p) as (l & x & Hl & Hx & Ex & Kx).
    { destruct (fold_min_in (map ip xs) maxf) as [E|Hi]; [subst p; congruence|]. fold p in Hi. apply in_map_iff in Hi. destruct Hi as (x & E & Hx).
      destruct (in_right _ _ _ F x Hx) as (l & Hl & [[E' _]|[_ [(Tx & Kx & _)|[-> _]]]]); [congruence| |cbn [ip] in E; lia]. exists l, x. rewrite <- E. auto. }
    destruct (HP l x Hl Hx) as (c & Hc & Ec). rewrite Ex in Ec. rewrite <- Ec in Hy.
    assert (y = c) as ->.
    { pose proof (fin_C c Hc). destruct Hy as [[E _]|[_ [(Sy & Ky & My)|[_ My]]]]; [lia| |specialize (My c Hc); lia].
      specialize (My c Hc ltac:(lia)). apply (GC_eq_ip SC); [exact (hop_GC HC)|exact Sy|exact Hc|lia]. }
    left. split; [|split].
    + exists c. split; [exact Hc|]. split; [exists l, x; split; [exact Hl|split; [exact Hx|congruence]]|]. f_equal.
      rewrite Ec. unfold value_at. apply (weigh_value p k); try assumption. lia.
    + cbn [ip]. lia.
    + intros z (c' & Hc' & (l' & x' & Hl' & Hx' & E') & ->) Kz. cbn [ip] in *. rewrite Ec, <- E'.
      destruct (in_left _ _ _ F l' Hl') as (x'' & Hx'' & T). specialize (Mp x'' Hx'').
      destruct T as [[E'' _]|[_ [(Tx & _ & M)|[_ M]]]]; [congruence|specialize (M x' Hx' ltac:(lia)); lia|specialize (M x' Hx'); lia].
Qed.

Lemma mono_C a b : SC a -> SC b -> (ip a <= ip b <-> iq a <= iq b).
Proof.
  intros Ha Hb. split; intros E.
  - destruct (Z.eq_dec (ip a) (ip b)) as [Q|Q]; [rewrite (GC_eq_ip SC a b (hop_GC HC) Ha Hb Q); lia|].
    pose proof (GC_mono_pq SC a b (hop_GC HC) Ha Hb). lia.
  - destruct (Z.eq_dec (iq a) (iq b)) as [Q|Q]; [rewrite (GC_eq_iq SC a b (hop_GC HC) Ha Hb Q); lia|].
    pose proof (GC_mono_qp SC a b (hop_GC HC) Ha Hb). lia.
Qed.

Lemma ft_rho_ok : meth_ok P S rho_spec (ft_rho_ Cs C weights 0 fadd fmul).
Proof.
  intros s k Hs Hk. unfold ft_rho_. inf.
  step (right_content (h_rho C) (rho_spec SC)) as [s1 c]; [exact (hop_rho HC)|exact Hs|exact Hk|intros [H1 Hc]].
  assert (minf <= ip c <= maxf) as Bc.
  { destruct Hc as [[_ ->]|[_ [(Hc & _)|[-> _]]]]; cbn [ip]; try lia. pose proof (fin_C c Hc). lia. }
  eapply wp_mono; [apply (memo_tau_ok P S _ ft_tau_ok); [exact H1|exact Bc]|]. intros [s' r] [H2 T]. split; [exact H2|].
  destruct Hc as [[-> ->]|[N Hc]].
  - cbn [ip] in T. destruct T as [[_ ->]|[Q _]]; [left; auto|congruence].
  - right. split; [exact N|].
    assert (ip c <> minf) as Nc by (destruct Hc as [(Hc & _)|[-> _]]; cbn [ip]; [pose proof (fin_C c Hc); lia|lia]).
    assert (forall z, S z -> k <= iq z <-> ip c <= ip z) as K.
    { intros z (y & Hy & _ & ->). cbn [ip iq]. pose proof (fin_C y Hy). destruct Hc as [(Hc & Kc & Mc)|[-> Mc]].
      - rewrite (mono_C c y Hc Hy). split; intros L; [apply Mc; assumption|lia].
      - specialize (Mc y Hy). cbn [ip]. lia. }
    assert (forall a b, S a -> S b -> ip a <= ip b -> iq a <= iq b) as Mo.
    { intros a b (y & Hy & _ & ->) (y' & Hy' & _ & ->). cbn [ip iq]. apply mono_C; assumption. }
    destruct T as [[E _]|[_ [(Sr & Kr & Mr)|[-> Mr]]]]; [congruence| |].
    + left. split; [exact Sr|]. split; [apply K; assumption|]. intros z Sz Kz. apply Mo; [exact Sr|exact Sz|]. apply Mr; [exact Sz|]. apply K; assumption.
    + right. split; [reflexivity|]. intros z Sz. destruct (Z_lt_le_dec (iq z) k) as [L|L]; [exact L|]. apply K in L; [|exact Sz]. specialize (Mr z Sz). lia.
Qed.

Lemma ft_ahead s : I s -> answers_ahead (ft_hopper Cs C weights 0 fadd fmul) s S.
Proof.
  intros Hs. split; [exact gathered_GC|]. intros h Hh. revert s Hs. induction Hh as [|[m k] h [Hk Hm] Hh IH]; intros s Hs; [exists []; split; [reflexivity|constructor]|].
  cbn [fst snd] in Hk, Hm.
  assert (wp (call (ft_hopper Cs C weights 0 fadd fmul) s m k) (fun '(s', r) => I s' /\ answer S (m, k) r)) as W.
  { destruct m; try discriminate; cbn [call h_tau h_rho h_R ft_hopper answer].
    - apply (memo_tau_ok P S _ ft_tau_ok); assumption.
    - apply (memo_rho_ok P S _ ft_rho_ok); assumption.
    - apply wp_bind. eapply wp_mono; [apply (base_R_ok P S _ (memo_tau_ok P S _ ft_tau_ok)); assumption|].
      intros [s' l] [A B]. apply wp_ok. split; [exact A|]. exists l. auto. }
  apply wp_exists in W. destruct W as ([s' r] & E & Hs' & Ha). destruct (IH s' Hs') as (rs & Er & F).
  exists (r :: rs). split; [|constructor; assumption].
  change (run (ft_hopper Cs C weights 0 fadd fmul) s ((m, k) :: h)) with (bind (call (ft_hopper Cs C weights 0 fadd fmul) s m k) (fun '(s', r) => bind (run (ft_hopper Cs C weights 0 fadd fmul) s' h) (fun rs => Ok (r :: rs)))).
  rewrite E. cbn [bind]. rewrite Er. reflexivity.
Qed.
End Ok.
