(** Freezing and cooking configurations. *)
From Verif Require Import Base Bytes RecipeModel RecipeSpec.

Lemma conf_ind' (Q : conf -> Prop) : (forall v, Q (Str v)) -> (forall l, (forall k t, In (k, t) l -> Q t) -> Q (Map l)) -> forall t, Q t.
Proof.
  intros HS HM. fix IH 1. intros [v|l]; [apply HS|]. apply HM. revert l. fix IHl 1. intros [|[k t] l] k' t' H; [destruct H|]. destruct H as [E|H]; [injection E as _ <-; apply IH|]. apply (IHl l k' t' H).
Qed.
Lemma pairs_impl {A B C} (P : A -> B -> Prop) (Q : C -> B -> Prop) l : forall m m', pairs P m l -> (forall k v t, In (k, v) m -> In (k, t) l -> P v t -> True) -> pairs Q m' l -> map fst m = map fst m'.
Proof. induction l as [|[k t] l IH]; intros [|[k1 v1] m] [|[k2 v2] m'] H _ H'; cbn in *; try contradiction; auto. destruct H as (-> & _ & H). destruct H' as (-> & _ & H'). f_equal. eapply IH; eauto. Qed.
Lemma pairs_mono {A B} (P Q : A -> B -> Prop) l : forall m, (forall k v t, In (k, v) m -> In (k, t) l -> P v t -> Q v t) -> pairs P m l -> pairs Q m l.
Proof.
  induction l as [|[k t] l IH]; intros [|[k1 v1] m] F H; cbn in *; auto. destruct H as (-> & H1 & H). split; [reflexivity|]. split; [eapply F; [left; reflexivity|left; reflexivity|exact H1]|]. apply IH; [|exact H]. intros k' v' t' I1 I2. apply (F k'); auto.
Qed.
Lemma every_in {A} (P : A -> Prop) l : every P l <-> forall k t, In (k, t) l -> P t.
Proof.
  induction l as [|[k t] l IH]; cbn; [split; [intros _ k t []|auto]|]. rewrite IH. split.
  - intros [H1 H2] k' t' [E|H]; [injection E as _ <-; exact H1|eauto].
  - intros H. split; [apply (H k); auto|]. intros k' t' H'. apply (H k'). auto.
Qed.
Lemma pairs_ordered {A B} (P : A -> B -> Prop) l : forall m, pairs P m l -> ordered m <-> ordered l.
Proof.
  induction l as [|[k t] l IH]; intros [|[k1 v1] m] H; cbn in *; try contradiction; [tauto|]. destruct H as (-> & _ & H). rewrite (IH m H). destruct m as [|[k2 v2] m], l as [|[k3 t3] l]; cbn in H; try contradiction; [tauto|]. destruct H as (-> & _). tauto.
Qed.

Ltac is_const_z b := match b with Z0 => idtac | Zpos ?p => idtac end.
Ltac zz := repeat match goal with
  | |- context [Z.eqb (Zpos ?a) ?b] => is_const_z b; let r := eval vm_compute in (Z.eqb (Zpos a) b) in change (Z.eqb (Zpos a) b) with r
  | |- context [Z.leb (Zpos ?a) (Zpos ?b)] => let r := eval vm_compute in (Z.leb (Zpos a) (Zpos b)) in change (Z.leb (Zpos a) (Zpos b)) with r
  end; cbn [andb orb negb].

(** * Order of names *)
Lemma before_trans a : forall b c, before a b = true -> before b c = true -> before a c = true.
Proof.
  induction a as [|x a IH]; intros [|y b] [|z c] H1 H2; cbn in *; try discriminate; auto. apply orb_true_iff in H1, H2. apply orb_true_iff. destruct H1 as [H1|H1].
  - destruct H2 as [H2|H2]; [left; lia|]. apply andb_prop in H2. left. lia.
  - apply andb_prop in H1. destruct H1 as [E1 H1]. destruct H2 as [H2|H2]; [left; lia|]. apply andb_prop in H2. destruct H2 as [E2 H2]. right. rewrite (IH b c H1 H2). rewrite andb_true_r. lia.
Qed.
Lemma before_irrefl a : before a a = false.
Proof. induction a as [|x a IH]; [reflexivity|]. cbn. rewrite Z.ltb_irrefl, Z.eqb_refl, IH. reflexivity. Qed.
Lemma before_total a : forall b, a <> b -> before a b = false -> before b a = true.
Proof.
  induction a as [|x a IH]; intros [|y b] N H; cbn in *; try discriminate; auto; try contradiction. apply orb_false_iff in H. destruct H as [H1 H2]. destruct (Z.eqb_spec x y) as [->|Nx].
  - cbn in H2. rewrite Z.eqb_refl, (IH b); [apply orb_true_r| |exact H2]. congruence.
  - replace (y <? x) with true by lia. reflexivity.
Qed.
Lemma ordered_after {A} (m : list (bytes * A)) : forall k v, ordered ((k, v) :: m) -> forall k' v', In (k', v') m -> before k k' = true.
Proof.
  induction m as [|[k1 v1] m IH]; intros k v H k' v' I; [destruct I|]. cbn in H. destruct H as (_ & H1 & Hm). destruct I as [E|I]; [injection E as <- _; exact H1|]. apply (before_trans k k1 k' H1). apply (IH k1 v1 Hm k' v' I).
Qed.
Lemma put_ordered {A} k (v : A) m : name k -> ordered m -> ordered (put k v m).
Proof.
  intros N. induction m as [|[k1 v1] m IH]; intros H; [cbn; auto|]. cbn [put]. destruct (eqb_bytes k k1) eqn:E; [apply eqb_bytes_eq in E; subst; exact H|]. apply eqb_bytes_neq in E. destruct (before k k1) eqn:L; [cbn; auto|].
  pose proof H as (N1 & H1 & Hm). specialize (IH Hm). split; [exact N1|]. split; [|exact IH]. destruct m as [|[k2 v2] m]; cbn [put]; [apply before_total; assumption|]. destruct (eqb_bytes k k2) eqn:E2; [apply before_total; assumption|]. destruct (before k k2); [apply before_total; assumption|exact H1].
Qed.
Lemma put_last {A} k (v : A) m : (forall k' v', In (k', v') m -> before k' k = true) -> put k v m = m ++ [(k, v)].
Proof.
  induction m as [|[k1 v1] m IH]; intros H; [reflexivity|]. cbn [put app]. pose proof (H k1 v1 (or_introl eq_refl)) as B. destruct (eqb_bytes k k1) eqn:E; [apply eqb_bytes_eq in E; subst; rewrite before_irrefl in B; discriminate|].
  destruct (before k k1) eqn:L; [pose proof (before_trans k k1 k L B) as X; rewrite before_irrefl in X; discriminate|]. rewrite IH; [reflexivity|]. intros k' v' I. apply (H k' v'). right. exact I.
Qed.
Lemma put_in {A} k (v : A) m k' v' : In (k', v') (put k v m) -> In (k', v') m \/ v' = v.
Proof.
  induction m as [|[k1 v1] m IH]; cbn [put]; intros H; [destruct H as [E|[]]; injection E as _ <-; auto|]. destruct (eqb_bytes k k1); [destruct H as [E|H]; [injection E as _ <-; auto|left; right; exact H]|]. destruct (before k k1); [destruct H as [E|H]; [injection E as _ <-; auto|auto]|].
  destruct H as [E|H]; [left; left; exact E|]. destruct (IH H); auto. left. right. assumption.
Qed.
Lemma fold_put {A} (vs : list (bytes * A)) : forall m, ordered vs -> (forall k v k' v', In (k, v) m -> In (k', v') vs -> before k k' = true) -> fold_left (fun m kv => put (fst kv) (snd kv) m) vs m = m ++ vs.
Proof.
  induction vs as [|[k v] vs IH]; intros m O H; cbn [fold_left fst snd]; [rewrite app_nil_r; reflexivity|]. rewrite put_last; [|intros k' v' I; apply (H k' v' k v I); left; reflexivity]. rewrite IH; [rewrite <- app_assoc; reflexivity|apply O|].
  intros k1 v1 k2 v2 I1 I2. apply in_app_iff in I1. destruct I1 as [I1|[E|[]]]; [apply (H k1 v1 k2 v2 I1); right; exact I2|]. injection E as <- _. apply (ordered_after vs k v O k2 v2 I2).
Qed.

(** * Reading *)
Definition spaces (w : bytes) : Prop := forall c, In c w -> is_space c = true.
Lemma skip_spaces w s : spaces w -> skip (w ++ s) = skip s.
Proof. induction w as [|c w IH]; intros H; [reflexivity|]. cbn. rewrite (H c (or_introl eq_refl)). apply IH. intros x I. apply H. right. exact I. Qed.
Lemma skip_idem s : skip (skip s) = skip s.
Proof. induction s as [|c s IH]; [reflexivity|]. cbn. destruct (is_space c) eqn:E; [exact IH|]. cbn. rewrite E. reflexivity. Qed.
Lemma skip_nil w : spaces w -> skip w = [].
Proof. intros H. rewrite <- (app_nil_r w), skip_spaces by exact H. reflexivity. Qed.
Lemma skip_length s : (length (skip s) <= length s)%nat.
Proof. induction s as [|c s IH]; [reflexivity|]. cbn. destruct (is_space c); cbn; lia. Qed.
Lemma identifier_space c : identifier c = true -> is_space c = false.
Proof. unfold identifier, is_space. intros H. lia. Qed.
Lemma key_of_app k c r : (forall x, In x k -> identifier x = true) -> identifier c = false -> key_of (k ++ c :: r) = (k, c :: r).
Proof. induction k as [|x k IH]; intros H N; cbn; [rewrite N; reflexivity|]. rewrite (H x (or_introl eq_refl)), IH; [reflexivity| |exact N]. intros y I. apply H. right. exact I. Qed.
Lemma key_of_spec s : s = fst (key_of s) ++ snd (key_of s) /\ forall c, In c (fst (key_of s)) -> identifier c = true.
Proof. induction s as [|c s [IH1 IH2]]; [split; [reflexivity|intros c []]|]. cbn. destruct (identifier c) eqn:E; [|split; [reflexivity|intros x []]]. destruct (key_of s) as [k t]. cbn in *. split; [congruence|]. intros x [<-|I]; auto. Qed.
Lemma munch_string_clean v r : forall w, clean v -> munch_string (v ++ 34 :: r) 34 w = (34 :: r, w ++ v).
Proof.
  induction v as [|c v IH]; intros w H; cbn [app munch_string]; [cbn; rewrite app_nil_r; reflexivity|]. destruct (H c (or_introl eq_refl)) as (N1 & N2 & N3). replace (c =? 34) with false by lia. replace (c =? 0) with false by lia. replace (c =? 92) with false by lia.
  rewrite IH, <- app_assoc; [reflexivity|]. intros x I. apply H. right. exact I.
Qed.
Lemma munch_inside v r count : forall w, clean v -> munch_map (v ++ 34 :: r) count (Some 34) w = munch_map r count None (w ++ v ++ [34]).
Proof.
  induction v as [|c v IH]; intros w H; cbn [app munch_map]; [reflexivity|]. destruct (H c (or_introl eq_refl)) as (N1 & N2 & N3). replace (c =? 34) with false by lia. replace (c =? 0) with false by lia. replace (c =? 92) with false by lia.
  rewrite IH, <- app_assoc; [reflexivity|]. intros x I. apply H. right. exact I.
Qed.
Definition plain (c : Z) : Prop := c <> 93 /\ c <> 91 /\ c <> 39 /\ c <> 34 /\ c <> 0.
Lemma munch_plain p r count : forall w, (forall c, In c p -> plain c) -> munch_map (p ++ r) count None w = munch_map r count None (w ++ p).
Proof.
  induction p as [|c p IH]; intros w H; cbn [app munch_map]; [rewrite app_nil_r; reflexivity|]. destruct (H c (or_introl eq_refl)) as (N1 & N2 & N3 & N4 & N5).
  replace (c =? 93) with false by lia. replace (c =? 91) with false by lia. replace (c =? 39) with false by lia. replace (c =? 34) with false by lia. replace (c =? 0) with false by lia. cbn [andb orb]. rewrite IH, <- app_assoc; [reflexivity|]. intros x I. apply H. right. exact I.
Qed.
Lemma space_plain c : is_space c = true -> plain c. Proof. unfold is_space, plain. lia. Qed.
Lemma identifier_plain c : identifier c = true -> plain c. Proof. unfold identifier, plain. lia. Qed.

(** * Text for a configuration, with any spacing *)
Fixpoint renders (x : bytes) (t : conf) {struct t} : Prop :=
  match t with
  | Str v => x = [34] ++ v ++ [34]
  | Map l => exists body w, x = 91 :: body ++ w ++ [93] /\ spaces w /\
      (fix items (b : bytes) (l : list (bytes * conf)) {struct l} : Prop :=
         match l with
         | [] => b = []
         | (k, t) :: l' => exists w x rest, b = w ++ k ++ 58 :: x ++ 44 :: rest /\ spaces w /\ renders x t /\ items rest l'
         end) body l
  end.
Fixpoint items (b : bytes) (l : list (bytes * conf)) {struct l} : Prop :=
  match l with
  | [] => b = []
  | (k, t) :: l' => exists w x rest, b = w ++ k ++ 58 :: x ++ 44 :: rest /\ spaces w /\ renders x t /\ items rest l'
  end.
Lemma renders_map x l : renders x (Map l) <-> exists body w, x = 91 :: body ++ w ++ [93] /\ spaces w /\ items body l.
Proof. reflexivity. Qed.
(** A configuration that can be written. *)
Fixpoint ok (t : conf) : Prop := match t with Str v => clean v /\ cook v = None | Map l => ordered l /\ every ok l end.

Lemma ordered_names {A} (l : list (bytes * A)) k v : ordered l -> In (k, v) l -> name k.
Proof. induction l as [|[k1 v1] l IH]; intros H I; [destruct I|]. destruct H as (N & _ & H). destruct I as [E|I]; [injection E as <- _; exact N|auto]. Qed.
Lemma name_plain k : name k -> forall c, In c k -> plain c.
Proof. intros [_ H] c I. apply identifier_plain, H, I. Qed.
Lemma munch_items l : (forall k t, In (k, t) l -> name k) -> (forall k t, In (k, t) l -> forall x, renders x t -> forall r count w, 0 <= count -> munch_map (x ++ r) count None w = munch_map r count None (w ++ x)) ->
  forall b r count w, items b l -> 0 <= count -> munch_map (b ++ r) count None w = munch_map r count None (w ++ b).
Proof.
  induction l as [|[k t] l IH]; intros N H b r count w I C; cbn [items] in I; [subst; rewrite app_nil_r; reflexivity|]. destruct I as (w0 & x & rest & -> & S & R & I).
  rewrite <- !app_assoc. rewrite munch_plain by (intros c Hc; apply space_plain, S, Hc). rewrite munch_plain by (apply name_plain, (N k t); left; reflexivity).
  change ((58 :: x ++ 44 :: rest) ++ r) with ([58] ++ (x ++ 44 :: rest) ++ r). rewrite munch_plain by (intros c [<-|[]]; unfold plain; lia). rewrite <- app_assoc. rewrite (H k t (or_introl eq_refl) x R) by exact C.
  change ((44 :: rest) ++ r) with ([44] ++ rest ++ r). rewrite munch_plain by (intros c [<-|[]]; unfold plain; lia). rewrite (IH (fun k' t' J => N k' t' (or_intror J)) (fun k' t' J => H k' t' (or_intror J)) rest r) by assumption.
  f_equal. rewrite <- !app_assoc. reflexivity.
Qed.
Lemma munch_through t : ok t -> forall x, renders x t -> forall r count w, 0 <= count -> munch_map (x ++ r) count None w = munch_map r count None (w ++ x).
Proof.
  induction t as [v|l IH] using conf_ind'; intros O x R r count w C.
  - cbn in R. subst x. cbn [ok] in O. rewrite <- app_comm_cons, <- app_assoc. cbn [app munch_map]; zz. rewrite munch_inside by apply O. rewrite <- !app_assoc. reflexivity.
  - destruct O as [O E]. apply renders_map in R. destruct R as (body & w0 & -> & S & I). rewrite every_in in E. cbn [app munch_map]; zz. rewrite <- !app_assoc.
    rewrite (munch_items l) with (b := body); [|intros k t J; apply (ordered_names l k t O J)|intros k t J x R; apply (IH k t J (E k t J) x R)|exact I|lia].
    rewrite munch_plain by (intros c Hc; apply space_plain, S, Hc). cbn [app munch_map]; zz. replace (0 <? count + 1) with true by lia. cbn [negb]. replace (count + 1 - 1) with count by lia. f_equal. rewrite <- !app_assoc. reflexivity.
Qed.
Lemma munch_whole l x r : ok (Map l) -> renders x (Map l) -> exists b, x = 91 :: b ++ [93] /\ munch_map (b ++ 93 :: r) 0 None [] = (93 :: r, b).
Proof.
  intros [O E] R. apply renders_map in R. destruct R as (body & w0 & -> & S & I). rewrite every_in in E. exists (body ++ w0). rewrite <- !app_assoc. split; [reflexivity|].
  rewrite (munch_items l) with (b := body); [|intros k t J; apply (ordered_names l k t O J)|intros k t J x R; apply (munch_through t (E k t J) x R)|exact I|lia].
  rewrite munch_plain by (intros c Hc; apply space_plain, S, Hc). reflexivity.
Qed.
Definition value_of (v : bytes) (t : conf) : Prop := match t with Str u => v = u | Map _ => renders v t end.
Lemma again n s m : (if at0 (skip s) =? 93 then finish (tl (skip s)) m else parse_items (S n) (skip s) m) = parse_items (S n) s m.
Proof. cbn [parse_items]. rewrite skip_idem. destruct (at0 (skip s) =? 93); reflexivity. Qed.
Lemma parse_renders l : forall b w r m n, ordered l -> every ok l -> items b l -> spaces w -> (length l < n)%nat ->
  exists vs, pairs value_of vs l /\ parse_items n (b ++ w ++ 93 :: r) m = finish r (fold_left (fun m kv => put (fst kv) (snd kv) m) vs m).
Proof.
  induction l as [|[k t] l IH]; intros b w r m n O E I S L; destruct n as [|n]; try lia; cbn [items] in I.
  - subst b. exists []. split; [exact Logic.I|]. cbn [app parse_items]. rewrite skip_spaces by exact S. reflexivity.
  - destruct I as (w0 & x & rest & -> & S0 & R & I). destruct O as ([Nk Hk] & _ & O). destruct E as [Et E]. cbn [length] in L.
    assert (V : exists v, value_of v t /\ forall tail, (let s := skip (x ++ tail) in let quote := at0 s in
       if negb (quote =? 39) && negb (quote =? 34) && negb (quote =? 91) then None else
       let quote := if quote =? 91 then 93 else quote in let '(s, value) := munch (tl s) quote in
       if negb (at0 s =? quote) then None else Some ((if quote =? 93 then 91 :: value ++ [93] else value), tl s)) = Some (v, tail)).
    { destruct t as [v|l'].
      - exists v. split; [reflexivity|]. intros tail. cbn in R. subst x. destruct Et as [Cv _]. rewrite <- app_comm_cons, <- app_assoc. cbn [app skip]; unfold is_space; zz; cbn [at0 tl]; zz; unfold munch; zz. rewrite munch_string_clean by exact Cv. reflexivity.
      - exists x. split; [exact R|]. intros tail. destruct (munch_whole l' x tail Et R) as (b0 & -> & M). rewrite <- app_comm_cons, <- app_assoc. cbn [app skip]; unfold is_space; zz; cbn [at0 tl]; zz; unfold munch; zz. rewrite M. reflexivity. }
    destruct V as (v & Hv & V). destruct n as [|n]; [lia|]. destruct (IH rest w r (put k v m) (Datatypes.S n) O E I S ltac:(lia)) as (vs & Pv & Ev). exists ((k, v) :: vs). split; [cbn; auto|]. cbn [fold_left fst snd]. rewrite <- Ev, <- (again n (rest ++ w ++ 93 :: r) (put k v m)). clear Ev.
    rewrite <- !app_assoc. remember (Datatypes.S n) as n' eqn:En. cbn [parse_items]. rewrite skip_spaces by exact S0. destruct k as [|k0 k]; [contradiction|]. pose proof (Hk k0 (or_introl eq_refl)) as I0.
    assert (Ks : skip ((k0 :: k) ++ (58 :: x ++ 44 :: rest) ++ w ++ 93 :: r) = (k0 :: k) ++ (58 :: x ++ 44 :: rest) ++ w ++ 93 :: r) by (cbn; rewrite (identifier_space k0 I0); reflexivity).
    rewrite Ks. cbn [app at0]. replace (k0 =? 93) with false by (destruct (identifier_plain k0 I0); lia). rewrite I0. cbn [negb].
    change (k0 :: k ++ 58 :: (x ++ 44 :: rest) ++ w ++ 93 :: r) with ((k0 :: k) ++ 58 :: (x ++ 44 :: rest) ++ w ++ 93 :: r). rewrite key_of_app by (auto || reflexivity).
    cbn [skip]; unfold is_space; zz; cbn [at0 tl]; zz; fold is_space. rewrite <- app_assoc. specialize (V ((44 :: rest) ++ w ++ 93 :: r)). cbn zeta in V.
    set (s1 := skip (x ++ (44 :: rest) ++ w ++ 93 :: r)) in *. destruct (negb (at0 s1 =? 39) && negb (at0 s1 =? 34) && negb (at0 s1 =? 91)); [discriminate|]. set (q := if at0 s1 =? 91 then 93 else at0 s1) in *. destruct (munch (tl s1) q) as [s2 value]. destruct (negb (at0 s2 =? q)); [discriminate|].
    injection V as V1 V2. rewrite V1, V2. cbn [app skip]; unfold is_space; zz; cbn [at0 tl]; zz; fold is_space. reflexivity.
Qed.
Lemma items_length l : forall b, items b l -> (length l <= length b)%nat.
Proof. induction l as [|[k t] l IH]; intros b I; cbn [items] in I; [cbn; lia|]. destruct I as (w & x & rest & -> & _ & _ & I). specialize (IH rest I). rewrite !app_length. cbn [length]. rewrite app_length. cbn [length]. lia. Qed.
Lemma cook_renders l x w1 w2 : ok (Map l) -> renders x (Map l) -> spaces w1 -> spaces w2 -> exists m, cook (w1 ++ x ++ w2) = Some m /\ pairs value_of m l.
Proof.
  intros [O E] R S1 S2. apply renders_map in R. destruct R as (b & w & -> & S & I). unfold cook. rewrite skip_spaces by exact S1. cbn [app skip]; unfold is_space; zz; cbn [at0 tl]; zz.
  rewrite <- !app_assoc. cbn [app]. destruct (parse_renders l b w w2 [] (length (w1 ++ 91 :: b ++ w ++ 93 :: w2)) O E I S) as (vs & Pv & Ev).
  { pose proof (items_length l b I). rewrite app_length. cbn [length]. rewrite app_length. lia. }
  rewrite Ev. exists vs. split; [|exact Pv]. unfold finish. rewrite (skip_nil w2 S2). cbn [at0 Z.eqb]. rewrite (fold_put vs []); [reflexivity| |intros ? ? ? ? []]. apply (pairs_ordered value_of l vs Pv). exact O.
Qed.
Lemma says_renders t : forall x w1 w2, ok t -> renders x t -> spaces w1 -> spaces w2 -> match t with Str _ => True | Map _ => says (w1 ++ x ++ w2) t end.
Proof.
  induction t as [v|l IH] using conf_ind'; intros x w1 w2 O R S1 S2; [exact Logic.I|]. destruct (cook_renders l x w1 w2 O R S1 S2) as (m & Em & Pm). cbn [says]. exists m. split; [exact Em|]. revert Pm. apply pairs_mono. intros k v t _ J V. destruct O as [_ E]. rewrite every_in in E. specialize (E k t J). destruct t as [u|l'].
  - cbn in V |- *. subst. split; [reflexivity|]. apply E.
  - pose proof (IH k (Map l') J v [] [] E V (fun c H => match H with end) (fun c H => match H with end)) as K. cbn [app] in K. rewrite app_nil_r in K. exact K.
Qed.

(** * What cooking gives *)
Lemma munch_string_length n : forall s q w, (length s <= n)%nat -> (length (snd (munch_string s q w)) + length (fst (munch_string s q w)) <= length w + length s)%nat.
Proof.
  induction n as [|n IH]; intros [|c s] q w L; cbn [munch_string length fst snd] in *; try lia. destruct (c =? q); [cbn; lia|]. destruct (c =? 0); [cbn; lia|]. destruct (c =? 92).
  - destruct s as [|e s]; [cbn; lia|]. cbn in L. destruct (negb (e =? 92) && negb (e =? q)); [cbn; lia|]. specialize (IH s q (w ++ [e]) ltac:(lia)). rewrite app_length in IH. cbn in *. lia.
  - specialize (IH s q (w ++ [c]) ltac:(lia)). rewrite app_length in IH. cbn in *. lia.
Qed.
Lemma munch_map_length n : forall s count inq w, (length s <= n)%nat -> (length (snd (munch_map s count inq w)) + length (fst (munch_map s count inq w)) <= length w + length s)%nat.
Proof.
  induction n as [|n IH]; intros [|c s] count inq w L; cbn [munch_map length fst snd] in *; try lia.
  assert (K : forall count' inq', (length (snd (munch_map s count' inq' (w ++ [c]))) + length (fst (munch_map s count' inq' (w ++ [c]))) <= length w + Datatypes.S (length s))%nat).
  { intros count' inq'. specialize (IH s count' inq' (w ++ [c]) ltac:(lia)). rewrite app_length in IH. cbn in *. lia. }
  destruct inq as [q|].
  - destruct (c =? q); [apply K|]. destruct (c =? 0); [cbn; lia|]. destruct (c =? 92); [|apply K]. destruct s as [|e s]; [cbn; lia|]. cbn in L. destruct (negb (e =? 92) && negb (e =? q)); [cbn; lia|]. specialize (IH s count (Some q) (w ++ [e]) ltac:(lia)). rewrite app_length in IH. cbn in *. lia.
  - destruct ((c =? 93) && negb (0 <? count)); [cbn; lia|]. destruct (c =? 0); [cbn; lia|]. destruct (c =? 93); [apply K|]. destruct (c =? 91); [apply K|]. destruct ((c =? 39) || (c =? 34)); apply K.
Qed.
Lemma munch_length s q : (length (snd (munch s q)) + length (fst (munch s q)) <= length s)%nat.
Proof. unfold munch. destruct (negb (q =? 93)); [apply (munch_string_length (length s) s q []); lia|apply (munch_map_length (length s) s 0 None []); lia]. Qed.
Lemma at0_length s c : c <> 0 -> at0 s = c -> length s = Datatypes.S (length (tl s)).
Proof. destruct s; cbn; intros; congruence. Qed.
Lemma finish_some s m m' : finish s m = Some m' -> m' = m.
Proof. unfold finish. destruct (at0 (skip s) =? 0); congruence. Qed.
(** The names are names, in order, and every value is shorter than the text. *)
Lemma parse_spec n : forall s m m', parse_items n s m = Some m' -> ordered m -> ordered m' /\ forall k v, In (k, v) m' -> In (k, v) m \/ (length v + 2 <= length s)%nat.
Proof.
  induction n as [|n IH]; intros s m m' H O; cbn [parse_items] in H; [discriminate|]. pose proof (skip_length s) as Ls. set (s0 := skip s) in *. clearbody s0.
  destruct (at0 s0 =? 93); [apply finish_some in H; subst; auto|]. destruct (identifier (at0 s0)) eqn:I0; cbn [negb] in H; [|discriminate]. pose proof (key_of_spec s0) as [K1 K2]. pose proof I0 as Kn.
  assert (Nk : name (fst (key_of s0))). { split; [|exact K2]. destruct s0 as [|c s0]; [cbn in Kn; discriminate|]. cbn in Kn |- *. rewrite Kn. destruct (key_of s0). discriminate. }
  destruct (key_of s0) as [key s1]. cbn [fst snd] in *. assert (L1 : (1 + length s1 <= length s0)%nat) by (rewrite K1, app_length; destruct Nk as [Nk _]; destruct key; [contradiction|cbn; lia]).
  pose proof (skip_length s1) as L2. set (s2 := skip s1) in *. clearbody s2. destruct (at0 s2 =? 58) eqn:E2; cbn [negb] in H; [|discriminate]. apply Z.eqb_eq, at0_length in E2; [|lia]. pose proof (skip_length (tl s2)) as L3. set (s3 := skip (tl s2)) in *. clearbody s3.
  destruct (negb (at0 s3 =? 39) && negb (at0 s3 =? 34) && negb (at0 s3 =? 91)) eqn:Q; [discriminate|]. assert (L3' : length s3 = Datatypes.S (length (tl s3))) by (destruct s3; [discriminate|reflexivity]).
  set (q := if at0 s3 =? 91 then 93 else at0 s3) in *. assert (Hq : q <> 0) by (unfold q; destruct (Z.eqb_spec (at0 s3) 91); [lia|]; destruct (Z.eqb_spec (at0 s3) 39); [lia|]; destruct (Z.eqb_spec (at0 s3) 34); [lia|discriminate]).
  pose proof (munch_length (tl s3) q) as L4. destruct (munch (tl s3) q) as [s4 value]. cbn [fst snd] in L4. destruct (at0 s4 =? q) eqn:E4; cbn [negb] in H; [|discriminate]. apply Z.eqb_eq, (at0_length s4 q Hq) in E4.
  set (v := if q =? 93 then 91 :: value ++ [93] else value) in *. assert (Lv : (length v <= length value + 2)%nat) by (unfold v; destruct (q =? 93); cbn; rewrite ?app_length; cbn; lia). clearbody v q.
  pose proof (put_ordered key v m Nk O) as O1. assert (P : forall k' v', In (k', v') (put key v m) -> In (k', v') m \/ (length v' + 2 <= length s)%nat).
  { intros k' v' J. destruct (put_in _ _ _ _ _ J) as [J'| ->]; [auto|right; lia]. }
  pose proof (skip_length (tl s4)) as L5. set (s5 := skip (tl s4)) in *. clearbody s5. destruct (at0 s5 =? 93); [apply finish_some in H; subst; auto|]. destruct (at0 s5 =? 44) eqn:E5; cbn [negb] in H; [|discriminate]. apply Z.eqb_eq, at0_length in E5; [|lia].
  pose proof (skip_length (tl s5)) as L6. set (s6 := skip (tl s5)) in *. clearbody s6. destruct (at0 s6 =? 93); [apply finish_some in H; subst; auto|]. destruct (IH s6 _ m' H O1) as [O2 P2]. split; [exact O2|]. intros k' v' J. destruct (P2 k' v' J) as [J'|J']; [auto|right; lia].
Qed.
Lemma cook_spec v m : cook v = Some m -> ordered m /\ forall k v', In (k, v') m -> (length v' < length v)%nat.
Proof.
  unfold cook. pose proof (skip_length v) as L. set (s := skip v) in *. clearbody s. destruct (at0 s =? 91) eqn:E; cbn [negb]; [|discriminate]. apply Z.eqb_eq, at0_length in E; [|lia]. intros H. destruct (parse_spec _ _ _ _ H Logic.I) as [O P]. split; [exact O|]. intros k v' J. destruct (P k v' J) as [[]|P']. lia.
Qed.
(** The loop goes round at most once for every byte. *)
Lemma parse_enough n : forall n' s m, (length s < n)%nat -> (length s < n')%nat -> parse_items n s m = parse_items n' s m.
Proof.
  induction n as [|n IH]; intros [|n'] s m L L'; try lia. cbn [parse_items]. pose proof (skip_length s) as Ls. set (s0 := skip s) in *. clearbody s0.
  destruct (at0 s0 =? 93); [reflexivity|]. destruct (identifier (at0 s0)) eqn:I0; cbn [negb]; [|reflexivity]. pose proof (key_of_spec s0) as [K1 _].
  destruct (key_of s0) as [key s1]. cbn [fst snd] in *. assert (L1 : (length s1 <= length s0)%nat) by (rewrite K1, app_length; lia).
  pose proof (skip_length s1) as L2. set (s2 := skip s1) in *. clearbody s2. destruct (at0 s2 =? 58) eqn:E2; cbn [negb]; [|reflexivity]. apply Z.eqb_eq, at0_length in E2; [|lia]. pose proof (skip_length (tl s2)) as L3. set (s3 := skip (tl s2)) in *. clearbody s3.
  destruct (negb (at0 s3 =? 39) && negb (at0 s3 =? 34) && negb (at0 s3 =? 91)); [reflexivity|]. set (q := if at0 s3 =? 91 then 93 else at0 s3) in *. clearbody q.
  pose proof (munch_length (tl s3) q) as L4. destruct (munch (tl s3) q) as [s4 value]. cbn [fst snd] in L4. destruct (negb (at0 s4 =? q)); [reflexivity|].
  assert (T : forall s : bytes, (length (tl s) <= length s)%nat) by (intros [|c r]; cbn; lia).
  pose proof (skip_length (tl s4)) as L5. pose proof (T s3). pose proof (T s4). set (s5 := skip (tl s4)) in *. clearbody s5. destruct (at0 s5 =? 93); [reflexivity|]. destruct (negb (at0 s5 =? 44)); [reflexivity|].
  pose proof (skip_length (tl s5)) as L6. pose proof (T s5). set (s6 := skip (tl s5)) in *. clearbody s6. destruct (at0 s6 =? 93); [reflexivity|]. apply IH; lia.
Qed.
Lemma pairs_in {A B} (P : A -> B -> Prop) l : forall m k t, pairs P m l -> In (k, t) l -> exists v, In (k, v) m /\ P v t.
Proof. induction l as [|[k1 t1] l IH]; intros [|[k2 v2] m] k t H I; cbn in H; try contradiction. destruct H as (-> & H1 & H). destruct I as [E|I]; [injection E as -> ->; exists v2; split; [left; reflexivity|exact H1]|]. destruct (IH m k t H I) as (v & Iv & Pv). exists v. split; [right; exact Iv|exact Pv]. Qed.
Lemma says_ok t : forall v, says v t -> texts clean t -> ok t.
Proof.
  induction t as [u|l IH] using conf_ind'; intros v H C; cbn in *; [destruct H as [-> H]; auto|]. destruct H as (m & Em & P). split; [apply (pairs_ordered says l m P), (cook_spec v m Em)|].
  rewrite every_in in *. intros k t J. destruct (pairs_in says l m k t P J) as (v' & _ & S'). apply (IH k t J v' S' (C k t J)).
Qed.
(** Every text says something, and one thing only. *)
Lemma says_exists n : forall v, (length v < n)%nat -> exists t, says v t.
Proof.
  induction n as [|n IH]; intros v L; [lia|]. destruct (cook v) as [m|] eqn:E; [|exists (Str v); cbn; auto]. destruct (cook_spec v m E) as [_ S].
  assert (K : exists l, pairs says m l).
  { clear E. induction m as [|[k v'] m IHm]; [exists []; exact Logic.I|]. destruct IHm as (l & Hl); [intros k' v'' J; apply (S k' v''); right; exact J|]. destruct (IH v') as (t & Ht); [specialize (S k v' (or_introl eq_refl)); lia|]. exists ((k, t) :: l). cbn. auto. }
  destruct K as (l & Hl). exists (Map l). cbn. eauto.
Qed.
Lemma says_unique t : forall v t', says v t -> says v t' -> t = t'.
Proof.
  induction t as [u|l IH] using conf_ind'; intros v [u'|l'] H H'; cbn in H, H'.
  - destruct H, H'. congruence.
  - destruct H as [-> H]. destruct H' as (m & E & _). congruence.
  - destruct H' as [-> H']. destruct H as (m & E & _). congruence.
  - destruct H as (m & E & P). destruct H' as (m' & E' & P'). assert (m' = m) by congruence. subst m'. f_equal. clear E E'. revert m l' P P'. induction l as [|[k t] l IHl]; intros [|[k1 v1] m] [|[k2 t2] l'] P P'; cbn in *; try contradiction; [reflexivity|]. destruct P as (-> & P1 & P). destruct P' as (-> & P1' & P').
    rewrite (IH k2 t (or_introl eq_refl) v1 t2 P1 P1'). f_equal. apply (IHl (fun k' t' J => IH k' t' (or_intror J)) m l' P P').
Qed.

(** * What freezing writes *)
Lemma indent_spaces d : spaces (indent d).
Proof. induction d as [|d IH]; [intros c []|]. intros c H. change (indent (Datatypes.S d)) with ([32; 32] ++ indent d) in H. apply in_app_iff in H. destruct H as [[<-|[<-|[]]]|H]; [reflexivity|reflexivity|apply IH, H]. Qed.
Lemma newline_spaces w : spaces w -> spaces (10 :: w).
Proof. intros H c [<-|I]; [reflexivity|apply H, I]. Qed.
Lemma dump_items (f : bytes -> bytes) l ind : spaces ind -> forall m, pairs (fun v t => renders (f v) t) m l ->
  exists b, 10 :: concat (map (fun kv => ind ++ fst kv ++ [58] ++ f (snd kv) ++ [44; 10]) m) = b ++ [10] /\ items b l.
Proof.
  intros S. induction l as [|[k t] l IH]; intros [|[k1 v1] m] P; cbn in P; try contradiction; [exists []; split; reflexivity|]. destruct P as (-> & R & P). destruct (IH m P) as (b & Eb & I).
  exists ((10 :: ind) ++ k ++ 58 :: f v1 ++ 44 :: b). split; [|cbn [items]; exists (10 :: ind), (f v1), b; repeat split; [apply newline_spaces, S|exact R|exact I]].
  cbn [map concat fst snd]. repeat (rewrite <- app_assoc; cbn [app]). rewrite <- Eb. reflexivity.
Qed.
Lemma dump_map_renders f m l d : pairs (fun v t => renders (f v) t) m l -> renders (dump_map f m d) (Map l).
Proof.
  intros P. apply renders_map. destruct m as [|kv m].
  - destruct l as [|[k t] l]; [|destruct P]. exists [], []. repeat split. intros c [].
  - destruct (dump_items f l (indent (Datatypes.S d)) (indent_spaces _) (kv :: m) P) as (b & Eb & I). exists b, (10 :: indent d). split; [|split; [apply newline_spaces, indent_spaces|exact I]].
    change (dump_map f (kv :: m) d) with (91 :: ((10 :: concat (map (fun kv => indent (Datatypes.S d) ++ fst kv ++ [58] ++ f (snd kv) ++ [44; 10]) (kv :: m))) ++ indent d ++ [93])). rewrite Eb, <- app_assoc. reflexivity.
Qed.
Lemma dump_renders t : forall n v d, says v t -> (length v < n)%nat -> renders (dump n v d) t.
Proof.
  induction t as [u|l IH] using conf_ind'; intros [|n] v d H L; try lia; cbn [says] in H; cbn [dump].
  - destruct H as [-> ->]. reflexivity.
  - destruct H as (m & E & P). rewrite E. apply dump_map_renders. revert P. apply pairs_mono. intros k v' t J1 J2 S'. apply (IH k t J2 n v' (Datatypes.S d) S'). destruct (cook_spec v m E) as [_ K]. specialize (K k v' J1). lia.
Qed.
Lemma freeze_renders m l : pairs says m l -> exists x, freeze m = x ++ [10] /\ renders x (Map l).
Proof.
  intros P. exists (dump_map (fun v => dump (Datatypes.S (length v)) v 1) m 0). split; [reflexivity|]. apply dump_map_renders. revert P. apply pairs_mono. intros k v t _ _ H. apply (dump_renders t); [exact H|lia].
Qed.
Lemma one_newline : spaces [10]. Proof. intros c [<-|[]]. reflexivity. Qed.
Lemma no_spaces : spaces []. Proof. intros c []. Qed.
Lemma pairs_ok m l : pairs says m l -> every (texts clean) l -> every ok l.
Proof. intros P C. rewrite every_in in *. intros k t J. destruct (pairs_in says l m k t P J) as (v & _ & S'). apply (says_ok t v S' (C k t J)). Qed.
Theorem freeze_says m l : ordered m -> pairs says m l -> every (texts clean) l -> says (freeze m) (Map l).
Proof.
  intros O P C. destruct (freeze_renders m l P) as (x & -> & R). apply (says_renders (Map l) x [] [10]); [|exact R|exact no_spaces|exact one_newline]. split; [apply (pairs_ordered says l m P), O|apply (pairs_ok m l P C)].
Qed.
Theorem freeze_cook m : ordered m -> (forall k v t, In (k, v) m -> says v t -> texts clean t) ->
  exists m', cook (freeze m) = Some m' /\ pairs (fun v' v => (cook v = None -> v' = v) /\ forall t, says v' t <-> says v t) m' m.
Proof.
  intros O C. assert (K : exists l, pairs says m l).
  { clear O C. induction m as [|[k v] m (l & IH)]; [exists []; exact Logic.I|]. destruct (says_exists (Datatypes.S (length v)) v (Nat.lt_succ_diag_r _)) as (t & Ht). exists ((k, t) :: l). cbn. auto. }
  destruct K as (l & P). assert (Cl : every (texts clean) l).
  { rewrite every_in. intros k t J. destruct (pairs_in says l m k t P J) as (v & Iv & S'). apply (C k v t Iv S'). }
  destruct (freeze_says m l O P Cl) as (m' & E & P'). exists m'. split; [exact E|]. clear O C E Cl. revert m m' P P'. induction l as [|[k t] l IH]; intros [|[k1 v1] m] [|[k2 v2] m'] P P'; cbn in *; try contradiction; [exact Logic.I|]. destruct P as (-> & P1 & P). destruct P' as (-> & P1' & P').
  split; [reflexivity|]. split; [|apply IH; assumption]. split.
  - intros N. destruct t as [u|l']; cbn in P1, P1'; [destruct P1, P1'; congruence|]. destruct P1 as (? & ? & _). congruence.
  - intros t'. split; intros H; [rewrite <- (says_unique t v2 t' P1' H); exact P1|rewrite <- (says_unique t v1 t' P1 H); exact P1'].
Qed.
