(** Proofs about shards. *)
From Verif Require Import Base HopperModel ArrayDefs GclSpec HopperProofs ArrayProofs UnaryModel UnaryProofs AnswerProofs VectorModel
  Bytes CodecModel CodecSpec PostingModel PostingSpec PostingProofs AnnProofs ShardModel ShardSpec.
From Coq Require Import Permutation Sorted.

(* ------------------------------------------------------------------ *)
(** * sem_inner, by recursion on the list *)
Definition same (y x : iv) : Prop := ip y = ip x /\ iq y = iq x.
Definition U (Ss : list (iv -> Prop)) (y : iv) : Prop := exists T, In T Ss /\ T y.
Fixpoint pick (Ss : list (iv -> Prop)) (x : iv) : Prop :=
  match Ss with
  | [] => False
  | T :: r => pick r x \/ (T x /\ forall y, U r y -> ~ same y x)
  end.
Definition least (Ss : list (iv -> Prop)) (x : iv) : Prop := forall y, U Ss y -> nests x y -> nests y x.

Lemma U_cons S r y : U (S :: r) y <-> S y \/ U r y.
Proof. unfold U. cbn. split; [intros (T & [->|H] & Ty); eauto|intros [H|(T & H & Ty)]; eauto]. Qed.
Lemma U_app A B y : U (A ++ B) y <-> U A y \/ U B y.
Proof. unfold U. split; [intros (T & H & Ty); apply in_app_iff in H; destruct H; eauto|
  intros [(T & H & Ty)|(T & H & Ty)]; exists T; rewrite in_app_iff; auto]. Qed.
Lemma U_nil y : ~ U [] y. Proof. intros (T & [] & _). Qed.
Lemma pick_U Ss x : pick Ss x -> U Ss x.
Proof. induction Ss as [|S0 r IH]; cbn; [tauto|]. intros [H|[H _]]; apply U_cons; auto. Qed.

Lemma sem_inner_pick Ss x : sem_inner Ss x <-> pick Ss x /\ least Ss x.
Proof.
  unfold sem_inner, least, U.
  assert (E : (exists i S, nth_error Ss i = Some S /\ S x /\
     forall j T y, (i < j)%nat -> nth_error Ss j = Some T -> T y -> ~ (ip y = ip x /\ iq y = iq x)) <-> pick Ss x).
  { induction Ss as [|S0 r IH]; cbn [pick].
    - split; [|tauto]. intros (i & S & H & _). destruct i; discriminate.
    - rewrite <- IH. clear IH. split.
      + intros (i & T & Hi & Tx & H). destruct i as [|i].
        * right. injection Hi as ->. split; [exact Tx|]. intros y (T' & Hin & Ty).
          apply In_nth_error in Hin. destruct Hin as [j Hj]. apply (H (Datatypes.S j) T'); [lia|exact Hj|exact Ty].
        * left. exists i, T. split; [exact Hi|]. split; [exact Tx|]. intros j T' y Hj. apply (H (Datatypes.S j) T' y). lia.
      + intros [(i & T & Hi & Tx & H)|[Sx H]].
        * exists (Datatypes.S i), T. split; [exact Hi|]. split; [exact Tx|]. intros [|j] T' y Hj; [lia|]. apply H. lia.
        * exists 0%nat, S0. split; [reflexivity|]. split; [exact Sx|]. intros [|j] T' y Hj; [lia|]. cbn. intros Hn Ty.
          apply H. exists T'. split; [eapply nth_error_In, Hn|exact Ty]. }
  rewrite E. firstorder.
Qed.

Lemma pick_app A B x : pick (A ++ B) x <-> pick B x \/ (pick A x /\ forall y, U B y -> ~ same y x).
Proof.
  induction A as [|S0 A IH]; cbn [app pick]; [tauto|]. rewrite IH. split.
  - intros [[H|[H K]]|[H K]]; [auto|auto|]. right. split; [right; split; [exact H|]|]; intros y Hy; apply K, U_app; auto.
  - intros [H|[[H|[H K]] L]]; auto. right. split; [exact H|]. intros y Hy. apply U_app in Hy. destruct Hy; auto.
Qed.

Definition eqs (S T : iv -> Prop) : Prop := forall x, S x <-> T x.
Lemma pick_ext Ss Ts : Forall2 eqs Ss Ts -> forall x, (pick Ss x <-> pick Ts x) /\ (U Ss x <-> U Ts x).
Proof.
  induction 1 as [|S0 T Ss Ts E F IH]; intros x; [unfold U; cbn; firstorder|].
  split.
  - cbn. rewrite (proj1 (IH x)). rewrite (E x). split; (intros [H|[H K]]; [auto|right; split; [exact H|]]);
      intros y Hy; apply K, (proj2 (IH y)), Hy.
  - rewrite !U_cons. rewrite (E x), (proj2 (IH x)). tauto.
Qed.
Lemma sem_inner_ext Ss Ts : Forall2 eqs Ss Ts -> eqs (sem_inner Ss) (sem_inner Ts).
Proof.
  intros E x. rewrite !sem_inner_pick, (proj1 (pick_ext _ _ E x)). unfold least.
  split; (intros [H K]; split; [exact H|]); intros y Hy; apply K, (proj2 (pick_ext _ _ E y)), Hy.
Qed.
Lemma Forall2_refl_eqs Ss : Forall2 eqs Ss Ss.
Proof. induction Ss; constructor; [intros x; tauto|assumption]. Qed.

Lemma nests_refl x : nests x x. Proof. unfold nests. lia. Qed.
Lemma nests_trans x y z : nests x y -> nests y z -> nests x z. Proof. unfold nests. lia. Qed.
Lemma same_nests x y : same y x <-> nests x y /\ nests y x. Proof. unfold same, nests. lia. Qed.

(** Something innermost below every member. *)
Definition grounded (B : list (iv -> Prop)) : Prop := forall y, U B y -> exists z, sem_inner B z /\ nests y z.

Lemma inner_flat A B C S : grounded B -> eqs S (sem_inner B) ->
  eqs (sem_inner (A ++ S :: C)) (sem_inner (A ++ B ++ C)).
Proof.
  intros G E x. rewrite !sem_inner_pick. rewrite !pick_app. cbn [pick].
  assert (E1 : forall y, S y <-> pick B y /\ least B y) by (intros y; rewrite (E y); apply sem_inner_pick).
  assert (G1 : forall y, U B y -> exists z, S z /\ nests y z).
  { intros y Hy. destruct (G y Hy) as (z & Hz & Nz). exists z. split; [apply E, Hz|exact Nz]. }
  assert (SB : forall y, S y -> U B y) by (intros y Hy; apply E1 in Hy; apply pick_U, Hy).
  assert (LB : least (A ++ S :: C) x <-> least (A ++ B ++ C) x).
  { unfold least. split; intros H y Hy.
    - rewrite !U_app in Hy. destruct Hy as [Hy|[Hy|Hy]].
      + apply H. rewrite U_app. auto.
      + intros N. destruct (G1 y Hy) as (z & Hz & Nz). apply (nests_trans _ z); [exact Nz|].
        apply H; [rewrite U_app, U_cons; auto|]. apply (nests_trans _ y); assumption.
      + apply H. rewrite U_app, U_cons. auto.
    - rewrite U_app, U_cons in Hy. apply H. rewrite !U_app. destruct Hy as [Hy|[Hy|Hy]]; auto. }
  rewrite LB. split; intros [P L]; (split; [|exact L]).
  - destruct P as [[P|[P K]]|[P K]].
    + auto.
    + left. right. split; [apply E1, P|exact K].
    + right. split; [exact P|]. intros y Hy Sm. rewrite U_app in Hy. destruct Hy as [Hy|Hy].
      * destruct (G1 y Hy) as (z & Hz & Nz). apply same_nests in Sm. destruct Sm as [N1 N2].
        apply (K z); [apply U_cons; auto|]. apply same_nests.
        assert (N3 : nests x z) by (apply (nests_trans _ y); assumption).
        split; [exact N3|]. apply L; [|exact N3]. rewrite !U_app. right. left. apply SB, Hz.
      * apply (K y); [apply U_cons; auto|exact Sm].
  - destruct P as [[P|[P K]]|[P K]].
    + auto.
    + left. right. split; [|exact K]. apply E1. split; [exact P|]. intros y Hy. apply L. rewrite !U_app. auto.
    + right. split; [exact P|]. intros y Hy. apply U_cons in Hy. apply K. rewrite U_app. destruct Hy; auto.
Qed.

(** Members of one list dropped that [x] does not contain. *)
Lemma inner_drop A C (D D' : iv -> Prop) x : (forall y, D' y -> D y) ->
  (forall y, D y -> D' y \/ ~ nests x y) ->
  (sem_inner (A ++ D' :: C) x <-> sem_inner (A ++ D :: C) x).
Proof.
  intros Sub Out. rewrite !sem_inner_pick, !pick_app. cbn [pick].
  assert (Cl : forall y, D y -> nests x y -> D' y) by (intros y Dy N; destruct (Out y Dy); tauto).
  assert (LB : least (A ++ D' :: C) x <-> least (A ++ D :: C) x).
  { unfold least. split; intros H y Hy N; (apply H; [|exact N]); rewrite U_app, U_cons in *; destruct Hy as [Hy|[Hy|Hy]]; auto. }
  rewrite LB. split; intros [P L]; (split; [|exact L]).
  - destruct P as [[P|[P K]]|[P K]]; auto.
    right. split; [exact P|]. intros y Hy Sm. apply (K y); [|exact Sm]. apply U_cons in Hy. apply U_cons.
    destruct Hy as [Hy|Hy]; [left; exact (Cl y Hy (proj1 (proj1 (same_nests x y) Sm)))|auto].
  - destruct P as [[P|[P K]]|[P K]]; auto.
    + left. right. split; [|exact K]. apply Cl; [exact P|apply nests_refl].
    + right. split; [exact P|]. intros y Hy. apply K. apply U_cons. apply U_cons in Hy. destruct Hy; auto.
Qed.

(* ------------------------------------------------------------------ *)
(** * Finite lists *)
Lemma nests_dec x y : {nests x y} + {~ nests x y}.
Proof.
  unfold nests. destruct (Z_le_dec (ip x) (ip y)); [destruct (Z_le_dec (iq y) (iq x))|]; [left|right|right]; tauto.
Qed.
Lemma U_lists ls y : U (map set_of ls) y <-> In y (concat ls).
Proof.
  unfold U. rewrite in_concat. split.
  - intros (T & H & Ty). apply in_map_iff in H. destruct H as (l & <- & Hl). exists l. auto.
  - intros (l & Hl & Hy). exists (set_of l). split; [apply in_map, Hl|exact Hy].
Qed.
(** A smallest member below [y]. *)
Lemma smallest l : forall y, In y l -> (forall x, In x l -> ip x <= iq x) ->
  exists z, In z l /\ nests y z /\ forall t, In t l -> nests z t -> nests t z.
Proof.
  intros y0 H0 F. remember (Z.to_nat (iq y0 - ip y0)) as n eqn:En.
  revert y0 H0 En. induction n as [n IH] using lt_wf_ind. intros y Hy En.
  destruct (Exists_dec (fun t => nests y t /\ ~ nests t y) l) as [Ex|Nx].
  { intros t. destruct (nests_dec y t); [destruct (nests_dec t y)|]; [right|left|right]; tauto. }
  - apply Exists_exists in Ex. destruct Ex as (t & Ht & N1 & N2).
    assert (Lt : (Z.to_nat (iq t - ip t) < n)%nat).
    { pose proof (F t Ht). pose proof (F y Hy). unfold nests in *. lia. }
    destruct (IH _ Lt t Ht eq_refl) as (z & Hz & Nz & Mz). exists z. split; [exact Hz|]. split; [|exact Mz].
    apply (nests_trans _ t); assumption.
  - exists y. split; [exact Hy|]. split; [apply nests_refl|]. intros t Ht N.
    destruct (nests_dec t y) as [D|D]; [exact D|]. exfalso. apply Nx. apply Exists_exists. exists t. auto.
Qed.
Lemma pick_same ls : forall y, U (map set_of ls) y -> exists x, pick (map set_of ls) x /\ same x y.
Proof.
  induction ls as [|l ls IH]; cbn [map pick]; [intros y H; destruct (U_nil _ H)|].
  intros y H. apply U_cons in H.
  destruct (Exists_dec (fun t => same t y) (concat ls)) as [Ex|Nx].
  { intros t. unfold same. destruct (Z.eq_dec (ip t) (ip y)); [destruct (Z.eq_dec (iq t) (iq y))|]; [left|right|right]; tauto. }
  - apply Exists_exists in Ex. destruct Ex as (t & Ht & St). apply U_lists in Ht.
    destruct (IH t Ht) as (x & Hx & Sx). exists x. split; [auto|]. unfold same in *. lia.
  - assert (Nu : forall t, U (map set_of ls) t -> ~ same t y).
    { intros t Ht St. apply Nx. apply Exists_exists. exists t. split; [apply U_lists, Ht|exact St]. }
    destruct H as [H|H]; [|destruct (Nu y H); unfold same; lia].
    exists y. split; [|unfold same; lia]. right. split; [exact H|exact Nu].
Qed.
Lemma grounded_lists ls : Forall gcdup ls -> grounded (map set_of ls).
Proof.
  intros G y Hy. assert (F : forall x, In x (concat ls) -> ip x <= iq x).
  { intros x Hx. apply in_concat in Hx. destruct Hx as (l & Hl & Hx). rewrite Forall_forall in G.
    apply (gcdup_finite l x (G l Hl) Hx). }
  apply U_lists in Hy. destruct (smallest _ y Hy F) as (z & Hz & Nz & Mz).
  apply U_lists in Hz. destruct (pick_same ls z Hz) as (x & Px & Sx).
  exists x. apply same_nests in Sx. split.
  - apply sem_inner_pick. split; [exact Px|]. intros t Ht N. apply U_lists in Ht.
    apply (nests_trans _ z); [|apply Sx]. apply Mz; [exact Ht|]. apply (nests_trans _ x); [apply Sx|exact N].
  - apply (nests_trans _ z); [exact Nz|apply Sx].
Qed.
Lemma inner_lists_drop_empty ls : eqs (sem_inner (map set_of ls))
  (sem_inner (map set_of (filter (fun l => match l with [] => false | _ => true end) ls))).
Proof.
  assert (E : forall x, (pick (map set_of ls) x <->
     pick (map set_of (filter (fun l => match l with [] => false | _ => true end) ls)) x) /\ (U (map set_of ls) x <-> U (map set_of (filter (fun l => match l with [] => false | _ => true end) ls)) x)).
  { induction ls as [|l ls IH]; intros x; [cbn; tauto|]. cbn [map filter pick].
    destruct l as [|a l].
    - rewrite U_cons. destruct (IH x) as [<- <-]. unfold set_of at 2 3; cbn. tauto.
    - cbn [map pick]. rewrite !U_cons, <- (proj1 (IH x)), <- (proj2 (IH x)). split; [|tauto].
      split; (intros [H|[H K]]; [auto|right; split; [exact H|]]); intros y Hy; apply K, (proj2 (IH y)), Hy. }
  intros x. rewrite !sem_inner_pick, (proj1 (E x)). unfold least.
  split; (intros [H K]; split; [exact H|]); intros y Hy; apply K, (proj2 (E y)), Hy.
Qed.

(* ------------------------------------------------------------------ *)
(** * The lists of the shards *)
Inductive lst_of (f : Z) (w : index) : list iv -> Prop :=
| Lst_none : find_posting w f = None -> lst_of f w []
| Lst_some : forall p l, find_posting w f = Some p -> feature p = f -> holds p l -> l <> [] ->
    gcdup l -> Forall value_ok l -> lst_of f w l.

Lemma lst_exists chunk w f : sound chunk w -> f <> chunk -> exists l, lst_of f w l.
Proof.
  intros H N. destruct (find_posting w f) as [p|] eqn:E; [|exists []; constructor; exact E].
  destruct (H f p N E) as (F & l & A & B & C & D). exists l. econstructor; eassumption.
Qed.
Lemma lsts_exist chunk ws f : Forall (sound chunk) ws -> f <> chunk -> exists ls, Forall2 (lst_of f) ws ls.
Proof.
  intros H N. induction H as [|w ws Hw _ IH]; [exists []; constructor|].
  destruct (lst_exists chunk w f Hw N) as [l Hl]. destruct IH as [ls Hls]. exists (l :: ls). constructor; assumption.
Qed.
Lemma holds_In p l x : holds p l -> ((exists i, get p i = Ok (Some x)) <-> In x l).
Proof.
  intros (_ & _ & H). split.
  - intros [i Hi]. rewrite H in Hi. injection Hi as Hi. exact (nth_error_In _ _ Hi).
  - intros Hx. apply In_nth_error in Hx. destruct Hx as [i Hi]. exists i. rewrite H, Hi. reflexivity.
Qed.
Lemma lst_stored f w l : lst_of f w l -> eqs (stored_in w f) (set_of l).
Proof.
  intros H x. unfold stored_in, set_of. destruct H as [E|p l E _ A _ _ _].
  - rewrite E. split; [intros (p & i & D & _); discriminate|intros []].
  - rewrite <- (holds_In p l x A), E. split; [intros (q & i & D & K); injection D as <-; eauto|intros [i K]; eauto].
Qed.
Lemma lst_count f w l : lst_of f w l -> fiver_count w f = Z.of_nat (length l).
Proof.
  unfold fiver_count. intros [E|p l' E _ A _ _ _]; rewrite E; [reflexivity|]. apply holds_psize, A.
Qed.
Lemma lst_gcdup f w l : lst_of f w l -> gcdup l.
Proof. intros [E|p l' E _ A _ G _]; [exact Logic.I|exact G]. Qed.
Lemma lsts_gcdup f ws ls : Forall2 (lst_of f) ws ls -> Forall gcdup ls.
Proof. induction 1 as [|? ? ? ? H]; constructor; [exact (lst_gcdup _ _ _ H)|assumption]. Qed.
Lemma lsts_eqs f ws ls : Forall2 (lst_of f) ws ls -> Forall2 eqs (map (fun w => stored_in w f) ws) (map set_of ls).
Proof. induction 1 as [|? ? ? ? H]; cbn; constructor; [exact (lst_stored _ _ _ H)|assumption]. Qed.
Lemma lsts_inner f ws ls : Forall2 (lst_of f) ws ls -> eqs (innermost_of ws f) (sem_inner (map set_of ls)).
Proof. intros H. apply sem_inner_ext, lsts_eqs, H. Qed.
Lemma lsts_stored f ws ls x : Forall2 (lst_of f) ws ls -> (stored_by ws f x <-> In x (concat ls)).
Proof.
  intros H. unfold stored_by. induction H as [|w l ws ls Hl _ IH]; cbn.
  - split; [intros (w & [] & _)|intros []].
  - rewrite in_app_iff, <- IH, <- (lst_stored f w l Hl x). split.
    + intros (v & [->|Hv] & K); [auto|right; eauto].
    + intros [K|(v & Hv & K)]; eauto.
Qed.
Lemma lsts_count f ws ls : Forall2 (lst_of f) ws ls -> bigwig_count ws f = Z.of_nat (length (concat ls)).
Proof.
  induction 1 as [|w l ws ls Hl _ IH]; [reflexivity|]. cbn. unfold bigwig_count in IH. rewrite IH, (lst_count f w l Hl), app_length. lia.
Qed.
Definition full (l : list iv) : bool := match l with [] => false | _ => true end.
Lemma lsts_postings f ws ls : Forall2 (lst_of f) ws ls ->
  Forall2 holds (postings_of ws f) (filter full ls) /\ Forall (fun p => feature p = f) (postings_of ws f) /\
  Forall (Forall value_ok) (filter full ls) /\ Forall gcdup (filter full ls) /\ Forall (fun l => l <> []) (filter full ls).
Proof.
  induction 1 as [|w l ws ls Hl _ IH]; [repeat constructor|]. cbn [postings_of flat_map filter].
  destruct Hl as [E|p l E F A N G V]; rewrite E; [exact IH|].
  destruct l as [|a l]; [contradiction|]. cbn [full app]. destruct IH as (I1 & I2 & I3 & I4 & I5).
  split; [constructor; assumption|]. split; [constructor; assumption|]. split; [constructor; assumption|].
  split; constructor; assumption.
Qed.
Lemma concat_full ls : concat (filter full ls) = concat ls.
Proof. induction ls as [|[|a l] ls IH]; cbn; [reflexivity|exact IH|rewrite IH; reflexivity]. Qed.
Lemma lsts_contrib f ws ls : Forall2 (lst_of f) ws ls ->
  Forall2 (lst_of f) (contributors ws f) (filter full ls).
Proof.
  induction 1 as [|w l ws ls Hl _ IH]; [constructor|]. cbn [contributors filter].
  rewrite (lst_count f w l Hl). destruct l as [|a l]; cbn [full length]; [exact IH|].
  replace (0 <? Z.of_nat (S (length l))) with true by (symmetry; apply Z.ltb_lt; lia). constructor; assumption.
Qed.
Lemma filter_full ls : filter full (filter full ls) = filter full ls.
Proof. induction ls as [|[|a l] ls IH]; cbn; [reflexivity|exact IH|rewrite IH; reflexivity]. Qed.

(* ------------------------------------------------------------------ *)
(** * Hoppers *)
Lemma array_obj_ok p l : holds p l -> l <> [] -> gcdup l -> Z.of_nat (length l) <= max_len ->
  exists o, array_obj p = Ok o /\ answers (projT1 o) (projT2 o) (set_of l).
Proof.
  intros H N G L. unfold array_obj. rewrite (holds_psize _ _ H).
  assert (P : 0 < Z.of_nat (length l)) by (destruct l; [contradiction|cbn; lia]).
  replace (Z.of_nat (length l) =? 0) with false by (symmetry; apply Z.eqb_neq; lia).
  eexists. split; [reflexivity|]. cbn [projT1 projT2]. rewrite (arr_of_posting_eq _ _ H).
  apply array_answers; [exact G|unfold max_len in L; lia|].
  destruct (fostings p) eqn:Ef; [|discriminate]. intros _. exact (zero_values _ _ H Ef).
Qed.
Lemma answers_eqs C s S T : eqs S T -> answers C s S -> answers C s T.
Proof.
  intros E [G H]. split; [|exact (implements_ext _ _ _ _ E G H)]. destruct G as [G1 G2]. split.
  - intros x Hx. apply G1, E, Hx.
  - intros x y Hx Hy. apply G2; apply E; assumption.
Qed.
Lemma empty_obj_ok S : eqs S (fun _ => False) -> answers (projT1 empty_obj) (projT2 empty_obj) S.
Proof. intros E. apply (answers_eqs _ _ (fun _ => False)); [intros x; symmetry; apply E|exact empty_answers]. Qed.

Lemma fiver_hopper_lst f w l : lst_of f w l -> Z.of_nat (length l) <= max_len ->
  exists o, fiver_hopper w f = Ok o /\ answers (projT1 o) (projT2 o) (set_of l).
Proof.
  intros [E|p l' E _ H N G _] L; unfold fiver_hopper; rewrite E.
  - eexists. split; [reflexivity|]. apply empty_obj_ok. intros x. unfold set_of. cbn. tauto.
  - rewrite (holds_psize _ _ H). destruct (Z.of_nat (length l') =? 1) eqn:E1; [|apply array_obj_ok; assumption].
    destruct l' as [|x [|y l']]; [discriminate| |cbn in E1; lia].
    destruct H as (_ & _ & H). rewrite (H 0%nat). cbn. eexists. split; [reflexivity|]. cbn.
    apply (answers_eqs _ _ (eq x)); [intros y; unfold set_of; cbn; tauto|]. apply singleton_answers, G.
Qed.

Lemma inner_one l : gcdup l -> eqs (sem_inner [set_of l]) (set_of l).
Proof.
  intros G x. pose proof (GC_inner [l]) as K. cbn [map concat] in K. rewrite app_nil_r in K.
  rewrite K; [tauto|apply gcdup_GC; exact G].
Qed.
Lemma inner_nil : eqs (sem_inner []) (fun _ => False).
Proof. intros x. rewrite sem_inner_pick. cbn. tauto. Qed.
Lemma eqs_trans A B C : eqs A B -> eqs B C -> eqs A C.
Proof. intros H K x. rewrite (H x). apply K. Qed.
Lemma eqs_sym A B : eqs A B -> eqs B A.
Proof. intros H x. symmetry. apply H. Qed.

Lemma merge_nonempty ls l : Forall gcdup ls -> (exists a, In a ls /\ a <> []) ->
  (forall x, In x l <-> sem_inner (map set_of ls) x) -> l <> [].
Proof.
  intros G (a & Ha & Na) H. destruct a as [|y a]; [contradiction|].
  destruct (grounded_lists ls G y) as (z & Hz & _); [exists (set_of (y :: a)); split; [apply in_map, Ha|left; reflexivity]|].
  apply H in Hz. destruct l; [destruct Hz|discriminate].
Qed.

Lemma raw_hopper_lst f ws ls : Forall2 (lst_of f) ws ls -> Z.of_nat (length (concat ls)) <= max_len ->
  exists o, raw_hopper ws f = Ok o /\ answers (projT1 o) (projT2 o) (sem_inner (map set_of ls)).
Proof.
  intros H L. unfold raw_hopper. pose proof (lsts_contrib f ws ls H) as C.
  pose proof (inner_lists_drop_empty ls) as E. fold full in E.
  rewrite <- concat_full in L. remember (filter full ls) as ls' eqn:Els.
  assert (Fl : filter full ls' = ls') by (rewrite Els; apply filter_full).
  clear Els.
  destruct C as [|w l cs ls1 Hl C].
  - eexists. split; [reflexivity|]. apply empty_obj_ok. exact (eqs_trans _ _ _ E inner_nil).
  - destruct C as [|w2 l2 cs ls2 Hl2 C].
    + cbn [concat] in L. rewrite app_nil_r in L. destruct (fiver_hopper_lst f w l Hl L) as (o & Eo & A).
      exists o. split; [exact Eo|]. apply (answers_eqs _ _ (set_of l)); [|exact A].
      apply eqs_sym. exact (eqs_trans _ _ _ E (inner_one l (lst_gcdup _ _ _ Hl))).
    + assert (H2 : Forall2 (lst_of f) (w :: w2 :: cs) (l :: l2 :: ls2)) by (constructor; [|constructor]; assumption).
      destruct (lsts_postings _ _ _ H2) as (P1 & P2 & P3 & P4 & P5). rewrite Fl in *.
      assert (Pn : postings_of (w :: w2 :: cs) f <> []) by (intros Q; rewrite Q in P1; inversion P1).
      destruct (merge_ok f _ _ Pn P1 P2 P4 P5 P3) as (m & lm & Em & Fm & Hm & Gm & Im & Lm).
      unfold fill_posting. rewrite Em. cbn [bind].
      destruct (append_holds _ _ _ _ (feature_holds f) Hm (eq_sym Fm)) as (r & Er & Hr & _).
      rewrite Er. cbn [bind app] in *.
      destruct (array_obj_ok r lm Hr) as (o & Eo & A); [|exact Gm|lia|].
      { apply (merge_nonempty (l :: l2 :: ls2)); [exact P4| |exact Im]. exists l. split; [left; reflexivity|].
        inversion P5; assumption. }
      exists o. split; [exact Eo|]. apply (answers_eqs _ _ (set_of lm)); [|exact A].
      intros x. unfold set_of at 1. rewrite Im. symmetry. apply E.
Qed.

Lemma raw_hopper_ok chunk f ws : Forall (sound chunk) ws -> f <> chunk -> room ws f ->
  exists o, raw_hopper ws f = Ok o /\ answers (projT1 o) (projT2 o) (innermost_of ws f).
Proof.
  intros H N R. destruct (lsts_exist chunk ws f H N) as [ls Hl]. unfold room in R. rewrite (lsts_count f ws ls Hl) in R.
  destruct (raw_hopper_lst f ws ls Hl R) as (o & E & A). exists o. split; [exact E|].
  apply (answers_eqs _ _ _ _ (eqs_sym _ _ (lsts_inner _ _ _ Hl)) A).
Qed.

Lemma erasing_false chunk ws : Forall (sound chunk) ws -> null_feature <> chunk -> erasing ws = false ->
  forall x, ~ stored_by ws null_feature x.
Proof.
  intros H N E x (w & Hw & Hx). rewrite Forall_forall in H.
  destruct (lst_exists chunk w null_feature (H w Hw) N) as [l Hl].
  apply (lst_stored _ _ _ Hl) in Hx.
  assert (K : erasing ws = true); [|congruence].
  apply existsb_exists. exists w. split; [exact Hw|]. rewrite (lst_count _ _ _ Hl). destruct l; [destruct Hx|].
  cbn [length]. apply negb_true_iff, Z.eqb_neq. lia.
Qed.

(** The view of the shards: the innermost annotations not inside an innermost erased range. *)
Theorem view_ok : forall chunk ws f, Forall (sound chunk) ws -> null_feature <> chunk -> f <> chunk ->
  room ws f -> room ws null_feature ->
  exists o, bigwig_hopper ws f = Ok o /\
    answers (projT1 o) (projT2 o)
      (if f =? null_feature then innermost_of ws null_feature
       else sem_nin (innermost_of ws f) (innermost_of ws null_feature)).
Proof.
  intros chunk ws f H N Nf Rf Rn. destruct (raw_hopper_ok chunk f ws H Nf Rf) as (a & Ea & Aa).
  destruct (raw_hopper_ok chunk null_feature ws H N Rn) as (b & Eb & Ab).
  unfold bigwig_hopper. destruct (f =? null_feature) eqn:En.
  - apply Z.eqb_eq in En. rewrite andb_false_r. exists a. split; [exact Ea|]. rewrite <- En. exact Aa.
  - cbn [negb]. rewrite andb_true_r. destruct (erasing ws) eqn:Ee.
    + rewrite Ea, Eb. cbn [bind]. eexists. split; [reflexivity|]. cbn [projT1 projT2]. apply nin_answers; assumption.
    + exists a. split; [exact Ea|]. apply (answers_eqs _ _ (innermost_of ws f)); [|exact Aa].
      intros x. unfold sem_nin. split; [|tauto]. intros Hx. split; [exact Hx|].
      intros (e & He & _). apply (erasing_false chunk ws H N Ee e).
      apply sem_inner_pick in He. destruct He as [He _]. apply pick_U in He. destruct He as (T & HT & Te).
      apply in_map_iff in HT. destruct HT as (w & <- & Hw). exists w. auto.
Qed.

Lemma innermost_stored ws f x : innermost_of ws f x -> stored_by ws f x.
Proof.
  intros H. apply sem_inner_pick in H. destruct H as [H _]. apply pick_U in H. destruct H as (T & HT & Tx).
  apply in_map_iff in HT. destruct HT as (w & <- & Hw). exists w. auto.
Qed.
Lemma U_stored ws f x : U (map (fun w => stored_in w f) ws) x <-> stored_by ws f x.
Proof.
  unfold U, stored_by. split.
  - intros (T & HT & Tx). apply in_map_iff in HT. destruct HT as (w & <- & Hw). eauto.
  - intros (w & Hw & Hx). exists (stored_in w f). split; [exact (in_map (fun w => stored_in w f) _ _ Hw)|exact Hx].
Qed.
Lemma sound_grounded chunk ws f : Forall (sound chunk) ws -> f <> chunk -> grounded (map (fun w => stored_in w f) ws).
Proof.
  intros H N y Hy. destruct (lsts_exist chunk ws f H N) as [ls Hl].
  pose proof (lsts_eqs _ _ _ Hl) as E. apply (proj2 (pick_ext _ _ E y)) in Hy.
  destruct (grounded_lists ls (lsts_gcdup _ _ _ Hl) y Hy) as (z & Hz & Nz). exists z. split; [|exact Nz].
  apply (sem_inner_ext _ _ E), Hz.
Qed.
(** When no erased range contains another, the innermost ones erase all there is to erase. *)
Lemma erased_inner chunk ws : Forall (sound chunk) ws -> null_feature <> chunk -> erasures_apart ws ->
  forall x, erased ws x <-> exists e, innermost_of ws null_feature e /\ nests e x.
Proof.
  intros H N Ap x. split.
  - intros (e & He & Ne). destruct (sound_grounded chunk ws null_feature H N e) as (z & Hz & Nz); [apply U_stored, He|].
    exists z. split; [exact Hz|]. apply (nests_trans _ e); [|exact Ne].
    apply Ap; [exact He| |exact Nz]. apply innermost_stored, Hz.
  - intros (e & He & Ne). exists e. split; [apply innermost_stored, He|exact Ne].
Qed.
(** C16, separate shards. *)
Theorem view_visible : forall chunk ws f, Forall (sound chunk) ws -> null_feature <> chunk -> f <> chunk -> f <> null_feature ->
  room ws f -> room ws null_feature -> erasures_apart ws ->
  exists o, bigwig_hopper ws f = Ok o /\ answers (projT1 o) (projT2 o) (visible ws f).
Proof.
  intros chunk ws f H N Nf Nn Rf Rn Ap. destruct (view_ok chunk ws f H N Nf Rf Rn) as (o & E & A).
  exists o. split; [exact E|]. apply Z.eqb_neq in Nn. rewrite Nn in A. revert A. apply answers_eqs.
  intros x. unfold sem_nin, visible. rewrite (erased_inner chunk ws H N Ap x). tauto.
Qed.

(* ------------------------------------------------------------------ *)
(** * Merging shards *)
Definition good_opt (f : Z) (o : option posting) (l : list iv) : Prop :=
  match o with
  | None => l = []
  | Some p => feature p = f /\ holds p l /\ l <> [] /\ gcdup l /\ Forall value_ok l
  end.
Lemma good_lst f w l : good_opt f (find_posting w f) l -> lst_of f w l.
Proof.
  intros H. destruct (find_posting w f) as [p|] eqn:E; cbn in H.
  - destruct H as (A & B & C & D & F). econstructor; eassumption.
  - subst l. constructor; exact E.
Qed.
Lemma lsts_values f ws ls x : Forall2 (lst_of f) ws ls -> In x (concat ls) -> value_ok x.
Proof.
  induction 1 as [|w l ws ls Hl _ IH]; cbn; [tauto|]. rewrite in_app_iff. intros [H|H]; [|auto].
  destruct Hl as [|? ? ? ? ? ? ? V]; [destruct H|]. rewrite Forall_forall in V. auto.
Qed.
Lemma inner_in ls x : sem_inner (map set_of ls) x -> In x (concat ls).
Proof. intros H. apply sem_inner_pick in H. destruct H as [H _]. apply pick_U, U_lists in H. exact H. Qed.

Lemma merge_lsts f ws ls : Forall2 (lst_of f) ws ls ->
  exists o l, posting_from_merge (postings_of ws f) = Ok o /\ good_opt f o l /\
    eqs (set_of l) (sem_inner (map set_of ls)) /\ (length l <= length (concat ls))%nat.
Proof.
  intros H. destruct (lsts_postings _ _ _ H) as (P1 & P2 & P3 & P4 & P5).
  pose proof (inner_lists_drop_empty ls) as E. fold full in E.
  destruct (postings_of ws f) as [|p ps] eqn:Ep.
  - exists None, []. split; [reflexivity|]. split; [reflexivity|]. split; [|cbn; lia].
    assert (Q : filter full ls = []) by (inversion P1; auto). rewrite Q in E. apply eqs_sym. refine (eqs_trans _ _ _ E _). exact (eqs_trans _ _ _ inner_nil (fun x => iff_refl False)).
  - assert (Pn : p :: ps <> []) by discriminate.
    destruct (merge_ok f _ _ Pn P1 P2 P4 P5 P3) as (m & lm & Em & Fm & Hm & Gm & Im & Lm).
    exists (Some m), lm. split; [exact Em|]. rewrite concat_full in Lm. split; [|split; [|exact Lm]].
    + split; [exact Fm|]. split; [exact Hm|]. split; [|split; [exact Gm|]].
      * apply (merge_nonempty (filter full ls)); [exact P4| |exact Im].
        destruct (filter full ls) as [|a r] eqn:Q; [inversion P1|]. exists a. split; [left; reflexivity|]. inversion P5; assumption.
      * rewrite Forall_forall. intros x Hx. apply Im, E, inner_in in Hx. exact (lsts_values _ _ _ _ H Hx).
    + intros x. unfold set_of at 1. rewrite Im. symmetry. apply E.
Qed.

Lemma exclude_lsts f ws ls ex le : Forall2 (lst_of f) ws ls -> good_opt null_feature ex le ->
  Z.of_nat (length le) <= max_len ->
  exists o l, posting_from_merge_exclude (postings_of ws f) ex = Ok o /\ good_opt f o l /\
    eqs (set_of l) (sem_nin (sem_inner (map set_of ls)) (set_of le)) /\ (length l <= length (concat ls))%nat.
Proof.
  intros H Gx Le. pose proof (inner_lists_drop_empty ls) as E. fold full in E.
  destruct (lsts_postings _ _ _ H) as (P1 & P2 & P3 & P4 & P5).
  destruct (postings_of ws f) as [|p ps] eqn:Ep.
  - exists None, []. split; [reflexivity|]. split; [reflexivity|]. split; [|cbn; lia].
    assert (Q : filter full ls = []) by (inversion P1; auto). rewrite Q in E. intros x. unfold sem_nin. rewrite (E x), (inner_nil x). unfold set_of. cbn. tauto.
  - destruct ex as [e|]; cbn in Gx.
    + destruct Gx as (Fe & He & Ne & Ge & Ve). assert (Pn : p :: ps <> []) by discriminate.
      destruct (merge_exclude_ok f _ _ e le Pn P1 P2 P4 P3 He Ge Ne Le) as (o & Eo & l & [L1 L2] & Ho).
      exists o, l. split; [exact Eo|].
      assert (Sub : forall x, In x l -> In x (concat ls)) by (intros x Hx; apply L2 in Hx; destruct Hx as [Hx _]; apply E, inner_in in Hx; exact Hx).
      split; [|split].
      * destruct o as [m|]; [|exact Ho]. destruct Ho as (Fm & Hm & Nm). split; [exact Fm|]. split; [exact Hm|]. split; [exact Nm|].
        split; [apply gclist_gcdup; exact L1|]. rewrite Forall_forall. intros x Hx. exact (lsts_values _ _ _ _ H (Sub x Hx)).
      * intros x. unfold set_of at 1. rewrite L2. unfold sem_nin. rewrite (E x). tauto.
      * apply NoDup_incl_length; [apply gclist_NoDup; exact L1|exact Sub].
    + subst le. destruct (merge_lsts f ws ls H) as (o & l & Eo & Go & So & Lo). exists o, l.
      rewrite Ep in Eo. split; [exact Eo|]. split; [exact Go|]. split; [|exact Lo].
      intros x. rewrite (So x). unfold sem_nin. split; [|tauto]. intros Hx. split; [exact Hx|]. intros (b & [] & _).
Qed.

Lemma merge_features_ok chunk ws ex le : Forall (sound chunk) ws -> good_opt null_feature ex le ->
  Z.of_nat (length le) <= max_len ->
  forall fs, NoDup fs -> ~ In chunk fs ->
  exists ix, merge_features ws ex fs = Ok ix /\
    (forall f, ~ In f fs -> find_posting ix f = None) /\
    (forall f ls, In f fs -> Forall2 (lst_of f) ws ls -> exists l, good_opt f (find_posting ix f) l /\
       eqs (set_of l) (sem_nin (sem_inner (map set_of ls)) (set_of le)) /\ (length l <= length (concat ls))%nat).
Proof.
  intros H Gx Le. induction fs as [|f fs IH]; intros Nd Nc.
  - exists []. split; [reflexivity|]. split; [reflexivity|]. intros f ls [].
  - inversion Nd as [|? ? Nf Nd']; subst. cbn in Nc.
    destruct (IH Nd' (fun K => Nc (or_intror K))) as (ix & E & I1 & I2).
    destruct (lsts_exist chunk ws f H (fun K => Nc (or_introl K))) as [ls Hls].
    destruct (exclude_lsts f ws ls ex le Hls Gx Le) as (o & l & Eo & Go & So & Lo).
    cbn [merge_features]. rewrite Eo, E. cbn [bind]. eexists. split; [reflexivity|]. split.
    + intros g Ng. cbn in Ng. destruct o as [p|]; cbn; [destruct (Z.eqb_spec f g) as [<-|]; [tauto|]|]; apply I1; tauto.
    + intros g ls' Hg Hls'. destruct (Z.eq_dec f g) as [<-|Nfg].
      * destruct (exclude_lsts f ws ls' ex le Hls' Gx Le) as (o' & l' & Eo' & Go' & So' & Lo').
        rewrite Eo in Eo'. injection Eo' as <-. exists l'. split; [|split; assumption].
        destruct o as [p|]; cbn [find_posting].
        -- rewrite Z.eqb_refl. exact Go'.
        -- rewrite (I1 f Nf). exact Go'.
      * destruct Hg as [Hg|Hg]; [contradiction|]. destruct (I2 g ls' Hg Hls') as (l' & K). exists l'.
        destruct o as [p|]; cbn [find_posting]; [|exact K]. apply Z.eqb_neq in Nfg. rewrite Nfg. exact K.
Qed.

Lemma find_app a b f : find_posting (a ++ b) f = match find_posting a f with Some p => Some p | None => find_posting b f end.
Proof. induction a as [|[g p] a IH]; cbn; [reflexivity|]. destruct (g =? f); [reflexivity|exact IH]. Qed.
Lemma find_some_in w f p : find_posting w f = Some p -> In f (map fst w).
Proof. induction w as [|[g q] w IH]; cbn; [discriminate|]. destruct (Z.eqb_spec g f); [auto|]. intros H. right. auto. Qed.
Lemma other_features_in chunk ws f : In f (other_features chunk ws) <->
  f <> null_feature /\ f <> chunk /\ exists w, In w ws /\ In f (map fst w).
Proof.
  unfold other_features. rewrite filter_In, nodup_In, in_concat. rewrite andb_true_iff, !negb_true_iff, !Z.eqb_neq.
  split.
  - intros ((l & Hl & Hf) & A & B). apply in_map_iff in Hl. destruct Hl as (w & <- & Hw). eauto.
  - intros (A & B & w & Hw & Hf). split; [|auto]. exists (map fst w). split; [apply in_map, Hw|exact Hf].
Qed.

(** What the merged shard stores. *)
Theorem fiver_merge_ok : forall sort chunk ws m, fiver_merge sort chunk ws = Ok (Some m) -> (1 < length ws)%nat ->
  Forall (sound chunk) (map f_index ws) -> null_feature <> chunk -> room (map f_index ws) null_feature ->
  sound chunk (f_index m) /\
  eqs (stored_in (f_index m) null_feature) (innermost_of (map f_index ws) null_feature) /\
  (forall f, f <> chunk -> f <> null_feature ->
     eqs (stored_in (f_index m) f) (sem_nin (innermost_of (map f_index ws) f) (innermost_of (map f_index ws) null_feature))) /\
  (forall f, f <> chunk -> fiver_count (f_index m) f <= bigwig_count (map f_index ws) f).
Proof.
  intros sort chunk ws m E Hlen H N R. destruct ws as [|w0 [|w1 ws]]; [discriminate|cbn in Hlen; lia|].
  unfold fiver_merge in E. remember (w0 :: w1 :: ws) as ws0 eqn:Ews. clear Ews w1 ws Hlen.
  destruct (merge_text chunk ws0 [] []) as [[text ann]| |]; cbn [bind] in E; try discriminate.
  set (ixs := map f_index ws0) in *.
  destruct (lsts_exist chunk ixs null_feature H N) as [es Hes].
  destruct (merge_lsts null_feature ixs es Hes) as (ex & le & Eex & Gex & Sex & Lex).
  unfold merged_erased in E. rewrite Eex in E. cbn [bind] in E.
  unfold room in R. rewrite (lsts_count _ _ _ Hes) in R.
  assert (Lm : Z.of_nat (length le) <= max_len) by (unfold max_len; lia).
  destruct (merge_features_ok chunk ixs ex le H Gex Lm (other_features chunk ixs)) as (ix & Eix & I1 & I2).
  { apply NoDup_filter, NoDup_nodup. } { intros K. apply other_features_in in K. tauto. }
  rewrite Eix in E. cbn [bind] in E. injection E as <-. cbn [f_index].
  set (chunks := match posting_from_annotations (sort ann) with None => [] | Some (p, _) => [(chunk, p)] end).
  set (erased := match ex with None => [] | Some e => [(null_feature, e)] end).
  assert (Fc : forall f, f <> chunk -> find_posting (chunks ++ erased ++ ix) f = find_posting (erased ++ ix) f).
  { intros f Nf. rewrite find_app. unfold chunks. destruct (posting_from_annotations (sort ann)) as [[p r]|]; [|reflexivity].
    cbn. apply not_eq_sym, Z.eqb_neq in Nf. rewrite Nf. reflexivity. }
  assert (Fe : find_posting (erased ++ ix) null_feature = ex).
  { rewrite find_app. unfold erased. destruct ex as [e|]; [reflexivity|]. cbn [find_posting]. apply I1.
    intros K. apply other_features_in in K. tauto. }
  assert (Fo : forall f, f <> null_feature -> find_posting (erased ++ ix) f = find_posting ix f).
  { intros f Nf. rewrite find_app. unfold erased. destruct ex as [e|]; [|reflexivity]. cbn [find_posting].
    apply not_eq_sym, Z.eqb_neq in Nf. rewrite Nf. reflexivity. }
  assert (All : forall f, f <> chunk -> f <> null_feature -> forall ls, Forall2 (lst_of f) ixs ls ->
            exists l, good_opt f (find_posting ix f) l /\
              eqs (set_of l) (sem_nin (sem_inner (map set_of ls)) (set_of le)) /\ (length l <= length (concat ls))%nat).
  { intros f Nf Nn ls Hls. destruct (in_dec Z.eq_dec f (other_features chunk ixs)) as [Hin|Hout]; [exact (I2 f ls Hin Hls)|].
    exists []. rewrite (I1 f Hout). split; [reflexivity|]. split; [|cbn; lia].
    assert (Z0 : concat ls = []).
    { assert (Nw : forall w, In w ixs -> find_posting w f = None).
      { intros w Hw. destruct (find_posting w f) as [p|] eqn:Q; [|reflexivity]. exfalso. apply Hout, other_features_in.
        split; [exact Nn|]. split; [exact Nf|]. exists w. split; [exact Hw|exact (find_some_in _ _ _ Q)]. }
      clear -Hls Nw. induction Hls as [|w l ws ls Hl _ IH]; [reflexivity|]. cbn.
      rewrite IH; [|intros v Hv; apply Nw; right; exact Hv]. rewrite app_nil_r.
      destruct Hl as [|p l Q]; [reflexivity|]. rewrite (Nw w (or_introl eq_refl)) in Q. discriminate. }
    intros x. split; [intros []|]. intros [Hx _]. apply inner_in in Hx. rewrite Z0 in Hx. exact Hx. }
  assert (Lall : forall f, f <> chunk -> exists ls l, Forall2 (lst_of f) ixs ls /\ lst_of f (chunks ++ erased ++ ix) l /\
     eqs (set_of l) (if f =? null_feature then sem_inner (map set_of ls) else sem_nin (sem_inner (map set_of ls)) (set_of le)) /\
     (length l <= length (concat ls))%nat).
  { intros f Nf. destruct (Z.eq_dec f null_feature) as [->|Nn].
    - exists es, le. split; [exact Hes|]. split; [apply good_lst; rewrite (Fc _ Nf), Fe; exact Gex|]. rewrite Z.eqb_refl. split; [exact Sex|exact Lex].
    - destruct (lsts_exist chunk ixs f H Nf) as [ls Hls]. destruct (All f Nf Nn ls Hls) as (l & G & S & L).
      exists ls, l. split; [exact Hls|]. split; [apply good_lst; rewrite (Fc _ Nf), (Fo _ Nn); exact G|].
      apply Z.eqb_neq in Nn. rewrite Nn. split; assumption. }
  split; [|split; [|split]].
  - intros f p Nf Ep. destruct (Lall f Nf) as (ls & l & _ & Hl & _). destruct Hl as [Q|q l Q A B C D F]; [congruence|].
    rewrite Ep in Q. injection Q as <-. split; [exact A|]. exists l. auto.
  - destruct (Lall null_feature N) as (ls & l & Hls & Hl & S & _). rewrite Z.eqb_refl in S.
    intros x. rewrite (lst_stored _ _ _ Hl x), (S x). symmetry. apply (lsts_inner _ _ _ Hls).
  - intros f Nf Nn. destruct (Lall f Nf) as (ls & l & Hls & Hl & S & _). apply Z.eqb_neq in Nn. rewrite Nn in S.
    intros x. rewrite (lst_stored _ _ _ Hl x), (S x). unfold sem_nin. rewrite (lsts_inner _ _ _ Hls x).
    assert (Q : forall b, set_of le b <-> innermost_of ixs null_feature b)
      by (intros b; rewrite (Sex b); symmetry; apply (lsts_inner _ _ _ Hes)).
    split; intros [K1 K2]; (split; [exact K1|]); intros (b & Hb & Nb); apply K2; exists b; (split; [apply Q; exact Hb|exact Nb]).
  - intros f Nf. destruct (Lall f Nf) as (ls & l & Hls & Hl & _ & L).
    rewrite (lst_count _ _ _ Hl), (lsts_count _ _ _ Hls). lia.
Qed.

(* ------------------------------------------------------------------ *)
(** * Answers are determined by the set *)
Lemma answer_fun T mk r r' : GC T -> minf <= snd mk <= maxf -> answer T mk r -> answer T mk r' -> r = r'.
Proof.
  intros [F G] Hk.
  assert (Gp : forall x y, T x -> T y -> ip x = ip y -> x = y).
  { intros x y Hx Hy E. destruct (Z_le_dec (iq x) (iq y)); [symmetry|]; apply G; auto; unfold nests; lia. }
  assert (Gq : forall x y, T x -> T y -> iq x = iq y -> x = y).
  { intros x y Hx Hy E. destruct (Z_le_dec (ip x) (ip y)); [|symmetry]; apply G; auto; unfold nests; lia. }
  assert (Tau : forall k a b, tau_spec T k a -> tau_spec T k b -> a = b).
  { intros k a b [[E ->]|[N [(A & B & C)|[-> A]]]] [[E' ->]|[N' [(A' & B' & C')|[-> A']]]]; try congruence.
    - apply Gp; auto. specialize (C b A' B'). specialize (C' a A B). lia.
    - specialize (A' a A). lia.
    - specialize (A b A'). lia. }
  assert (Rho : forall k a b, rho_spec T k a -> rho_spec T k b -> a = b).
  { intros k a b [[E ->]|[N [(A & B & C)|[-> A]]]] [[E' ->]|[N' [(A' & B' & C')|[-> A']]]]; try congruence.
    - apply Gq; auto. specialize (C b A' B'). specialize (C' a A B). lia.
    - specialize (A' a A). lia.
    - specialize (A b A'). lia. }
  assert (Uat : forall k a b, uat_spec T k a -> uat_spec T k b -> a = b).
  { intros k a b [[E ->]|[N [(A & B & C)|[-> A]]]] [[E' ->]|[N' [(A' & B' & C')|[-> A']]]]; try congruence.
    - apply Gq; auto. specialize (C b A' B'). specialize (C' a A B). lia.
    - specialize (A' a A). lia.
    - specialize (A b A'). lia. }
  assert (Ohr : forall k a b, ohr_spec T k a -> ohr_spec T k b -> a = b).
  { intros k a b [[E ->]|[N [(A & B & C)|[-> A]]]] [[E' ->]|[N' [(A' & B' & C')|[-> A']]]]; try congruence.
    - apply Gp; auto. specialize (C b A' B'). specialize (C' a A B). lia.
    - specialize (A' a A). lia.
    - specialize (A b A'). lia. }
  destruct mk as [[| | | | |] k]; cbn [answer]; try solve [eauto].
  - intros (l & -> & a & A & ->) (l' & -> & b & B & ->). rewrite (Uat k a b A B). reflexivity.
  - intros (l & -> & a & A & ->) (l' & -> & b & B & ->). rewrite (Tau k a b A B). reflexivity.
Qed.
Lemma same_runs C s C' s' T : answers C s T -> answers C' s' T ->
  forall h, Forall (fun mk => minf <= snd mk <= maxf) h -> run C s h = run C' s' h.
Proof.
  intros [G A] [_ B] h Hh. destruct (A h Hh) as (rs & -> & H1). destruct (B h Hh) as (rs' & -> & H2). f_equal.
  revert rs rs' H1 H2. induction Hh as [|mk h Hk _ IH]; intros rs rs' H1 H2.
  - inversion H1; inversion H2; reflexivity.
  - inversion H1 as [|? r ? rs0 R1 R2]; subst. inversion H2 as [|? r' ? rs0' R1' R2']; subst.
    f_equal; [exact (answer_fun T mk r r' G Hk R1 R1')|apply IH; assumption].
Qed.

(* ------------------------------------------------------------------ *)
(** * Background merging *)
Lemma stored_app A B f x : stored_by (A ++ B) f x <-> stored_by A f x \/ stored_by B f x.
Proof.
  unfold stored_by. split.
  - intros (w & Hw & Hx). apply in_app_iff in Hw. destruct Hw; eauto.
  - intros [(w & Hw & Hx)|(w & Hw & Hx)]; exists w; rewrite in_app_iff; auto.
Qed.
Lemma stored_cons w B f x : stored_by (w :: B) f x <-> stored_in w f x \/ stored_by B f x.
Proof. unfold stored_by. cbn. split; [intros (v & [->|Hv] & Hx); eauto|intros [Hx|(v & Hv & Hx)]; eauto]. Qed.
Lemma count_app A B f : bigwig_count (A ++ B) f = bigwig_count A f + bigwig_count B f.
Proof. unfold bigwig_count. induction A as [|w A IH]; cbn; lia. Qed.
Lemma count_nonneg w f : 0 <= fiver_count w f.
Proof. unfold fiver_count, psize, len. destruct (find_posting w f); lia. Qed.
Lemma counts_nonneg A f : 0 <= bigwig_count A f.
Proof. induction A as [|w A IH]; cbn; [lia|]. pose proof (count_nonneg w f). unfold bigwig_count in IH. lia. Qed.
Lemma count_cons w A f : bigwig_count (w :: A) f = fiver_count w f + bigwig_count A f.
Proof. reflexivity. Qed.
Lemma covered_dec chunk ws y : Forall (sound chunk) ws -> null_feature <> chunk ->
  (exists e, innermost_of ws null_feature e /\ nests e y) \/ ~ (exists e, innermost_of ws null_feature e /\ nests e y).
Proof.
  intros H N. destruct (lsts_exist chunk ws null_feature H N) as [es Hes].
  destruct (visit_inner es (lsts_gcdup _ _ _ Hes)) as [_ L].
  pose proof (lsts_inner _ _ _ Hes) as E.
  assert (Eq : forall e, innermost_of ws null_feature e <-> In e (survivors minf (map snd (visit es)))) by (intros e; rewrite L; apply E).
  destruct (Exists_dec (fun e => nests e y) (survivors minf (map snd (visit es))) (fun e => nests_dec e y)) as [Ex|Nx].
  - left. apply Exists_exists in Ex. destruct Ex as (e & He & Ne). exists e. split; [apply Eq, He|exact Ne].
  - right. intros (e & He & Ne). apply Nx. apply Exists_exists. exists e. split; [apply Eq, He|exact Ne].
Qed.

(** What a merge must give: [M] in place of [R]. *)
Definition replaces (chunk : Z) (R : list index) (M : index) : Prop :=
  R = [M] \/ (sound chunk M /\ eqs (stored_in M null_feature) (innermost_of R null_feature) /\
  (forall f, f <> chunk -> f <> null_feature -> eqs (stored_in M f) (sem_nin (innermost_of R f) (innermost_of R null_feature))) /\
  (forall f, f <> chunk -> fiver_count M f <= bigwig_count R f)).
Lemma fiver_replaces sort chunk run m : fiver_merge sort chunk run = Ok (Some m) -> null_feature <> chunk ->
  Forall (sound chunk) (ixs run) -> room (ixs run) null_feature -> replaces chunk (ixs run) (f_index m).
Proof.
  intros Hm N S Rn.
  assert (K : run = [m] \/ (1 < length run)%nat).
  { destruct run as [|w0 [|w1 ws]]; [discriminate| |right; cbn; lia]. left. cbn in Hm. injection Hm as ->. reflexivity. }
  destruct K as [->|K]; [left; reflexivity|right]. exact (fiver_merge_ok sort chunk run m Hm K S N Rn).
Qed.
Section Step.
Variables (chunk : Z) (N : null_feature <> chunk).
Variables (A R D : list index) (M : index).
Hypothesis merge_cases : replaces chunk R M.
Hypothesis Hs : Forall (sound chunk) (A ++ R ++ D).

Lemma run_sound : Forall (sound chunk) R.
Proof. apply Forall_app in Hs. destruct Hs as [_ H]. apply Forall_app in H. apply H. Qed.

Lemma step_sound : Forall (sound chunk) (A ++ M :: D).
Proof.
  pose proof Hs as K. apply Forall_app in K. destruct K as [K1 K2]. apply Forall_app in K2. destruct K2 as [K2 K3].
  apply Forall_app. split; [exact K1|]. constructor; [|exact K3].
  destruct merge_cases as [E|(S & _)]; [|exact S]. rewrite E in K2. inversion K2; assumption.
Qed.
Lemma step_stored f x : f <> chunk -> stored_by (A ++ M :: D) f x -> stored_by (A ++ R ++ D) f x.
Proof.
  intros Nf. rewrite !stored_app, stored_cons. intros [H|[H|H]]; auto. right. left.
  destruct merge_cases as [E|(_ & S0 & S1 & _)].
  - rewrite E. cbn. apply stored_cons. auto.
  - destruct (Z.eq_dec f null_feature) as [->|Nn].
    + apply S0 in H. apply innermost_stored, H.
    + apply (S1 f Nf Nn) in H. apply innermost_stored. apply H.
Qed.
Lemma step_room f : f <> chunk -> room (A ++ R ++ D) f -> room (A ++ M :: D) f.
Proof.
  intros Nf H. pose proof merge_cases as MC. unfold room in H |- *. rewrite !count_app in H. rewrite count_app, count_cons.
  destruct MC as [E|(_ & _ & _ & L)].
  { assert (Q : bigwig_count R f = fiver_count M f) by (rewrite E; change (fiver_count M f + 0 = fiver_count M f); lia). lia. }
  specialize (L f Nf). lia.
Qed.
Lemma step_apart : erasures_apart (A ++ R ++ D) -> erasures_apart (A ++ M :: D).
Proof. intros H d e Hd He. apply H; apply step_stored; assumption. Qed.
Lemma step_erased : erasures_apart (A ++ R ++ D) -> forall x, erased (A ++ M :: D) x <-> erased (A ++ R ++ D) x.
Proof.
  intros Ap x. split.
  - intros (e & He & Ne). exists e. split; [apply step_stored; assumption|exact Ne].
  - intros (e & He & Ne). pose proof He as He0. rewrite !stored_app in He.
    assert (Go : stored_by R null_feature e -> erased (A ++ M :: D) x).
    { intros K. destruct merge_cases as [E|(_ & S0 & _)].
      - exists e. split; [|exact Ne]. rewrite E in K. cbn in K. apply stored_cons in K.
        destruct K as [K|(w & [] & _)]. rewrite stored_app, stored_cons. auto.
      - destruct (sound_grounded chunk R null_feature run_sound N e) as (z & Hz & Nz); [apply U_stored, K|].
        exists z. split; [rewrite stored_app, stored_cons; right; left; apply S0, Hz|].
        apply (nests_trans _ e); [|exact Ne]. apply Ap; [exact He0| |exact Nz].
        rewrite !stored_app. right. left. apply innermost_stored, Hz. }
    destruct He as [He|[He|He]]; [|exact (Go He)|]; exists e; (split; [rewrite stored_app, stored_cons; auto|exact Ne]).
Qed.
Lemma step_straddle f : f <> chunk -> erasures_apart (A ++ R ++ D) -> no_straddle (A ++ R ++ D) f -> no_straddle (A ++ M :: D) f.
Proof.
  intros Nf Ap H x y Hx Hy Nxy He. apply (step_erased Ap). apply (step_erased Ap) in He.
  apply (H x y); auto; apply step_stored; assumption.
Qed.
Lemma step_visible f : f <> chunk -> f <> null_feature -> erasures_apart (A ++ R ++ D) -> no_straddle (A ++ R ++ D) f ->
  forall x, visible (A ++ M :: D) f x <-> visible (A ++ R ++ D) f x.
Proof.
  intros Nf Nn Ap Ns x. unfold visible. rewrite (step_erased Ap x).
  destruct merge_cases as [E|(_ & S0 & S1 & _)].
  { rewrite E. reflexivity. }
  assert (Main : ~ erased (A ++ R ++ D) x -> stored_by (A ++ R ++ D) f x ->
            (innermost_of (A ++ M :: D) f x <-> innermost_of (A ++ R ++ D) f x)).
  { intros Nx Sx. unfold innermost_of. rewrite !map_app. cbn [map].
    rewrite <- (inner_flat _ _ (map (fun w => stored_in w f) D) (innermost_of R f)
                  (sound_grounded chunk R f run_sound Nf) (fun y => iff_refl _) x).
    apply inner_drop.
    - intros y Hy. apply (S1 f Nf Nn) in Hy. apply Hy.
    - intros y Hy. destruct (covered_dec chunk R y run_sound N) as [Cv|Nc].
      + right. intros Nxy. apply Nx. apply (Ns x y Sx); [|exact Nxy|].
        * rewrite !stored_app. right. left. apply innermost_stored, Hy.
        * destruct Cv as (e & He & Ne). exists e. split; [|exact Ne]. rewrite !stored_app. right. left. apply innermost_stored, He.
      + left. apply (S1 f Nf Nn). split; assumption. }
  split; intros [Hx Nx]; (split; [|exact Nx]).
  - apply Main; [exact Nx| |exact Hx]. apply step_stored; [exact Nf|]. apply innermost_stored, Hx.
  - apply Main; [exact Nx| |exact Hx]. apply innermost_stored, Hx.
Qed.
(** Nothing visible is lost, whatever is erased. *)
Lemma step_keeps f : f <> chunk -> f <> null_feature -> erasures_apart (A ++ R ++ D) ->
  forall x, visible (A ++ R ++ D) f x -> visible (A ++ M :: D) f x.
Proof.
  intros Nf Nn Ap x [Hx Nx]. split; [|intros K; apply Nx, (step_erased Ap), K].
  destruct merge_cases as [E|(_ & S0 & S1 & _)].
  { rewrite E in Hx. exact Hx. }
  unfold innermost_of in *. rewrite !map_app in *. cbn [map].
  apply (inner_flat _ _ (map (fun w => stored_in w f) D) (innermost_of R f)
                  (sound_grounded chunk R f run_sound Nf) (fun y => iff_refl _) x) in Hx.
  apply sem_inner_pick in Hx. apply sem_inner_pick. destruct Hx as [P L].
  assert (Sub : forall y, stored_in M f y -> innermost_of R f y) by (intros y Hy; apply (S1 f Nf Nn) in Hy; apply Hy).
  split.
  - rewrite pick_app in *. cbn [pick] in *. destruct P as [[P|[P K]]|[P K]]; auto.
    + left. right. split; [|exact K]. apply (S1 f Nf Nn). split; [exact P|]. intros (e & He & Ne). apply Nx.
      exists e. split; [|exact Ne]. rewrite !stored_app. right. left. apply innermost_stored, He.
    + right. split; [exact P|]. intros y Hy. apply K. apply U_cons in Hy. apply U_cons. destruct Hy; auto.
  - intros y Hy. apply L. rewrite U_app, U_cons in *. destruct Hy as [Hy|[Hy|Hy]]; auto.
Qed.
End Step.

Lemma steps_visible sort chunk ws ws' : merge_steps sort chunk ws ws' -> null_feature <> chunk ->
  Forall (sound chunk) (ixs ws) -> room (ixs ws) null_feature -> erasures_apart (ixs ws) ->
  Forall (sound chunk) (ixs ws') /\ room (ixs ws') null_feature /\ erasures_apart (ixs ws') /\
  forall f, f <> chunk -> f <> null_feature -> room (ixs ws) f ->
    room (ixs ws') f /\
    (forall x, visible (ixs ws) f x -> visible (ixs ws') f x) /\
    (no_straddle (ixs ws) f -> no_straddle (ixs ws') f /\ forall x, visible (ixs ws') f x <-> visible (ixs ws) f x).
Proof.
  intros H N. induction H as [ws|a b c H _ IH]; intros S Rn Ap.
  - split; [exact S|]. split; [exact Rn|]. split; [exact Ap|]. intros f Nf Nn Rf. split; [exact Rf|]. split; [tauto|].
    intros Ns. split; [exact Ns|]. tauto.
  - destruct H as [B r C m Hm]. unfold ixs in *. rewrite !map_app in *. cbn [map] in *.
    assert (Mc : replaces chunk (map f_index r) (f_index m)).
    { apply (fiver_replaces sort chunk r m Hm N (run_sound chunk _ _ _ S)). unfold room in *. rewrite !count_app in Rn. unfold ixs.
      pose proof (counts_nonneg (map f_index B) null_feature). pose proof (counts_nonneg (map f_index C) null_feature). lia. }
    pose proof (step_sound chunk _ _ _ _ Mc S) as S'.
    pose proof (step_room chunk _ _ _ _ Mc null_feature N Rn) as Rn'.
    pose proof (step_apart chunk N _ _ _ _ Mc Ap) as Ap'.
    destruct (IH S' Rn' Ap') as (S2 & R2 & A2 & K). split; [exact S2|]. split; [exact R2|]. split; [exact A2|].
    intros f Nf Nn Rf. destruct (K f Nf Nn (step_room chunk _ _ _ _ Mc f Nf Rf)) as (K1 & K2 & K3).
    split; [exact K1|]. split.
    + intros x Hx. apply K2. exact (step_keeps chunk N _ _ _ _ Mc S f Nf Nn Ap x Hx).
    + intros Ns. destruct (K3 (step_straddle chunk N _ _ _ _ Mc S f Nf Ap Ns)) as [K4 K5]. split; [exact K4|].
      intros x. rewrite K5. exact (step_visible chunk N _ _ _ _ Mc S f Nf Nn Ap Ns x).
Qed.

(** C17 *)
Theorem merging_invisible : forall sort chunk ws ws', merge_steps sort chunk ws ws' -> null_feature <> chunk ->
  Forall (sound chunk) (ixs ws) -> room (ixs ws) null_feature -> erasures_apart (ixs ws) ->
  forall f, f <> chunk -> f <> null_feature -> room (ixs ws) f -> no_straddle (ixs ws) f ->
  exists o o', bigwig_hopper (ixs ws) f = Ok o /\ bigwig_hopper (ixs ws') f = Ok o' /\
    answers (projT1 o) (projT2 o) (visible (ixs ws) f) /\ answers (projT1 o') (projT2 o') (visible (ixs ws) f) /\
    forall h, Forall (fun mk => minf <= snd mk <= maxf) h ->
      run (projT1 o) (projT2 o) h = run (projT1 o') (projT2 o') h.
Proof.
  intros sort chunk ws ws' H N S Rn Ap f Nf Nn Rf Ns.
  destruct (steps_visible sort chunk ws ws' H N S Rn Ap) as (S' & Rn' & Ap' & K).
  destruct (K f Nf Nn Rf) as (Rf' & _ & K3). destruct (K3 Ns) as [_ V].
  destruct (view_visible chunk _ f S N Nf Nn Rf Rn Ap) as (o & E & O).
  destruct (view_visible chunk _ f S' N Nf Nn Rf' Rn' Ap') as (o' & E' & O').
  apply (answers_eqs _ _ _ _ V) in O'. exists o, o'. split; [exact E|]. split; [exact E'|]. split; [exact O|]. split; [exact O'|].
  intros h Hh. exact (same_runs _ _ _ _ _ O O' h Hh).
Qed.

(** C16, all shards merged into one. *)
Theorem merged_visible : forall sort chunk ws m, fiver_merge sort chunk ws = Ok (Some m) -> null_feature <> chunk ->
  Forall (sound chunk) (ixs ws) -> room (ixs ws) null_feature -> erasures_apart (ixs ws) ->
  forall f, f <> chunk -> f <> null_feature -> room (ixs ws) f ->
  exists o, bigwig_hopper [f_index m] f = Ok o /\ answers (projT1 o) (projT2 o) (visible (ixs ws) f).
Proof.
  intros sort chunk ws m E N S Rn Ap f Nf Nn Rf.
  assert (K : ws = [m] \/ (1 < length ws)%nat).
  { destruct ws as [|w0 [|w1 ws]]; [discriminate| |right; cbn; lia]. left. cbn in E. injection E as ->. reflexivity. }
  destruct K as [->|K]; [exact (view_visible chunk _ f S N Nf Nn Rf Rn Ap)|].
  destruct (fiver_merge_ok sort chunk ws m E K S N Rn) as (Sm & S0 & S1 & L).
  assert (Rm : forall g, g <> chunk -> room (ixs ws) g -> room [f_index m] g).
  { intros g Ng Rg. unfold room in *. change (fiver_count (f_index m) g + 0 <= 2305843009213693951).
    specialize (L g Ng). unfold ixs in Rg. lia. }
  destruct (view_ok chunk [f_index m] f (Forall_cons _ Sm (Forall_nil _)) N Nf (Rm f Nf Rf) (Rm _ N Rn)) as (o & Eo & A).
  exists o. split; [exact Eo|]. apply Z.eqb_neq in Nn. rewrite Nn in A. apply Z.eqb_neq in Nn. revert A. apply answers_eqs.
  assert (One : forall g, g <> chunk -> eqs (innermost_of [f_index m] g) (stored_in (f_index m) g)).
  { intros g Ng. destruct (lst_exists chunk _ g Sm Ng) as [l Hl].
    refine (eqs_trans _ _ _ (lsts_inner g [f_index m] [l] (Forall2_cons _ _ Hl (Forall2_nil _))) _).
    refine (eqs_trans _ _ _ (inner_one l (lst_gcdup _ _ _ Hl)) _). apply eqs_sym, lst_stored, Hl. }
  intros x. unfold sem_nin, visible. rewrite (One f Nf x), (S1 f Nf Nn x). unfold sem_nin.
  rewrite (erased_inner chunk (ixs ws) S N Ap x). unfold ixs in *. split.
  - intros [[H1 H2] _]. split; [exact H1|]. intros (e & He & Ne). apply H2. exists e. split; assumption.
  - intros [H1 H2]. assert (H3 : ~ (exists e, innermost_of (map f_index ws) null_feature e /\ nests e x)).
    { intros (e & He & Ne). apply H2. exists e. split; assumption. }
    split; [split; [exact H1|exact H3]|]. intros (e & He & Ne). apply H3. exists e. split; [|exact Ne]. apply S0, (One _ N e), He.
Qed.
