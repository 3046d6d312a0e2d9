(** Small collections for the theorems about icover_ranking. *)
From Verif Require Import Base HopperModel ArrayDefs GclSpec HopperProofs GclProofs ArrayProofs UnaryProofs VectorModel UnaryModel AnswerProofs
  RankModel RankSpec RankProofs RankTop RankWitness IcoverModel IcoverSpec IcoverProofs IcoverRound IcoverTop.

(** score - 10 n log2(len + 1) *)
Definition cpenal (s : Z) (n : nat) (len : Z) : Z := s - 10 * Z.of_nat n * Z.log2 (len + 1).
Definition chop_of (l : list iv) : hobj := existT St (stored_cls false l) (st l).
Definition zcover (lists : list (Z * list iv)) (conts : list iv) (depth : nat) :=
  icover_ranking 0 Z.add Z.ltb isrt isrt cpenal lists fst (fun t => chop_of (snd t)) (Some (chop_of conts)) depth.
Definition cwords (lists : list (Z * list iv)) := map (fun t : Z * list iv => (fst t, set_of (snd t))) lists.
Definition plain_list (l : list iv) : Prop :=
  gclist l /\ Z.of_nat (length l) <= 1000 /\ Forall (fun x => ivl x = 0) l /\ forall x, In x l -> 0 <= ip x.
Definition usable (lists : list (Z * list iv)) (conts : list iv) : Prop :=
  (forall t, In t lists -> hop_of (chop_of (snd t)) (set_of (snd t))) /\
  (forall t a, In t lists -> set_of (snd t) a -> 0 <= ip a) /\ hop_of (chop_of conts) (set_of conts).
Lemma usable_plain lists conts : (forall t, In t lists -> plain_list (snd t)) -> plain_list conts -> usable lists conts.
Proof.
  intros H (C1 & C2 & C3 & _). split; [|split].
  - intros t Ht. destruct (H t Ht) as (G & L & V & _). exact (proj1 (st_answers _ G L V)).
  - intros t a Ht Ha. destruct (H t Ht) as (_ & _ & _ & N). exact (N a Ha).
  - exact (proj1 (st_answers _ C1 C2 C3)).
Qed.
Ltac plainl := split; [gcl|]; split; [cbn; lia|]; split; [repeat constructor|]; intros ? Hx; cases Hx; cbn; lia.

(** Two words: 0-9 holds both, far apart and near; 10-19 holds both; 20-29 holds one. *)
Definition clists : list (Z * list iv) := [(50, [Iv 1 1 0; Iv 4 4 0; Iv 12 12 0]); (70, [Iv 5 5 0; Iv 18 18 0; Iv 22 22 0])].
Definition cconts := [Iv 0 9 0; Iv 10 19 0; Iv 20 29 0].
Lemma clists_ok : usable clists cconts.
Proof. apply usable_plain; [intros t Ht; cases Ht; cbn [snd]; plainl|plainl]. Qed.
Lemma clists_run : zcover clists cconts 3 = Ok [Res 4 5 0 9 100; Res 12 18 10 19 80; Res 22 22 20 29 70].
Proof. vm_compute. reflexivity. Qed.
Lemma ccover : cover (cwords clists) (Iv 12 18 0) /\ first_container (set_of cconts) (Iv 12 18 0) (Iv 10 19 0).
Proof.
  split.
  - split; [gcl|]. split; [reflexivity|]. split.
    + intros w Hw. cbn in Hw. cases Hw; cbn [snd].
      * exists (Iv 12 12 0). split; [cbn; auto|split; cbn; lia].
      * exists (Iv 18 18 0). split; [cbn; auto|split; cbn; lia].
    + intros y Fy Hy [N1 N2]. cbn in N1, N2.
      destruct (Hy _ (or_introl eq_refl)) as (a & Sa & A1 & A2). destruct (Hy _ (or_intror (or_introl eq_refl))) as (b & Sb & B1 & B2).
      cbn in Sa, Sb. split; cbn; cases Sa; cases Sb; cbn in *; lia.
  - split; [cbn; auto|]. split; [split; cbn; lia|]. intros d Cd [N1 N2]. cbn in Cd. cases Cd; cbn in *; lia.
Qed.

(** Three words: 0-9 holds all, apart; 20-29 holds the lightest and the heaviest side by side. *)
Definition dlists : list (Z * list iv) := [(30, [Iv 4 4 0; Iv 21 21 0]); (40, [Iv 8 8 0]); (100, [Iv 1 1 0; Iv 22 22 0])].
Definition dconts := [Iv 0 9 0; Iv 20 29 0].
Lemma dropped_wrong : usable dlists dconts /\ exists out r, zcover dlists dconts 1 = Ok out /\
  passage 0 Z.add cpenal (cwords dlists) (set_of dconts) r /\ ~ placed Z.ltb 1 out (rcp r) (rscore r).
Proof.
  split; [apply usable_plain; [intros t Ht; cases Ht; cbn [snd]; plainl|plainl]|].
  exists [Res 1 1 0 9 100], (Res 21 22 20 29 110). split; [vm_compute; reflexivity|]. split.
  - exists [(30, set_of [Iv 4 4 0; Iv 21 21 0]); (100, set_of [Iv 1 1 0; Iv 22 22 0])], [(40, set_of [Iv 8 8 0])].
    split; [apply perm_skip, perm_swap|]. split; [discriminate|]. split; [|split; [reflexivity|]].
    + split; [gcl|]. split; [reflexivity|]. split.
      * intros w Hw. cbn in Hw. cases Hw; cbn [snd].
        -- exists (Iv 21 21 0). split; [cbn; auto|split; cbn; lia].
        -- exists (Iv 22 22 0). split; [cbn; auto|split; cbn; lia].
      * intros y Fy Hy [N1 N2]. cbn in N1, N2.
        destruct (Hy _ (or_introl eq_refl)) as (a & Sa & A1 & A2). destruct (Hy _ (or_intror (or_introl eq_refl))) as (b & Sb & B1 & B2).
        cbn in Sa, Sb. split; cbn; cases Sa; cases Sb; cbn in *; lia.
    + exists (Iv 20 29 0). split; [|auto]. split; [cbn; auto|]. split; [split; cbn; lia|].
      intros d Cd [N1 N2]. cbn in Cd. cases Cd; cbn in *; lia.
  - intros [(r & [<-|[]] & H & _)|[_ H]]; [discriminate|]. specialize (H _ (or_introl eq_refl)). discriminate.
Qed.

(** One word: 0-9 holds it twice, 20-29 once. *)
Definition elists : list (Z * list iv) := [(30, [Iv 2 2 0; Iv 4 4 0; Iv 22 22 0])].
Lemma crowded_wrong : usable elists dconts /\ exists out r, zcover elists dconts 2 = Ok out /\
  passage 0 Z.add cpenal (cwords elists) (set_of dconts) r /\ (length out < 2)%nat /\ ~ In (rcp r) (map rcp out).
Proof.
  split; [apply usable_plain; [intros t Ht; cases Ht; cbn [snd]; plainl|plainl]|].
  exists [Res 2 2 0 9 30], (Res 22 22 20 29 30). split; [vm_compute; reflexivity|]. split; [|split; [cbn; lia|]].
  - exists (cwords elists), []. split; [rewrite app_nil_r; reflexivity|]. split; [discriminate|]. split; [|split; [reflexivity|]].
    + apply (cover_one (F := Z) (30, set_of [Iv 2 2 0; Iv 4 4 0; Iv 22 22 0]) (Iv 22 22 0)).
      * cbn [snd]. apply (fun G L V => proj1 (proj1 (st_answers [Iv 2 2 0; Iv 4 4 0; Iv 22 22 0] G L V))); [gcl|cbn; lia|repeat constructor].
      * cbn. auto.
    + exists (Iv 20 29 0). split; [|auto]. split; [cbn; auto|]. split; [split; cbn; lia|].
      intros d Cd [N1 N2]. cbn in Cd. cases Cd; cbn in *; lia.
  - cbn. intros [H|[]]. discriminate.
Qed.

(** The theorems of PropsIcover.v. *)
Section Statements.
Context {F : Type} (zero : F) (add : F -> F -> F) (lt : F -> F -> bool) (sort stable_sort : sorter) (penal : F -> nat -> Z -> F).
Context {T : Type} (terms : list T) (weight : T -> F) (hopper : T -> hobj) (E : T -> iv -> Prop) (chop : hobj) (C : iv -> Prop) (depth : nat).
Context (W : weak_order lt) (HS : sorts sort) (HT : sorts_stably stable_sort) (Hd : (0 < depth)%nat).
Context (Ho : forall t, In t terms -> answers (projT1 (hopper t)) (projT2 (hopper t)) (E t)).
Context (Nn : forall t a, In t terms -> E t a -> 0 <= ip a) (Hc : answers (projT1 chop) (projT2 chop) C).
Lemma icover_ok : exists out, icover_ranking zero add lt sort stable_sort penal terms weight hopper (Some chop) depth = Ok out /\
  ranking_of zero add lt penal (map (fun t => (weight t, E t)) terms) C depth out /\
  ((2 <= length terms)%nat -> forall x c, cover (map (fun t => (weight t, E t)) terms) x -> first_container C x c ->
    exists order, Permutation (map (fun t => (weight t, E t)) terms) order /\
      (lt zero (cover_score zero add penal order (iq x - ip x)) = true ->
       placed lt depth out (ip c) (cover_score zero add penal order (iq x - ip x)))) /\
  ((exists t a c, In t terms /\ E t a /\ C c /\ nests c a) -> out <> []).
Proof.
  destruct terms as [|t0 ts] eqn:Et.
  - exists []. split; [reflexivity|]. split; [|split].
    + split; [cbn; apply Nat.le_0_l|]. split; [constructor|]. split; constructor.
    + cbn. intros H. inversion H.
    + intros (t & _ & _ & [] & _).
  - rewrite <- Et in *. apply wp_exists, (ranking_ok zero add lt sort stable_sort W HS HT penal terms weight hopper E chop C depth Hd Ho Hc Nn).
    rewrite Et. discriminate.
Qed.
End Statements.
Lemma nothing_asked : forall (F : Type) (zero : F) add lt sort stable_sort penal (T : Type) (terms : list T) weight hopper chopper depth,
  terms = [] \/ chopper = None ->
  icover_ranking zero add lt sort stable_sort penal terms weight hopper chopper depth = Ok [].
Proof. intros. destruct H as [-> | ->]; [reflexivity|destruct terms; reflexivity]. Qed.
