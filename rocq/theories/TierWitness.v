(** A small collection for the theorems about tiers. *)
From Verif Require Import Base Bytes HopperModel ArrayDefs GclSpec HopperProofs GclProofs ArrayProofs UnaryProofs VectorModel UnaryModel AnswerProofs
  QueryModel QuerySpec RankModel RankSpec RankTop RankWitness TierModel TierSpec TierProofs TierSem TierTop.

(** Items as in RankWitness: 0-9 has "a b", 10-19 one "a", 20-29 "a" twice, 30-39 "c ... b". *)
Definition tlist (t : bytes) : list iv :=
  if eqb_bytes t (lit "a") then [Iv 1 1 0; Iv 11 11 0; Iv 21 21 0; Iv 25 25 0]
  else if eqb_bytes t (lit "b") then [Iv 2 2 0; Iv 35 35 0]
  else if eqb_bytes t (lit "c") then [Iv 31 31 0] else [].
Definition tset (t : bytes) : iv -> Prop := set_of (tlist t).
Definition tix (t : bytes) : hobj := existT _ (stored_cls true (tlist t)) (stored_start true (tlist t)).
Definition tquery : bytes := lit "a b a c".
Definition tsplit (w : bytes) : list bytes := if eqb_bytes w tquery then [lit "a"; lit "b"; lit "a"; lit "c"] else [].
Definition tcount (t : bytes) : Z := Z.of_nat (length (tlist t)).
Definition trare (t : bytes) : Z := 10 - 2 * tcount t.
(** delta is 3 *)
Definition tnear (w v : Z) : bool := w - v <? 3.
Definition tweight (p q : Z) : Z := 1 + Z.abs (60 / (q - p + 1)).

Lemma tlist_cases (P : list iv -> Prop) :
  P [Iv 1 1 0; Iv 11 11 0; Iv 21 21 0; Iv 25 25 0] -> P [Iv 2 2 0; Iv 35 35 0] -> P [Iv 31 31 0] -> P [] -> forall t, P (tlist t).
Proof. intros H1 H2 H3 H4 t. unfold tlist. repeat (destruct (eqb_bytes t _); [assumption|]). assumption. Qed.
Lemma tix_ok : index_for tix tset.
Proof.
  intros t. apply stored_answers; [|revert t; apply (tlist_cases (fun l => Z.of_nat (length l) <= 2305843009213693951)); cbn; lia|discriminate].
  revert t. apply (tlist_cases gclist); cbn; unfold finite, minf, maxf; cbn; lia.
Qed.
Lemma tset_points t x : tset t x -> iq x = ip x /\ 0 <= ip x.
Proof.
  unfold tset. apply (tlist_cases (fun l => set_of l x -> iq x = ip x /\ 0 <= ip x)); intros H; cases H; cbn; lia.
Qed.
Lemma ttokens : tokens_indexed tset tsplit.
Proof.
  intros p. unfold tsplit. destruct (eqb_bytes p tquery); [|split; [cbn; lia|intros t []]].
  split; [cbn; lia|]. intros t Ht. assert (t = lit "a" \/ t = lit "b" \/ t = lit "c") as [->|[->| ->]] by (cbn [In] in Ht; intuition);
    (split; [discriminate|]); (split; [reflexivity|]); (split; [reflexivity|]); intros x Hx; apply (tset_points _ x Hx).
Qed.
Lemma tplain t : In t (tsplit tquery) -> plain t.
Proof. intros Ht. destruct (ttokens tquery) as [_ K]. destruct (K t Ht) as (A & B & C & _). split; [exact A|]. split; assumption. Qed.
Definition tmatch : hobj := match gcl_hopper tix tcount true tsplit (lit "(+ (^ c b ) (... a a))") with Ok (Some o) => o | _ => tix [] end.
Lemma tmatch_ok : answers _ (projT2 tmatch) (meaning tset (tier_query [[lit "c"; lit "b"]; [lit "a"]])) /\
  holds tset (Iv 20 29 0) [lit "a"] /\ ~ holds tset (Iv 20 29 0) [lit "c"; lit "b"].
Proof.
  split; [|split].
  - assert (forall c, In c [[lit "c"; lit "b"]; [lit "a"]] -> Forall plain c) as HP.
    { intros c Hc. apply Forall_forall. intros t Ht. apply tplain. change (tsplit tquery) with [lit "a"; lit "b"; lit "a"; lit "c"].
      cbn [In] in *. destruct Hc as [<-|[<-|[]]]; cbn [In] in *; intuition. }
    destruct (tier_hopper tset tsplit tix tcount true (lit "(+ (^ c b ) (... a a))") [[lit "c"; lit "b"]; [lit "a"]] ttokens tix_ok) as (o & E & A);
      [vm_compute; reflexivity|exact HP|discriminate|intros c [<-|[<-|[]]]; discriminate|].
    unfold tmatch. rewrite E. revert A. apply QuerySem.answers_ext. apply tier_same. intros c t Hc Ht x. apply phrased_plain. specialize (HP c Hc). rewrite Forall_forall in HP. auto.
  - exists (Iv 21 21 0), (Iv 25 25 0). unfold nests. cbn. repeat split; try lia; [right; right; left; reflexivity|right; right; right; left; reflexivity].
  - intros H. destruct (H (lit "c")) as (x & Hx & N); [left; reflexivity|]. destruct Hx as [<-|[]]. unfold nests in N. cbn in N. lia.
Qed.
Lemma z_gt : weak_order Z.gtb.
Proof.
  destruct z_order as (A & B & C). assert (forall a b, (a >? b) = (b <? a)) as E by (intros; apply Z.gtb_ltb). split; [intros a; rewrite E; apply A|].
  split; intros a b c; rewrite !E; [intros H1 H2; exact (B _ _ _ H2 H1)|intros H; destruct (C _ b _ H); auto].
Qed.
Lemma tweight_positive p q : positive 0 Z.add Z.ltb (tweight p q).
Proof. apply z_positive. unfold tweight. apply Z.ltb_lt. lia. Qed.
Lemma tall_ok : tokens_indexed tset tsplit /\ index_for tix tset /\ (forall t x, tset t x -> 0 <= ip x) /\
  (forall p q, positive 0 Z.add Z.ltb (tweight p q)) /\ (length rconts <= 9)%nat /\
  (answers _ (st rconts) (set_of rconts) /\ listed (set_of rconts) rconts) /\ apart (set_of rconts) /\ weak_order Z.gtb /\ sorts isrt.
Proof.
  split; [exact ttokens|]. split; [exact tix_ok|]. split; [intros t x H; apply (tset_points t x H)|]. split; [exact tweight_positive|].
  split; [cbn; lia|]. split; [exact rconts_ok|]. split; [exact rconts_apart|]. split; [exact z_gt|exact isrt_sorts].
Qed.
Lemma tbuild_run : build_tiers 0 Z.add Z.gtb tnear tsplit isrt trare tquery =
  Ok [lit "(+ (^ c b a ) (^ c b ))"; lit "(+ (^ c a ) (^ b a ) (... c c))"; lit "(... b b)"; lit "(... a a)"].
Proof. vm_compute. reflexivity. Qed.
Definition trank (depth : nat) := tiered_by_text 0 Z.add Z.ltb Z.gtb tnear tsplit isrt trare tix tcount true tweight Z.of_nat _ (st rconts) depth tquery.
Lemma trank_run : trank 9 = Ok [Res 31 35 30 39 9; Res 1 2 0 9 8; Res 21 25 20 29 7] /\ trank 2 = Ok [Res 31 35 30 39 2; Res 1 2 0 9 1].
Proof. vm_compute. split; reflexivity. Qed.
(** The item 10-19 has a word of the query, once, and is not ranked. *)
Lemma tmissed : exists out d t, trank 9 = Ok out /\ (length rconts <= 9)%nat /\ In d rconts /\ In t (tsplit tquery) /\ (exists x, tset t x /\ nests d x) /\ ~ In (ip d) (map rcp out).
Proof.
  eexists. exists (Iv 10 19 0), (lit "a"). split; [exact (proj1 trank_run)|]. split; [cbn; lia|]. split; [right; left; reflexivity|]. split; [left; reflexivity|]. split.
  - exists (Iv 11 11 0). split; [right; left; reflexivity|unfold nests; cbn; lia].
  - cbn. intros [H|[H|[H|[]]]]; discriminate.
Qed.
