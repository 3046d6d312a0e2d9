(** Proofs about RandomModel.v. *)
From Verif Require Import Base HopperModel ArrayDefs GclSpec GclProofs UnaryModel UnaryProofs ArrayProofs VectorModel
  RankModel RankSpec RankProofs RankSsr RankTop RankWitness RandomModel RandomSpec.

Section Random.
Context {F : Type} (zero : F) (lt : F -> F -> bool) (sort : sorter).
Context (W : weak_order lt) (HS : sorts sort).
Context (C : hcls) (SC : iv -> Prop) (cs : list iv) (LC : listed SC cs).
Context (draw : nat -> option F) (depth : nat) (Hd : (0 < depth)%nat).
Notation result := (result (F := F)).
Notation drawn := (drawn zero lt draw).

Lemma drawn_app l : forall i m, drawn i (l ++ m) = drawn i l ++ drawn (i + length l) m.
Proof.
  clear W HS. induction l as [|a l IH]; intros i m; cbn [app length RandomSpec.drawn]; [rewrite Nat.add_0_r; reflexivity|].
  rewrite IH, app_assoc. replace (i + S (length l))%nat with (S i + length l)%nat by (cbn; apply plus_n_Sm). reflexivity.
Qed.

Definition rinv (s : St C * iv * nat * list result * list result) : Prop :=
  let '(h, x, i, top, current) := s in
  implements C h SC /\ exists done rest, cs = done ++ rest /\ x = hd maxr rest /\ i = length done /\
    collected zero lt depth (drawn 0 done) top current.

Lemma random_ok c : answers C c SC ->
  wp (random_ranking zero lt sort C draw c depth) (fun out => best lt depth (drawn 0 cs) out).
Proof.
  intros [G I]. unfold random_ranking. destruct (Nat.eqb_spec depth 0) as [E|_]; [lia|].
  assert (Fin : forall x, In x cs -> finite x) by (intros x Hx; apply (proj1 G), (proj2 LC), Hx).
  apply wp_bind. eapply wp_mono; [exact (implements_step _ _ _ Mtau (minf + 1) I ltac:(unfold minf, maxf; lia))|].
  intros [h x] [Ih Tx]. cbn in Tx.
  apply wp_bind. eapply wp_mono with (P := fun '(top, current) => collected zero lt depth (drawn 0 cs) top current).
  - apply (loop_rule rinv (fun '(_, x, _, _, _) => maxf - ip x)).
    + intros [[[[h' y] i] top] cur] (_ & done & rest & E & -> & _). pose proof (hd_bounds rest) as B.
      specialize (B ltac:(intros z Hz; apply Fin; rewrite E; apply in_or_app; auto)). lia.
    + intros [[[[h' y] i] top] cur] (Ih' & done & rest & E & -> & -> & Col). unfold random_step.
      assert (Fr : forall z, In z rest -> finite z) by (intros z Hz; apply Fin; rewrite E; apply in_or_app; auto).
      destruct (Z.ltb_spec (ip (hd maxr rest)) maxf) as [H|H].
      * destruct (hd_lt rest Fr H) as (y & r & ->). cbn [hd] in *. pose proof (Fr y (or_introl eq_refl)) as Fy. unfold finite in Fy.
        destruct (match draw (length done) with Some score => _ | None => (top, cur) end) as [top' cur'] eqn:Ek.
        apply wp_bind. apply wp_chk; [lia|].
        apply wp_bind. eapply wp_mono; [exact (implements_step _ _ _ Mtau (ip y + 1) Ih' ltac:(lia))|]. intros [h2 z] [I2 Tz]. cbn in Tz.
        apply wp_ok. pose proof (proj1 LC) as Gl.
        assert (E2 : cs = (done ++ [y]) ++ r) by (rewrite <- app_assoc; exact E).
        assert (Ez : z = hd maxr r).
        { apply (tau_hd SC (ip y + 1) z (done ++ [y]) r); [rewrite <- E2; exact LC|lia|exact Tz| |].
          - intros a Ha. apply in_app_or in Ha. destruct Ha as [Ha|[<-|[]]]; [|lia].
            rewrite E in Gl. pose proof (gclist_app_lt done (y :: r) a y Gl Ha (or_introl eq_refl)). lia.
          - intros a Ha. rewrite E2 in Gl. pose proof (gclist_app_lt (done ++ [y]) r y a Gl ltac:(apply in_or_app; right; left; reflexivity) Ha). lia. }
        split.
        -- split; [exact I2|]. exists (done ++ [y]), r. split; [exact E2|]. split; [exact Ez|].
           split; [rewrite app_length; cbn; lia|]. rewrite drawn_app. cbn [RandomSpec.drawn]. rewrite app_nil_r, Nat.add_0_l.
           destruct (draw (length done)) as [v|]; [|injection Ek as <- <-; rewrite app_nil_r; exact Col].
           destruct (lt zero v) eqn:Ev.
           ++ exact (keep_ok zero lt sort W HS depth _ top cur (res3 (ip y) (iq y) v) top' cur' Hd Col Ev Ek).
           ++ rewrite (keep_zero zero lt sort W depth _ top cur (res3 (ip y) (iq y) v) Hd Col Ev) in Ek.
              injection Ek as <- <-. rewrite app_nil_r. exact Col.
        -- subst z. destruct r as [|r0 r]; cbn [hd]; [cbn; lia|]. rewrite E in Gl.
           destruct (gclist_app _ _ Gl) as [_ G2]. pose proof (gclist_lt _ _ r0 G2 (or_introl eq_refl)). lia.
      * apply wp_ok. destruct rest as [|y r]; [rewrite E, app_nil_r; exact Col|].
        pose proof (Fr y (or_introl eq_refl)) as Fy. unfold finite in Fy. cbn in H. lia.
    + split; [exact Ih|]. exists [], cs. split; [reflexivity|]. split; [|split; [reflexivity|apply collected_nil, Hd]].
      apply (tau_hd SC (minf + 1) x [] cs); [exact LC|lia|exact Tx|intros a []|].
      intros a Ha. pose proof (Fin a Ha) as Fa. unfold finite in Fa. lia.
    + assert (minf <= ip x); [|unfold maxf, minf, BIG in *; lia].
      destruct Tx as [[E _]|[_ [(Sx & _)|[-> _]]]]; [lia| |cbn; unfold maxf, minf; lia].
      pose proof (proj1 G x Sx) as Fx. unfold finite in Fx. lia.
  - intros [top cur] Col. apply wp_ok. exact (collected_best zero lt sort W HS depth _ top cur Col).
Qed.
End Random.

Lemma random_best (F : Type) (zero : F) lt sort C c SC cs draw depth :
  weak_order lt -> sorts sort -> answers C c SC -> listed SC cs ->
  exists out, random_ranking zero lt sort C draw c depth = Ok out /\ best lt depth (drawn zero lt draw 0 cs) out.
Proof.
  intros W HS HA LC. destruct (Nat.eq_dec depth 0) as [->|H].
  - exists []. split; [reflexivity|]. exists (drawn zero lt draw 0 cs). split; [reflexivity|]. split; [reflexivity|]. split; [constructor|intros t r []].
  - apply wp_exists. exact (random_ok zero lt sort W HS C SC cs LC draw depth ltac:(lia) c HA).
Qed.
Lemma random_all (F : Type) (zero : F) lt sort C c SC cs draw depth :
  weak_order lt -> sorts sort -> answers C c SC -> listed SC cs -> (length cs <= depth)%nat ->
  (forall i, exists s, draw i = Some s /\ lt zero s = true) ->
  exists out, random_ranking zero lt sort C draw c depth = Ok out /\ Permutation (map (fun c => (ip c, iq c)) cs) (map (fun r => (rp r, rq r)) out).
Proof.
  intros W HS HA LC Hl Hp. destruct (random_best F zero lt sort C c SC cs draw depth W HS HA LC) as (out & E & lo & P & L & _).
  exists out. split; [exact E|].
  assert (M : forall l i, map (fun r => (rp r, rq r)) (drawn zero lt draw i l) = map (fun c => (ip c, iq c)) l).
  { clear - Hp. induction l as [|a l IH]; intros i; [reflexivity|]. cbn [drawn]. destruct (Hp i) as (s & -> & ->).
    cbn. rewrite IH. reflexivity. }
  assert (length (drawn zero lt draw 0 cs) = length cs) as Ld.
  { rewrite <- (map_length (fun r => (rp r, rq r))), M, map_length. reflexivity. }
  assert (lo = []) as ->.
  { apply length_zero_iff_nil. apply Permutation_length in P. rewrite app_length in P. clear W HS. lia. }
  rewrite app_nil_r in P. rewrite <- (M cs 0%nat). apply Permutation_map, P.
Qed.
Definition zdraw (i : nat) : option Z := nth i [Some 5; None; Some 9; Some 2] None.
Lemma random_run : random_ranking 0 Z.ltb isrt _ zdraw (st rconts) 2 = Ok [res3 20 29 9; res3 0 9 5].
Proof. vm_compute. reflexivity. Qed.
