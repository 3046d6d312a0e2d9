(** Totals made in several parts add up. *)
From Verif Require Import Base HopperModel GclSpec HopperProofs ArrayProofs UnaryProofs AnswerProofs PostingModel
  VectorModel RankModel RankSpec RankSsr RankTop StatsModel StatsSpec StatsHopper StatsProofs.

Lemma added_app a b : added (a ++ b) = added a + added b.
Proof. unfold added. induction a as [|x a IH]; cbn [app map fold_right]; [reflexivity|]. rewrite IH. lia. Qed.
Lemma added_pos a : (forall x, In x a -> 0 <= ivl x) -> 0 <= added a.
Proof.
  unfold added. induction a as [|x a IH]; intros P; cbn [map fold_right]; [lia|].
  pose proof (P x (or_introl eq_refl)). pose proof (IH (fun y H => P y (or_intror H))). lia.
Qed.
Theorem sum_all T t l : answers T t (set_of l) -> gclist l -> (forall x, In x l -> 0 <= ivl x) -> added l <= maxf ->
  sum_values T t = Ok (added l).
Proof.
  intros H G P B. apply answers_iff in H. destruct H as (I & H & It). unfold sum_values. inf.
  assert (W : wp (loop (sum_body T) (t, minf + 1, 0)) (fun r => r = added l)).
  { apply (loop_rule (fun '(s, k, total) => I s /\ exists a b, l = a ++ b /\ minf + 1 <= k <= maxf /\ total = added a /\
        (forall x, In x a -> ip x < k) /\ (forall x, In x b -> k <= ip x)) (fun '(s, k, total) => maxf - k)).
    - intros [[s k] n] (_ & a & b & _ & K & _). lia.
    - intros [[s k] n] (Is & a & b & E & K & N & A & Bk). unfold sum_body.
      pose proof (hop_tau H s k Is ltac:(lia)) as X.
      apply wp_bind. eapply wp_mono; [exact X|]. intros [s' r] [Is' R].
      pose proof (tau_next (set_of l) a b k r (hop_GC H) ltac:(intros x; rewrite <- E; reflexivity) ltac:(rewrite <- E; exact G) ltac:(lia) ltac:(lia) A Bk R) as T1.
      destruct b as [|y b].
      + rewrite T1. cbn [ip maxr]. rewrite Z.ltb_irrefl. apply wp_ok. rewrite E, app_nil_r. exact N.
      + rewrite T1. assert (Hy : In y l) by (rewrite E; apply in_or_app; right; now left).
        pose proof (gclist_finite l y G Hy) as F. assert (L : ip y < maxf) by fin.
        rewrite (proj2 (Z.ltb_lt _ _) L). assert (Ky : k <= ip y) by (apply Bk; now left).
        assert (S : added l = n + ivl y + added b) by (rewrite E, added_app, N; unfold added; cbn [map fold_right]; lia).
        assert (0 <= added b) by (apply added_pos; intros x Hx; apply P; rewrite E; apply in_or_app; right; now right).
        assert (0 <= n) by (rewrite N; apply added_pos; intros x Hx; apply P; rewrite E; apply in_or_app; now left).
        pose proof (P y Hy).
        apply wp_bind, wp_chk; [unfold minf, maxf in *; lia|]. apply wp_bind, wp_chk; [unfold minf, maxf in *; lia|]. apply wp_ok. split; [|lia].
        split; [exact Is'|]. exists (a ++ [y]), b. rewrite <- app_assoc. split; [exact E|]. split; [lia|].
        split; [rewrite added_app, N; unfold added; cbn [map fold_right]; lia|]. split.
        * intros x Hx. apply in_app_or in Hx as [Hx|[<-|[]]]; [specialize (A x Hx)|]; lia.
        * intros x Hx. rewrite E in G. apply gclist_app in G. destruct G as [_ G]. pose proof (gclist_lt b y x G Hx). lia.
    - split; [exact It|]. exists [], l. split; [reflexivity|]. split; [unfold minf, maxf; lia|]. split; [reflexivity|]. split; [intros x []|].
      intros x Hx. pose proof (gclist_finite l x G Hx) as F. fin.
    - unfold minf, maxf; reflexivity. }
  destruct (loop (sum_body T) (t, minf + 1, 0)) as [r| |]; try contradiction. cbn in W. subst. reflexivity.
Qed.
