(** Pipelines to run, with integers as weights. *)
From Verif Require Import Base Bytes RankModel RankSpec RankWitness RankerModel RankerSpec RankerProofs RankerText RankerFeed RankerFinal.
From Verif Require Import RecipeModel RecipeProofs.
From Coq Require Import Sorting.Sorted Permutation.

(** Texts of five tokens each. *)
Definition wtext (p q : Z) : bytes :=
  if p =? 0 then lit "red ants bite red" else if p =? 10 then lit "ants bite men" else if p =? 20 then lit "the ants" else lit "men".
Definition wwords (s : bytes) : list bytes := pieces None s.
Definition wstems (s : bytes) : bytes := if eqb_bytes s (lit "ants") then lit "ant" else s.
Definition wdefault (k : bytes) : Z := if eqb_bytes k (lit "depth") then 1000 else if eqb_bytes k (lit "rsj:depth") then 2 else if eqb_bytes k (lit "kld:window") then 4 else 2.
Definition wdraw (k : bytes) : Z := Z.of_nat (length k).
Definition wstof (s : bytes) : option Z := match s with c :: _ => if (48 <=? c) && (c <=? 57) then Some (c - 48) else None | [] => None end.
Definition wrsj (t : bytes) : Z := if eqb_bytes t (lit "the") then 0 else Z.of_nat (length t).
Definition wranking (q ps : list (bytes * Z)) : list (result (F := Z)) :=
  [Res 1 2 0 4 (Z.of_nat (length q)); Res 10 11 10 14 7; Res 12 13 10 14 6; Res 22 22 20 24 5].
Definition wrsj_prf := rsj_prf 0 1 Z.add Z.ltb wdefault isrt Z.to_nat wtext wwords wstems true false wrsj Z.mul.
Definition wexpect (t : bytes) (n : nat) : Z := 1.
Definition wgain (f e : Z) : Z := f * f - e + 1.
Definition wshare (g v m : Z) : Z := g * v / m.
Definition wkld_prf := kld_prf 0 1 Z.add Z.ltb wdefault isrt Z.to_nat (fun z => z) wtext wwords wexpect wgain wshare.
Definition wrank l q := rank 0 1 Z.add wwords wwords wstems [lit "the"; lit "and"] wranking wranking wrsj_prf wkld_prf l q.
Definition wpipeline : bytes := lit "stop stem bm25 rsj:gamma=3	rsj bm25 ".
Lemma wtext_pipeline : pipeline_of [lit "stop"; lit "stem"; lit "bm25"; lit "rsj:gamma=3"; lit "rsj"; lit "bm25"] wpipeline.
Proof.
  assert (N : forall s, s <> [] -> forallb (fun c => negb (is_space c)) s = true -> stage_text s).
  { intros s H X. split; [exact H|]. rewrite forallb_forall in X. apply Forall_forall. intros c I. specialize (X c I). destruct (is_space c); [discriminate|reflexivity]. }
  assert (W : forall c, is_space c = true -> white_run [c]) by (intros c X; split; [discriminate|repeat constructor; exact X]).
  unfold wpipeline.
  apply (P_more (lit "stop") [32] _ (lit "stem bm25 rsj:gamma=3	rsj bm25 ")); [apply N; [discriminate|reflexivity]|apply W; reflexivity|].
  apply (P_more (lit "stem") [32] _ (lit "bm25 rsj:gamma=3	rsj bm25 ")); [apply N; [discriminate|reflexivity]|apply W; reflexivity|].
  apply (P_more (lit "bm25") [32] _ (lit "rsj:gamma=3	rsj bm25 ")); [apply N; [discriminate|reflexivity]|apply W; reflexivity|].
  apply (P_more (lit "rsj:gamma=3") [9] _ (lit "rsj bm25 ")); [apply N; [discriminate|reflexivity]|apply W; reflexivity|].
  apply (P_more (lit "rsj") [32] _ (lit "bm25 ")); [apply N; [discriminate|reflexivity]|apply W; reflexivity|].
  apply (P_trail (lit "bm25") [32]); [apply N; [discriminate|reflexivity]|apply W; reflexivity].
Qed.
Definition wstages : list (stage (F := Z)) := [Stop; Stem; Bm25; Param (lit "rsj:gamma") 3; Rsj; Bm25].
Lemma wstages_read : from_pipeline wdefault wdraw wstof wpipeline = Some wstages.
Proof. vm_compute. reflexivity. Qed.
Lemma wrank_run : wrank wstages (lit "the ants and ants") =
  Ok ([Res 1 2 0 4 2; Res 10 11 10 14 7; Res 12 13 10 14 6; Res 22 22 20 24 5], [(lit "rsj:gamma", 3)]).
Proof. vm_compute. reflexivity. Qed.
Lemma wrsj_run : wrsj_prf (wranking [] []) [(lit "rsj:depth", 3)] [(lit "ant", 1)] = Ok [(lit "ant", 3); (lit "bite", 2)].
Proof. vm_compute. reflexivity. Qed.
Lemma wkld_run : wkld_prf (wranking [] []) [(lit "depth", 2); (lit "kld:gamma", 5)] [(lit "men", 4)] = Ok [(lit "ants", 5); (lit "bite", 5); (lit "men", 4)].
Proof. vm_compute. reflexivity. Qed.
Lemma wrandom : stage_named wdefault wdraw wstof (lit "random:bm25") (Random [(lit "bm25:b", 6); (lit "bm25:k1", 7); (lit "depth", 1000)]).
Proof. apply from_name_ok. vm_compute. reflexivity. Qed.
(** With a window of 4 in a container of 5, a result at its start gets 5 tokens, one at its
    end a passage past the end. *)
Lemma wpassages : passage 4 (Res 0 0 0 4 1) = (0, 4) /\ passage 4 (Res 4 4 0 4 1) = (3, 6).
Proof. vm_compute. split; reflexivity. Qed.
(** With a depth of nothing one passage is taken. *)
Lemma wzero_depth : passages 0 4 [] 0 (wranking [] []) = [(0, 3)].
Proof. vm_compute. reflexivity. Qed.
