(** Feedback to run. *)
From Verif Require Import Base Bytes RankModel RankSpec RankWitness RankerModel RankerSpec RankerProofs RankerFeed RankerWitness QaModel QaSpec QaProofs.
From Verif Require Import RecipeModel RecipeProofs.

(** One token at each address. *)
Definition atext : list bytes := [lit "big"; lit "red"; lit "ants"; lit "bite"; lit "men"; lit "some"; lit "red"; lit "ants"; lit "bite"; lit "dogs"].
Fixpoint ajoin (l : list bytes) : bytes := match l with [] => [] | [w] => w | w :: r => w ++ [32] ++ ajoin r end.
Definition atrans (p q : Z) : bytes := ajoin (firstn (Z.to_nat (q - p + 1)) (skipn (Z.to_nat p) atext)).
Definition aexpect (t : bytes) (n : Z) : Z := n.
Definition again (f e : Z) : Z := 100 * f - e.
Definition aqa := qa_prf 0 1 Z.add Z.ltb wdefault isrt Z.to_nat (fun z => z) atrans wwords aexpect again.
(** "ants" found in both halves. *)
Definition aranking : list (result (F := Z)) := [Res 2 2 0 4 9; Res 7 7 5 9 8; Res 6 7 5 9 7].
Definition aparams : list (bytes * Z) := [(lit "kld:depth", 5); (lit "kld:expansions", 2)].
Lemma aparams_ok : a_map aparams /\ aranking <> [].
Proof. split; [|discriminate]. repeat constructor. Qed.
Lemma aqa_run : aqa aranking aparams [(lit "men", 4)] = Ok ([lit "bite"; lit "ants"], [(lit "ants", 198); (lit "bite", 200)]).
Proof. vm_compute. reflexivity. Qed.
Lemma replaced {F : Type} (zero one : F) add lt default sort size_of addr_of translate wsplit expect gain ranking ps q1 q2 : ranking <> [] ->
  qa_prf zero one add lt default sort size_of addr_of translate wsplit expect gain ranking ps q1 =
  qa_prf zero one add lt default sort size_of addr_of translate wsplit expect gain ranking ps q2.
Proof. destruct ranking; [congruence|reflexivity]. Qed.
(** The word after a passage of one word has the gap 0, that in the passage 1. *)
Lemma after_closer : exists r : result (F := Z), In r aranking /\ atrans (rp r) (rq r) = lit "ants" /\ atrans (rq r + 1) (rq r + 1) = lit "bite" /\
  get (lit "ants") (qa_range atrans wwords 4 r) = Some 1 /\ get (lit "bite") (qa_range atrans wwords 4 r) = Some 0.
Proof. exists (Res 2 2 0 4 9). split; [left; reflexivity|]. repeat split; vm_compute; reflexivity. Qed.
(** At the end of a container the last word of a passage counts as one after it. *)
Lemma end_closer : atrans 8 9 = lit "bite dogs" /\
  get (lit "bite") (qa_range atrans wwords 4 (Res 8 9 5 9 0)) = Some 2 /\ get (lit "dogs") (qa_range atrans wwords 4 (Res 8 9 5 9 0)) = Some 1.
Proof. repeat split; vm_compute; reflexivity. Qed.
