(** Cases for the theorems about transactions. *)
From Verif Require Import Base Bytes CommitModel CommitSpec CommitProofs.

Definition leaf (l : list bool) : node := Node false false false (Leaf l []).
Definition pair_of (a b : node) : node := Node false false false (Two a b).
Definition scribe_of (a : node) : node := Node false false false (One false a).
(** A scribe around a warren with an appender and an annotator. *)
Definition sample (l1 l2 : list bool) : node := scribe_of (pair_of (leaf l1) (leaf l2)).
Lemma sample_fresh l1 l2 : fresh (sample l1 l2). Proof. cbn. auto 20. Qed.
(** The annotator refuses to begin, begins, refuses to be ready; then a whole transaction. *)
Definition story : list call := [Ready; Transaction; Transaction; Transaction; Ready; Ready; Abort; Transaction; Ready; Commit].
Definition story_end : option (list bool * node) := do_calls story (sample [] [false; true; false]).
Lemma story_answers : option_map fst story_end = Some [false; false; true; false; false; false; true; true; true; true]. Proof. vm_compute. reflexivity. Qed.
Lemma story_traces : option_map (fun x => traces (snd x)) story_end =
  Some [[EBegin true; EAbort; EBegin true; EReady true; EAbort; EBegin true; EReady true; ECommit]; [EBegin false; EBegin true; EReady false; EAbort; EBegin true; EReady true; ECommit]].
Proof. vm_compute. reflexivity. Qed.
Lemma two_scribes : option_map (map traces) (match do_calls [Transaction; Ready] (sample [] []) with Some (_, n) => commit_all [n; n] | None => None end) =
  Some [[[EBegin true; EReady true; ECommit]; [EBegin true; EReady true; ECommit]]; [[EBegin true; EReady true; ECommit]; [EBegin true; EReady true; ECommit]]].
Proof. vm_compute. reflexivity. Qed.
