(** C53: appending a JSONL file by several threads. *)
From Verif Require Import Base Bytes JsonlModel JsonlSpec JsonlProofs.
From Coq Require Import Permutation.

(** C53: every file has one division into lines. *)
Theorem C53_lines : forall text, exists lines, file_lines text lines /\ forall lines', file_lines text lines' -> lines' = lines.
Proof. exact (fun text => match file_lines_ex text with ex_intro _ ls F => ex_intro _ ls (conj F (fun ls' F' => file_lines_unique text ls' F' ls F)) end). Qed.
Print Assumptions C53_lines.
Definition text1 : bytes := [97; 10; 98; 10; 10; 99].
Lemma text1_lines : file_lines text1 [[97]; [98]; []; [99]].
Proof.
  apply (FL_more [97]); [intros [X|[]]; discriminate|]. apply (FL_more [98]); [intros [X|[]]; discriminate|].
  apply (FL_more []); [intros []|]. apply (FL_last [99]); [intros [X|[]]; discriminate | discriminate].
Qed.
(** A schedule of two workers, the second of which gets only the second line. *)
Definition sched1 : list (nat * bool) := map (fun n => (n, true)) [0; 1; 0; 1; 0; 0; 0; 0; 0; 1; 1; 0]%nat.

(** C53: if the file can be read and every call succeeds, then on every schedule each line
    goes to one worker, which scribes its lines once each and in the order of the file; and
    if each worker has a line that leaves an annotation, then all of it is committed.
    Missing: workers that have no such line, see C53_few_lines_refuted. *)
Theorem C53_success_partial : forall writes text lines threads sched s, (0 < threads)%nat -> file_lines text lines ->
  steps false sched (start text threads) = Some s -> joined s = true -> ~ In false (map snd sched) ->
  exists shares, length shares = threads /\ shared_out lines shares /\ Permutation (concat shares) lines /\
  ((forall share, In share shares -> exists line, In line share /\ writes line = true) -> finish writes s = Answer true shares).
Proof.
  exact (fun writes text lines threads sched s T F H J N =>
    match succeeds writes text lines threads sched s T F H J N with
    | ex_intro _ shares (conj L (conj Sh E)) => ex_intro _ shares (conj L (conj Sh (conj (shares_perm lines shares Sh) (fun A =>
        eq_trans E (f_equal (fun b : bool => if b then Answer true shares else Stops)
          (proj2 (forallb_forall (existsb writes) shares) (fun x I => proj2 (existsb_exists writes x) (A x I)))))))) end).
Qed.
Print Assumptions C53_success_partial.
Example C53_success_ex : exists s, steps false sched1 (start text1 2) = Some s /\ joined s = true /\ ~ In false (map snd sched1) /\
  file_lines text1 [[97]; [98]; []; [99]] /\ finish (fun l => negb (match l with [] => true | _ => false end)) s = Answer true [[[97]; []; [99]]; [[98]]].
Proof. eexists. split; [vm_compute; reflexivity|]. repeat split; [|exact text1_lines]. cbn. intuition discriminate. Qed.
(** C53: with one worker the lines are committed in the order of the file. *)
Theorem C53_one_partial : forall writes text lines sched s, file_lines text lines ->
  steps false sched (start text 1) = Some s -> joined s = true -> ~ In false (map snd sched) ->
  (exists line, In line lines /\ writes line = true) -> finish writes s = Answer true [lines].
Proof.
  exact (fun writes text lines sched s F H J N A =>
    match C53_success_partial writes text lines 1 sched s (le_n 1) F H J N with
    | ex_intro _ shares (conj L (conj Sh (conj _ E))) =>
        let P := one_share lines shares Sh L in
        eq_ind shares (fun x => finish writes s = Answer true x)
          (E (fun share I => match eq_ind shares (fun x => In share x) I [lines] P with
                             | or_introl e => eq_ind lines (fun x => exists line, In line x /\ writes line = true) A share e
                             | or_intror f => False_ind _ f end)) [lines] P end).
Qed.
Print Assumptions C53_one_partial.
Example C53_one_ex : exists s, steps false (repeat (0%nat, true) 10) (start text1 1) = Some s /\ joined s = true /\
  finish (fun l => negb (match l with [] => true | _ => false end)) s = Answer true [[[97]; [98]; []; [99]]].
Proof. eexists. split; [vm_compute; reflexivity|]. split; reflexivity. Qed.
(** C53: if the file cannot be read to its end or any call fails, then on every schedule
    the answer is false and nothing is committed; and only then are both so. *)
Theorem C53_failure : forall writes bad text threads sched s, (0 < threads)%nat -> steps bad sched (start text threads) = Some s -> joined s = true ->
  (bad = true \/ In false (map snd sched) <-> finish writes s = Answer false []).
Proof.
  exact (fun writes bad text threads sched s T H J => conj (fails writes bad text threads sched s T H J)
    (fun E => proj1 (failed_exactly bad text threads sched s T H J) (answered_false writes s E))).
Qed.
Print Assumptions C53_failure.
Example C53_failure_ex : exists s, steps false [(0, true); (1, true); (0, false); (1, true); (1, true); (1, true)]%nat (start text1 2) = Some s /\ joined s = true /\
  finish (fun _ => true) s = Answer false [].
Proof. eexists. split; [vm_compute; reflexivity|]. split; reflexivity. Qed.
Example C53_failure_read_ex : exists s, steps true (map (fun n => (n, true)) [0; 1; 0; 0; 0; 0; 1; 1; 1]%nat) (start text1 2) = Some s /\ joined s = true /\
  finish (fun _ => true) s = Answer false [].
Proof. eexists. split; [vm_compute; reflexivity|]. split; reflexivity. Qed.
(** C53: no schedule goes on for ever or gets stuck: there are at most two steps for each
    line and two for each worker, and until all are done some worker can go on. *)
Theorem C53_ends : forall bad text lines threads sched s, file_lines text lines -> steps bad sched (start text threads) = Some s ->
  (length sched <= 2 * length lines + 2 * threads)%nat /\ (joined s = false -> exists n s', step bad n true s = Some s').
Proof. exact (fun bad text lines threads sched s F H => conj (steps_bound bad text lines threads sched s F H) (goes_on bad s)). Qed.
Print Assumptions C53_ends.
Example C53_ends_ex : (exists s, steps false sched1 (start text1 2) = Some s) /\ length sched1 = (2 * 4 + 2 * 2)%nat.
Proof. split; [eexists; vm_compute; reflexivity | reflexivity]. Qed.
(** C53 finding: when there are more workers than lines, then on every schedule without a
    failure the process stops instead of committing. *)
Theorem C53_few_lines_refuted : forall writes text lines threads sched s, file_lines text lines -> (length lines < threads)%nat ->
  steps false sched (start text threads) = Some s -> joined s = true -> ~ In false (map snd sched) -> finish writes s = Stops.
Proof. exact few_lines. Qed.
Print Assumptions C53_few_lines_refuted.
Example C53_few_lines_ex : exists s, steps false (map (fun n => (n, true)) [0; 0; 0; 0; 1; 1]%nat) (start [97; 10] 2) = Some s /\ joined s = true /\
  finish (fun _ => true) s = Stops.
Proof. eexists. split; [vm_compute; reflexivity|]. split; reflexivity. Qed.
