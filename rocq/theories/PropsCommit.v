(** C33: the transaction protocol; C41: scribing files. *)
From Verif Require Import Base Bytes CommitModel CommitSpec CommitProofs CommitWitness.

(** C33: whatever is called and whatever fails, every component is told to begin, to be
    ready, to commit and to abort only in the order of the protocol. *)
Theorem C33_order : forall n cs bs n' t, fresh n -> do_calls cs n = Some (bs, n') -> In t (traces n') -> exists p, follows t = Some p.
Proof. exact protocol_kept. Qed.
Print Assumptions C33_order.
(** C33: every component commits exactly as often as the caller. *)
Theorem C33_all_commit : forall n cs bs n' t, fresh n -> do_calls cs n = Some (bs, n') -> In t (traces n') -> committed t = commits cs.
Proof. exact all_commit. Qed.
Print Assumptions C33_all_commit.
(** C33: unless a vote was no, every component is where the caller thinks it is; so after a
    yes all have voted yes, and after an abort, a commit or a failed begin none has a
    transaction. *)
Theorem C33_together : forall n cs bs n' t, fresh n -> do_calls cs n = Some (bs, n') -> told Idle cs bs <> Voted false -> In t (traces n') -> follows t = Some (told Idle cs bs).
Proof. exact same_phase. Qed.
Print Assumptions C33_together.
(** C33: calls out of order fail and change nothing, asking again gives the same vote, and
    only a commit after a yes does not stop the process. *)
Theorem C33_out_of_order : forall n cs bs n' c, fresh n -> do_calls cs n = Some (bs, n') ->
  match told Idle cs bs, c with
  | Idle, Transaction | Begun, Ready | Begun, Abort | Voted _, Abort => True
  | Voted true, Commit => exists n'', do_call c n' = Some (true, n'')
  | _, Commit => do_call c n' = None
  | Idle, Abort => do_call c n' = Some (true, n')
  | Voted ok, Ready => do_call c n' = Some (ok, n')
  | _, _ => do_call c n' = Some (false, n')
  end.
Proof. exact out_of_order. Qed.
Print Assumptions C33_out_of_order.
(** C33: commit_all of scribes that voted yes commits every component of every one once. *)
Theorem C33_commit_all : forall l, Forall (fun n => exists n0 cs bs k c, fresh n0 /\ do_calls cs n0 = Some (bs, n) /\ told Idle cs bs = Voted true /\ inside n = One k c) l ->
  exists l', commit_all l = Some l' /\ Forall2 (fun n n' => map committed (traces n') = map S (map committed (traces n)) /\ forall t, In t (traces n') -> follows t = Some Idle) l l'.
Proof. exact commit_all_ok. Qed.
Print Assumptions C33_commit_all.
Example C33_case : fresh (sample [] [false; true; false]) /\ option_map fst story_end = Some [false; false; true; false; false; false; true; true; true; true] /\
  option_map (fun x => traces (snd x)) story_end =
  Some [[EBegin true; EAbort; EBegin true; EReady true; EAbort; EBegin true; EReady true; ECommit]; [EBegin false; EBegin true; EReady false; EAbort; EBegin true; EReady true; ECommit]].
Proof. split; [apply sample_fresh|split; [exact story_answers|exact story_traces]]. Qed.
Example C33_commit_all_case : option_map (map traces) (match do_calls [Transaction; Ready] (sample [] []) with Some (_, n) => commit_all [n; n] | None => None end) =
  Some [[[EBegin true; EReady true; ECommit]; [EBegin true; EReady true; ECommit]]; [[EBegin true; EReady true; ECommit]; [EBegin true; EReady true; ECommit]]].
Proof. exact two_scribes. Qed.

(** C41: when all files can be read, scribing them never stops the process, and if it reports
    success there was one committed transaction for each file and none is left open. *)
Theorem C41_files_partial : forall files n, fresh n -> Forall (fun f => f <> None) files ->
  exists ok n', scribe_files files n = Some (ok, n') /\ (ok = true -> forall t, In t (traces n') -> committed t = length files /\ follows t = Some Idle).
Proof. exact files_committed. Qed.
Print Assumptions C41_files_partial.
Example C41_files_case : option_map (fun x => (fst x, traces (snd x))) (scribe_files [Some true; Some true] (sample [] [])) =
  Some (true, [[EBegin true; EReady true; ECommit; EBegin true; EReady true; ECommit]; [EBegin true; EReady true; ECommit; EBegin true; EReady true; ECommit]]).
Proof. vm_compute. reflexivity. Qed.
(** C41: a file that cannot be read is passed over with its transaction left open, so the file
    after it is not scribed, and if it is the last, success is reported with the transaction open. *)
Theorem C41_unreadable_refuted : option_map (fun x => (fst x, traces (snd x))) (scribe_files [None; Some true] (sample [] [])) = Some (false, [[EBegin true]; [EBegin true]]) /\
  option_map (fun x => (fst x, traces (snd x))) (scribe_files [Some true; None] (sample [] [])) = Some (true, [[EBegin true; EReady true; ECommit; EBegin true]; [EBegin true; EReady true; ECommit; EBegin true]]).
Proof. split; vm_compute; reflexivity. Qed.
Print Assumptions C41_unreadable_refuted.
(** C41: scribe_jsonl hands on exactly the lines that end in a newline, in order. *)
Theorem C41_jsonl_partial : forall ls rest, Forall (fun l => ~ In 10 l) ls -> ~ In 10 rest -> jsonl_lines (concat (map (fun l => l ++ [10]) ls) ++ rest) [] = ls.
Proof. exact lines_exact. Qed.
Print Assumptions C41_jsonl_partial.
Example C41_jsonl_case : jsonl_lines [123; 125; 10; 123; 49; 125; 10] [] = [[123; 125]; [123; 49; 125]].
Proof. reflexivity. Qed.
(** C41: so a last line without a newline is lost, and success is reported. *)
Theorem C41_last_line_refuted : exists text, text <> [] /\ jsonl_lines text [] = [].
Proof. exists [123; 125]. split; [discriminate|reflexivity]. Qed.
Print Assumptions C41_last_line_refuted.
