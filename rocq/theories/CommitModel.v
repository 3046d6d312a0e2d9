(** Components that take part in transactions: committable.h, and the components made of
    components in simple_warren.cc and scribe.cc.  Every call holds the component's lock, so
    the calls on one component happen one after the other. *)
From Verif Require Import Base Bytes.

(** What a component that is not made of components is told, and what it answered. *)
Inductive event := EBegin (ok : bool) | EReady (ok : bool) | ECommit | EAbort.
(** The flags started_, readied_ and vote_, and what is inside: *)
Inductive node := Node (started readied vote : bool) (inside : body)
with body :=
(** any component of its own; [answers] are what transaction_ and ready_ will return, true
    when they run out; *)
| Leaf (answers : list bool) (trace : list event)
(** two components, as in SimpleWarren (simple_warren.cc:153-175).  Fiver (fiver.cc:653-747)
    is the same with a third component for its own part of ready_; *)
| Two (a b : node)
(** one component with a flag that it is committed already: WarrenScribe (scribe.cc:56-96).
    With the flag down also Bigwig around its fiver (bigwig.cc:777-815, 1352-1362, 1410-1419). *)
| One (committed : bool) (c : node).

Definition inside (n : node) : body := match n with Node _ _ _ b => b end.
Definition answer (l : list bool) : bool := match l with [] => true | b :: _ => b end.

(** committable.h:59-65, simple_warren.cc:172-175, scribe.cc:89-92 *)
Fixpoint abort (n : node) : node :=
  match n with Node s r v x => Node false false false (if s then abort_ x else x) end
with abort_ (x : body) : body :=
  match x with
  | Leaf l t => Leaf l (t ++ [EAbort])
  | Two a b => Two (abort a) (abort b)
  | One _ c => One false (abort c)
  end.
(** committable.h:20-33, simple_warren.cc:153-161, scribe.cc:79-82 *)
Fixpoint transaction (n : node) : bool * node :=
  match n with Node s r v x =>
    if s then (false, n) else let '(ok, x') := transaction_ x in (ok, Node ok false false x') end
with transaction_ (x : body) : bool * body :=
  match x with
  | Leaf l t => (answer l, Leaf (tl l) (t ++ [EBegin (answer l)]))
  | Two a b => let '(oka, a') := transaction a in
               if oka then let '(okb, b') := transaction b in if okb then (true, Two a' b') else (false, Two (abort a') b')
               else (false, Two a' b)
  | One _ c => let '(ok, c') := transaction c in (ok, One false c')
  end.
(** committable.h:34-51, simple_warren.cc:163-165, scribe.cc:83 *)
Fixpoint ready (n : node) : bool * node :=
  match n with Node s r v x =>
    if negb s then (false, n) else if r then (v, n) else let '(ok, x') := ready_ x in (ok, Node s true ok x') end
with ready_ (x : body) : bool * body :=
  match x with
  | Leaf l t => (answer l, Leaf (tl l) (t ++ [EReady (answer l)]))
  | Two a b => let '(oka, a') := ready a in
               if oka then let '(okb, b') := ready b in (okb, Two a' b') else (false, Two a' b)
  | One k c => let '(ok, c') := ready c in (ok, One k c')
  end.
(** committable.h:52-58, simple_warren.cc:167-170, scribe.cc:84-88.  None: the assertion
    stops the process. *)
Fixpoint commit (n : node) : option node :=
  match n with Node s r v x =>
    if s && v then match commit_ x with Some x' => Some (Node false false false x') | None => None end else None end
with commit_ (x : body) : option body :=
  match x with
  | Leaf l t => Some (Leaf l (t ++ [ECommit]))
  | Two a b => match commit a, commit b with Some a', Some b' => Some (Two a' b') | _, _ => None end
  | One true c => Some (One false c)
  | One false c => match commit c with Some c' => Some (One false c') | None => None end
  end.

(** The calls of a user. *)
Inductive call := Transaction | Ready | Commit | Abort.
(** The answer (true for calls that return nothing) and the component after the call. *)
Definition do_call (c : call) (n : node) : option (bool * node) :=
  match c with
  | Transaction => Some (transaction n)
  | Ready => Some (ready n)
  | Commit => match commit n with Some n' => Some (true, n') | None => None end
  | Abort => Some (true, abort n)
  end.
Fixpoint do_calls (cs : list call) (n : node) : option (list bool * node) :=
  match cs with
  | [] => Some ([], n)
  | c :: r => match do_call c n with
              | Some (b, n') => match do_calls r n' with Some (bs, n'') => Some (b :: bs, n'') | None => None end
              | None => None
              end
  end.
(** scribe.cc:237-254 for scribes of warrens that are not all bigwigs (warren.cc:154-155; the
    other case is in StoreModel): first the warrens commit, then they are marked, then the
    scribes commit. *)
Fixpoint map_option {A B} (f : A -> option B) (l : list A) : option (list B) :=
  match l with [] => Some [] | a :: r => match f a, map_option f r with Some b, Some bs => Some (b :: bs) | _, _ => None end end.
Definition commit_warren (n : node) : option node :=
  match n with
  | Node s r v (One k c) => match commit c with Some c' => Some (Node s r v (One true c')) | None => None end
  | _ => None
  end.
Definition commit_all (l : list node) : option (list node) :=
  match map_option commit_warren l with Some l' => map_option commit l' | None => None end.

(** scribe.cc:256-300.  Of a file only this matters here: None, it cannot be read; [Some ok],
    whether all five calls that append and annotate succeed.  None: the process stops. *)
Fixpoint scribe_files (files : list (option bool)) (n : node) : option (bool * node) :=
  match files with
  | [] => Some (true, n)
  | f :: r =>
      let '(ok, n1) := transaction n in
      if negb ok then Some (false, n1) else
      match f with
      | None => scribe_files r n1
      | Some false => Some (false, n1)
      | Some true => let '(ok, n2) := ready n1 in
                     if negb ok then Some (false, n2) else match commit n2 with Some n3 => scribe_files r n3 | None => None end
      end
  end.
(** scribe.cc:326-345: the lines of a file that scribe_jsonl hands on, from [prev]. *)
Fixpoint jsonl_lines (everything line : bytes) : list bytes :=
  match everything with
  | [] => []
  | c :: r => if c =? 10 then rev line :: jsonl_lines r [] else jsonl_lines r (c :: line)
  end.
