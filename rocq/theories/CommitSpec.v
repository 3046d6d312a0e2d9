(** Specification vocabulary for transactions of components. *)
From Verif Require Import Base CommitModel.

(** Where a component is in its transaction, and how what it is told moves it: the protocol. *)
Inductive phase := Idle | Begun | Voted (ok : bool).
Definition moves (p : phase) (e : event) : option phase :=
  match p, e with
  | Idle, EBegin true => Some Begun
  | Idle, EBegin false => Some Idle
  | Begun, EReady ok => Some (Voted ok)
  | Voted true, ECommit => Some Idle
  | Begun, EAbort | Voted _, EAbort => Some Idle
  | _, _ => None
  end.
Definition follows (t : list event) : option phase := fold_left (fun p e => match p with Some p => moves p e | None => None end) t (Some Idle).
(** What every component at the bottom was told. *)
Fixpoint traces (n : node) : list (list event) := match n with Node _ _ _ x => traces_ x end
with traces_ (x : body) : list (list event) :=
  match x with Leaf _ t => [t] | Two a b => traces a ++ traces b | One _ c => traces c end.
(** A component nothing was asked of yet. *)
Fixpoint fresh (n : node) : Prop := match n with Node s r v x => s = false /\ r = false /\ v = false /\ fresh_ x end
with fresh_ (x : body) : Prop :=
  match x with Leaf _ t => t = [] | Two a b => fresh a /\ fresh b | One k c => k = false /\ fresh c end.
(** The protocol as the caller sees it, from the calls and their answers. *)
Definition caller (p : phase) (c : call) (ok : bool) : phase :=
  match p, c with
  | Idle, Transaction => if ok then Begun else Idle
  | Begun, Ready => Voted ok
  | Voted true, Commit => Idle
  | _, Abort => Idle
  | _, _ => p
  end.
Fixpoint told (p : phase) (cs : list call) (bs : list bool) : phase :=
  match cs, bs with c :: cr, b :: br => told (caller p c b) cr br | _, _ => p end.
Definition commits (cs : list call) : nat := length (filter (fun c => match c with Commit => true | _ => false end) cs).
Definition committed (t : list event) : nat := length (filter (fun e => match e with ECommit => true | _ => false end) t).
