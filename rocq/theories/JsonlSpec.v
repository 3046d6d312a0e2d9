(** What the lines of a file and their division among workers are. *)
From Verif Require Import Base Bytes.

(** The lines of a text: each ends in a newline, but the last may end with the text. *)
Inductive file_lines : bytes -> list bytes -> Prop :=
| FL_none : file_lines [] []
| FL_last l : ~ In 10 l -> l <> [] -> file_lines l [l]
| FL_more l r ls : ~ In 10 l -> file_lines r ls -> file_lines (l ++ 10 :: r) (l :: ls).
(** The lines that worker [n] owns, in order. *)
Fixpoint owned (n : nat) (owner : list nat) (lines : list bytes) : list bytes :=
  match owner, lines with
  | o :: os, l :: ls => if Nat.eqb o n then l :: owned n os ls else owned n os ls
  | _, _ => []
  end.
(** Every line has one owner, and the shares are what they own. *)
Definition shared_out (lines : list bytes) (shares : list (list bytes)) : Prop :=
  exists owner, length owner = length lines /\ Forall (fun o => (o < length shares)%nat) owner /\
    forall n, nth n shares [] = owned n owner lines.
