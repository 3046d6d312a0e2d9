(** Specification of builders and of reading the files they are given. *)
From Verif Require Import Base Bytes BuilderModel.

Definition adds (x : call) : Prop := x <> Finalize.
Definition finalizes (x : call) : bool := match x with Finalize => true | _ => false end.
(** The builder says yes to each of these calls, one after the other. *)
Fixpoint granted (answer : list call -> call -> bool) (before xs : list call) : Prop :=
  match xs with [] => True | x :: r => answer before x = true /\ granted answer (before ++ [x]) r end.

(** ** The shell *)
(** The words of a command, as far as it has only plain characters, blanks, quotes and
    backslashes; 39 is the quote, 92 the backslash.  [word] is None between words. *)
Definition plain_char (c : Z) : bool :=
  (48 <=? c) && (c <=? 57) || (65 <=? c) && (c <=? 90) || (97 <=? c) && (c <=? 122) || existsb (Z.eqb c) [43; 44; 45; 46; 47; 58; 64; 95].
Inductive shell_words : option bytes -> bytes -> list bytes -> Prop :=
| sw_end : shell_words None [] []
| sw_last w : shell_words (Some w) [] [w]
| sw_blank s l : shell_words None s l -> shell_words None (32 :: s) l
| sw_word w s l : shell_words None s l -> shell_words (Some w) (32 :: s) (w :: l)
| sw_plain w c s l : plain_char c = true -> shell_words (Some (match w with None => [] | Some w => w end ++ [c])) s l -> shell_words w (c :: s) l
| sw_escape w c s l : c <> 10 -> shell_words (Some (match w with None => [] | Some w => w end ++ [c])) s l -> shell_words w (92 :: c :: s) l
| sw_quoted w q s l : ~ In 39 q -> shell_words (Some (match w with None => [] | Some w => w end ++ q)) s l -> shell_words w (39 :: q ++ 39 :: s) l.
Definition zipped_extensions : list bytes := [lit ".z"; lit ".Z"; lit ".gz"; lit ".GZ"; lit ".0z"; lit ".1z"; lit ".2z"].
(** What fread gives until it first gives nothing. *)
Inductive gives : list piece -> bytes -> Prop :=
| gives_end : gives [] [] 
| gives_none r : gives (Bytes [] :: r) []
| gives_some b r t : b <> [] -> gives r t -> gives (Bytes b :: r) (b ++ t).
