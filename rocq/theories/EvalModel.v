(** Model of the evaluation of rankings: src/eval.cc.  Numbers (fval) are exact real numbers:
    there is no rounding, and what floating point makes not a number or infinite is [None]. *)
From Coq Require Import Reals.
From Verif Require Import Base Bytes RecipeModel.
From Verif Require RankerModel.
Local Open Scope R_scope.

Definition ltR (a b : R) : bool := if Rlt_dec a b then true else false.
Definition eqR (a b : R) : bool := if Req_EM_T a b then true else false.
(** Division of doubles. *)
Definition fdiv (a b : R) : option R := if eqR b 0 then None else Some (a / b).
(** std::map<addr, T>: keys rise; find and operator[]. *)
Fixpoint find {A} (p : Z) (m : list (Z * A)) : option A :=
  match m with [] => None | (p', v) :: r => if Z.eqb p p' then Some v else find p r end.
Fixpoint zput {A} (p : Z) (v : A) (m : list (Z * A)) : list (Z * A) :=
  match m with
  | [] => [(p, v)]
  | (p', v') :: r => if Z.eqb p p' then (p, v) :: r else if Z.ltb p p' then (p, v) :: m else (p', v') :: zput p v r
  end.
(** A RankingResult, as far as it is read here: p() and q(). *)
Notation ranked := (Z * Z)%type.
Notation judgments := (list (Z * R)).
Notation metrics := (list (bytes * option R)).
Definition set (k : String.string) (v : option R) (m : metrics) : metrics := put (lit k) v m.
Global Arguments set k%string_scope v m.
Definition value (qrels : judgments) (r : ranked) : R :=
  match find (fst r) qrels with None => 0 | Some v => v end.

(** src/eval.cc:138-144 *)
Definition count_binary_rels (qrels : judgments) : R :=
  fold_left (fun count qrel => if ltR 0 (snd qrel) then count + 1 else count) qrels 0.
(** src/eval.cc:150 *)
Record counts := Counts { rels_seen : R; t_ap : R; t_p05 : R; t_p10 : R; t_p20 : R; t_rr : R }.
(** src/eval.cc:153-172, from [rank] on: the rank it ends with, and the numbers. *)
Fixpoint trec_loop (qrels : judgments) (rank : Z) (results : list ranked) (c : counts) : Z * counts :=
  match results with
  | [] => (rank, c)
  | r :: rest =>
      let rval := value qrels r in
      let seen := if ltR 0 rval then rels_seen c + 1 else rels_seen c in
      let ap := if ltR 0 rval then t_ap c + seen / IZR rank else t_ap c in
      let rr := if ltR 0 rval then if eqR (t_rr c) 0 then 1 / IZR rank else t_rr c else t_rr c in
      let p05 := if Z.eqb rank 5 then seen / 5 else t_p05 c in
      let p10 := if Z.eqb rank 10 then seen / 10 else t_p10 c in
      let p20 := if Z.eqb rank 20 then seen / 20 else t_p20 c in
      trec_loop qrels (Z.succ rank) rest (Counts seen ap p05 p10 p20 rr)
  end.
(** src/eval.cc:173-179 *)
Definition trec_after (possible : R) (x : Z * counts) : counts :=
  let (rank, c) := x in
  Counts (rels_seen c) (t_ap c / possible)
    (if Z.leb rank 5 then rels_seen c / 5 else t_p05 c)
    (if Z.leb rank 10 then rels_seen c / 10 else t_p10 c)
    (if Z.leb rank 20 then rels_seen c / 20 else t_p20 c) (t_rr c).
(** src/eval.cc:146-197.  Line 182 stores ap under rr. *)
Definition trec_eval (qrels : judgments) (results : list ranked) (m : metrics) : metrics :=
  let possible := count_binary_rels qrels in
  let c := if ltR 0 possible && match results with [] => false | _ => true end
           then trec_after possible (trec_loop qrels 1 results (Counts 0 0 0 0 0 0))
           else Counts 0 0 0 0 0 0 in
  let ret := IZR (Z.of_nat (length results)) in
  let m := set "ap" (Some (t_ap c)) m in
  let m := set "rr" (Some (t_ap c)) m in
  let m := set "p05" (Some (t_p05 c)) m in
  let m := set "p10" (Some (t_p10 c)) m in
  let m := set "p20" (Some (t_p20 c)) m in
  let m := set "ret" (Some ret) m in
  let m := set "rel" (Some possible) m in
  let m := set "rel-ret" (Some (rels_seen c)) m in
  let m := set "precision" (if ltR 0 ret then fdiv (rels_seen c) ret else Some 0) m in
  set "recall" (if ltR 0 possible then fdiv (rels_seen c) possible else Some 0) m.

(** src/eval.cc:207 and 230 *)
Record scores := Scores { sc_all : R; sc_05 : R; sc_10 : R; sc_20 : R }.
(** src/eval.cc:208-216 *)
Fixpoint ideal_loop (i : nat) (ideal : list R) (s : scores) : scores :=
  match ideal with
  | [] => s
  | v :: rest =>
      let score := sc_all s + v / ln (INR i + 2) in
      ideal_loop (S i) rest
        (Scores score (if Nat.eqb i 4 then score else sc_05 s) (if Nat.eqb i 9 then score else sc_10 s)
                (if Nat.eqb i 19 then score else sc_20 s))
  end.
(** src/eval.cc:231-245 *)
Fixpoint actual_loop (qrels : judgments) (i : nat) (results : list ranked) (s : scores) : scores :=
  match results with
  | [] => s
  | r :: rest =>
      let rval := value qrels r in
      let score := sc_all s + rval / ln (INR i + 2) in
      actual_loop qrels (S i) rest
        (Scores score (if Nat.eqb i 4 then score else sc_05 s) (if Nat.eqb i 9 then score else sc_10 s)
                (if Nat.eqb i 19 then score else sc_20 s))
  end.
(** src/eval.cc:224-229 and 246-251 *)
Definition fill (n : nat) (s : scores) : scores :=
  Scores (sc_all s) (if Nat.ltb n 5 then sc_all s else sc_05 s) (if Nat.ltb n 10 then sc_all s else sc_10 s)
         (if Nat.ltb n 20 then sc_all s else sc_20 s).
(** src/eval.cc:199-260.  [sort] is std::sort by falling value, an argument. *)
Definition ndcg_eval (sort : list R -> list R) (qrels : judgments) (results : list ranked) (m : metrics) : metrics :=
  let ideal := sort (map snd qrels) in
  let i := ideal_loop 0 ideal (Scores 0 0 0 0) in
  if eqR (sc_all i) 0 then
    set "ndcg" (Some 0) (set "ndcg05" (Some 0) (set "ndcg10" (Some 0) (set "ndcg20" (Some 0)
    (set "dcg" (Some 0) (set "dcg05" (Some 0) (set "dcg10" (Some 0) (set "dcg20" (Some 0) m)))))))
  else
    let i := fill (length ideal) i in
    let a := fill (length results) (actual_loop qrels 0 results (Scores 0 0 0 0)) in
    let m := set "dcg" (Some (ln 2 * sc_all a)) m in
    let m := set "dcg05" (Some (ln 2 * sc_05 a)) m in
    let m := set "dcg10" (Some (ln 2 * sc_10 a)) m in
    let m := set "dcg20" (Some (ln 2 * sc_20 a)) m in
    let m := set "ndcg" (fdiv (sc_all a) (sc_all i)) m in
    let m := set "ndcg05" (fdiv (sc_05 a) (sc_05 i)) m in
    let m := set "ndcg10" (fdiv (sc_10 a) (sc_10 i)) m in
    set "ndcg20" (fdiv (sc_20 a) (sc_20 i)) m.

(** src/eval.cc:267-278: rbp50, prb50, rbp95, prb95. *)
Fixpoint rbp_loop (qrels : judgments) (results : list ranked) (s : R * R * R * R) : R * R * R * R :=
  match results with
  | [] => s
  | r :: rest =>
      let '(rbp50, prb50, rbp95, prb95) := s in
      let rval := value qrels r in
      rbp_loop qrels rest (rbp50 + rval * prb50, prb50 * (1 / 2), rbp95 + rval * prb95, prb95 * (95 / 100))
  end.
(** src/eval.cc:262-281 *)
Definition rbp_eval (qrels : judgments) (results : list ranked) (m : metrics) : metrics :=
  let '(rbp50, _, rbp95, _) := rbp_loop qrels results (0, 1, 0, 1) in
  let m := set "rbp50" (Some ((1 - 1 / 2) * rbp50)) m in
  set "rbp95" (Some ((1 - 95 / 100) * rbp95)) m.

(** src/eval.cc:291-298 *)
Definition PCR1 : R := 64 / 100.
Definition PCR0 : R := 39 / 100.
Definition PSR1 : R := 77 / 100.
Definition TS : R := 44 / 10.
Definition TDA : R := 18 / 1000.
Definition TDB : R := 78 / 10.
Definition HALF : R := 224.
(** src/eval.cc:302-315: tbg and time_spent. *)
Fixpoint tbg_loop (qrels : judgments) (results : list ranked) (tbg time_spent : R) : R :=
  match results with
  | [] => tbg
  | r :: rest =>
      let decay := exp (- time_spent * ln 2 / HALF) in
      let '(tbg, click_probability) :=
        match find (fst r) qrels with
        | None => (tbg, PCR0)
        | Some v => if eqR v 0 then (tbg, PCR0) else (tbg + PCR1 * PSR1 * decay, PCR1)
        end in
      let document_length := IZR (snd r - fst r) + 1 in
      let reading_time := TDA * document_length + TDB in
      tbg_loop qrels rest tbg (time_spent + (TS + reading_time * click_probability))
  end.
(** src/eval.cc:288-317 *)
Definition tbg_eval (qrels : judgments) (results : list ranked) (m : metrics) : metrics :=
  set "tbg" (Some (tbg_loop qrels results 0 0)) m.
(** src/eval.cc:320-327 *)
Definition eval (sort : list R -> list R) (qrels : judgments) (results : list ranked) (m : metrics) : metrics :=
  tbg_eval qrels results (rbp_eval qrels results (ndcg_eval sort qrels results (trec_eval qrels results m))).

(** src/eval.cc:330-348: the loop of 334-341 goes on while both lists do, that of 342-346 to
    the end of [one]. *)
Definition unless_there (p : Z) (v : R) (qrels : judgments) : judgments :=
  match find p qrels with None => zput p v qrels | Some _ => qrels end.
Fixpoint med_loop (one two : list ranked) (qrels : judgments) : judgments :=
  match one, two with
  | a :: r1, b :: r2 => med_loop r1 r2 (unless_there (fst b) 0 (unless_there (fst a) 1 qrels))
  | a :: r1, [] => med_loop r1 [] (unless_there (fst a) 1 qrels)
  | [], _ => qrels
  end.
Definition med_qrels (one two : list ranked) : judgments := med_loop one two [].
(** metrics1[k] - metrics2[k]: operator[] of a key that is not there is 0. *)
Definition at_key (k : bytes) (m : metrics) : option R := match get k m with None => Some 0 | Some v => v end.
Definition lift (f : R -> R -> R) (a b : option R) : option R :=
  match a, b with Some x, Some y => Some (f x y) | _, _ => None end.
(** src/eval.cc:350-363, on an empty map: dcg, rbp50 and rbp95. *)
Definition med_half (sort : list R -> list R) (one two : list ranked) : option R * option R * option R :=
  let qrels := med_qrels one two in
  let metrics1 := rbp_eval qrels one (ndcg_eval sort qrels one []) in
  let metrics2 := rbp_eval qrels two (ndcg_eval sort qrels two []) in
  (lift Rminus (at_key (lit "dcg") metrics1) (at_key (lit "dcg") metrics2),
   lift Rminus (at_key (lit "rbp50") metrics1) (at_key (lit "rbp50") metrics2),
   lift Rminus (at_key (lit "rbp95") metrics1) (at_key (lit "rbp95") metrics2)).
(** src/eval.cc:365-370 *)
Fixpoint fake_loop (n i : nat) (score : R) : R :=
  match n with O => score | S n => fake_loop n (S i) (score + 1 / ln (INR i + 2)) end.
Definition med_fake_ideal_dcg (depth : nat) : R := ln 2 * fake_loop depth 0 0.
(** src/eval.cc:379-393 *)
Definition med (sort : list R -> list R) (one two : list ranked) (m : metrics) : metrics :=
  let '(dcg1, rbp50_1, rbp95_1) := med_half sort one two in
  let '(dcg2, rbp50_2, rbp95_2) := med_half sort two one in
  let dcg := lift Rmax dcg1 dcg2 in
  let m := set "med-dcg" dcg m in
  let m := set "med-rbp50" (lift Rmax rbp50_1 rbp50_2) m in
  let m := set "med-rbp95" (lift Rmax rbp95_1 rbp95_2) m in
  set "med-ndcg" (match dcg with Some d => fdiv d (med_fake_ideal_dcg (Nat.max (length one) (length two))) | None => None end) m.

(** src/eval.cc:401-409 and 414-423.  Erasing the entry that the range-based for stands on
    leaves the loop with an iterator that is no longer valid: undefined. *)
Fixpoint mean_loop (f : R -> R -> R) (m mean : metrics) : res metrics :=
  match mean with
  | [] => Ok []
  | (k, v) :: rest =>
      if eqb_bytes k (lit "n") then let* rest' := mean_loop f m rest in Ok ((k, v) :: rest')
      else match get k m with
           | None => UB
           | Some x => let* rest' := mean_loop f m rest in Ok ((k, lift f v x) :: rest')
           end
  end.
(** src/eval.cc:395-426.  A failed assertion is [UB]. *)
Definition mean (m mean_metrics : metrics) : res metrics :=
  match mean_metrics with
  | [] => Ok (set "n" (Some 1) m)
  | _ =>
      match get (lit "n") mean_metrics with
      | None => let* r := mean_loop (fun old x => (old + x) / 2) m mean_metrics in Ok (set "n" (Some 2) r)
      | Some None => UB
      | Some (Some n) =>
          if ltR 0 n then
            let* r := mean_loop (fun old x => (old * n + x) / (n + 1)) m mean_metrics in Ok (set "n" (Some (n + 1)) r)
          else UB
      end
  end.

(** One call after the other, as in apps/parameters.cc:236 and 258. *)
Fixpoint means (ms : list metrics) (acc : metrics) : res metrics :=
  match ms with [] => Ok acc | m :: r => let* acc := mean m acc in means r acc end.

(** src/eval.cc:16-43.  [skip] counts the bytes of a tag still to be passed over; std::isspace
    is that of the C locale. *)
Definition start_tag : bytes := lit "<DOCNO>".
Definition end_tag : bytes := lit "</DOCNO>".
Definition at_tag (tag text : bytes) : bool := eqb_bytes (firstn (length tag) text) tag.
Fixpoint docno_loop (skip : nat) (started : bool) (text docno : bytes) : bytes :=
  match text with
  | [] => docno
  | c :: rest =>
      match skip with
      | S n => docno_loop n started rest docno
      | O =>
          if at_tag start_tag text then docno_loop (length start_tag - 1) started rest docno
          else if at_tag end_tag text then docno_loop (length end_tag - 1) started rest docno
          else if is_space c then if started then docno else docno_loop 0 started rest docno
          else docno_loop 0 true rest (if Z.eqb c 34 then docno else docno ++ [c])
      end
  end.
Definition trec_docno (text : bytes) : bytes := docno_loop 0 false text [].

Section Qrels.
(** The warren: its default container, its parameter "id" (None: it cannot be read), and the
    first solution of a query (None: it is refused; from maxfinity on: there is none). *)
Variables (container : bytes) (identifier : option bytes) (solve : bytes -> option (Z * Z)).
Variable (atof : bytes -> R).
(** src/eval.cc:46-79 *)
Definition translate_docno (docno : bytes) : option (Z * Z) :=
  match container with
  | [] => None
  | _ =>
      match identifier with
      | None => None
      | Some [] => None
      | Some id =>
          match solve (lit "(>> " ++ container ++ lit " (>> " ++ id ++ lit " """ ++ docno ++ lit """))") with
          | None => None
          | Some (p, q) => if Z.eqb p maxf then None else Some (p, q)
          end
      end
  end.
(** The maps that are filled; each may be missing (nullptr). *)
Record loaded := Loaded { l_qrels : option (list (bytes * list (Z * option R)));
                          l_lengths : option (list (bytes * list (Z * Z)));
                          l_docnos : option (list (bytes * list (Z * bytes))) }.
(** m[topic][p] = v *)
Definition put2 {A} (topic : bytes) (p : Z) (v : A) (m : list (bytes * list (Z * A))) : list (bytes * list (Z * A)) :=
  put topic (zput p v (match get topic m with Some t => t | None => [] end)) m.
(** The lines of a file, by std::getline. *)
Fixpoint lines_of (w s : bytes) : list bytes :=
  match s with
  | [] => match w with [] => [] | _ => [w] end
  | c :: r => if Z.eqb c 10 then w :: lines_of [] r else lines_of (w ++ [c]) r
  end.
(** src/eval.cc:106-124: whether all went well; the maps; max_level. *)
Fixpoint load_loop (lines : list bytes) (l : loaded) (max_level : R) : bool * loaded * R :=
  match lines with
  | [] => (true, l, max_level)
  | line :: rest =>
      match RankerModel.pieces (Some []) line with
      | [topic; _; docno; grade] =>
          let level := Rmax 0 (atof grade) in
          let max_level := Rmax level max_level in
          match translate_docno docno with
          | None => (false, l, max_level)
          | Some (p, q) =>
              load_loop rest (Loaded (option_map (put2 topic p (Some level)) (l_qrels l))
                                     (option_map (put2 topic p (q - p + 1)%Z) (l_lengths l))
                                     (option_map (put2 topic p docno) (l_docnos l))) max_level
          end
      | _ => (false, l, max_level)
      end
  end.
(** src/eval.cc:129-133 *)
Definition scaled (microsoft : bool) (max_level : R) (v : option R) : option R :=
  match v with
  | None => None
  | Some x => if microsoft then Some ((Rpower 2 x - 1) / Rpower 2 max_level) else fdiv x max_level
  end.
(** src/eval.cc:91-135.  [file] is None if it cannot be opened. *)
Definition load_trec_qrels (file : option bytes) (microsoft : bool) (l : loaded) : bool * loaded :=
  match file with
  | None => (false, l)
  | Some text =>
      let '(ok, l, max_level) := load_loop (lines_of [] text) l 0 in
      if ok then
        (true, Loaded (option_map (map (fun t => (fst t, map (fun d => (fst d, scaled microsoft max_level (snd d))) (snd t)))) (l_qrels l))
                      (l_lengths l) (l_docnos l))
      else (false, l)
  end.
End Qrels.
