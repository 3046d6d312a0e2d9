(** Model of ranking pipelines: src/ranker.cc, src/parameters.cc, and the feedback methods
    kld_prf and rsj_prf of src/ranking.cc. *)
From Verif Require Import Base Bytes RankModel.
From Verif Require Import RecipeModel.
Local Arguments chr s%string_scope.

(** * Parameters *)
(** src/parameters.cc: the names of the parameters that each ranker draws and has defaults
    for; 24, 48, 73-74, 101, 127-129, 162-165, 200-203 and 221-238. *)
Definition parameter_names (ranker : bytes) : option (list bytes) :=
  RecipeModel.get ranker
    [(lit "bm25", [lit "bm25:b"; lit "bm25:k1"]);
     (lit "kld", [lit "kld:expansions"; lit "kld:depth"; lit "kld:window"; lit "kld:gamma"]);
     (lit "lmd", [lit "lmd:mu"]);
     (lit "rsj", [lit "rsj:expansions"; lit "rsj:depth"; lit "rsj:gamma"]);
     (lit "ssr", [lit "ssr:K"]);
     (lit "tiered", [lit "tiered:delta"]);
     (lit "qap", [lit "qap:depth"; lit "qap:length"; lit "qap:passages"; lit "qap:window"])].

Section Ranker.
(** src/core.h:16: fval is double.  [zero], [one] and [add] are 0.0, 1.0 and +. *)
Context {F : Type} (zero one : F) (add : F -> F -> F) (lt : F -> F -> bool).
(** std::map<std::string, fval>, in the order of the keys. *)
Notation weights := (list (bytes * F)).
(** The default values and the values drawn, by the full names of the parameters; "depth" is
    Parameters::default_depth, src/parameters.cc:9. *)
Variables (default draw : bytes -> F).
(** src/parameters.h:90-99: the parameters of a ranker, and "depth".  When they are drawn,
    qap:depth and qap:length are the defaults; here they may be any values. *)
Definition ranker_parameters (value : bytes -> F) (ranker : bytes) : option weights :=
  match parameter_names ranker with
  | None => None
  | Some names => Some (put (lit "depth") (default (lit "depth")) (fold_left (fun m k => put k (value k) m) names []))
  end.
(** src/ranking.cc:30-43.  UB: a null pointer is used, or the assertion fails. *)
Definition ranking_parameter (ranker name : bytes) (parameters : weights) : res F :=
  let full := ranker ++ lit ":" ++ name in
  match get full parameters with
  | Some v => Ok v
  | None =>
      match get name parameters with
      | Some v => Ok v
      | None =>
          match ranker_parameters default ranker with
          | None => UB
          | Some d => match get full d with
                      | Some v => Ok v
                      | None => match get name d with Some v => Ok v | None => UB end
                      end
          end
      end
  end.

(** * Feedback *)
Section Feedback.
Context (sort : sorter).
(** static_cast<size_t> and static_cast<addr> of a parameter. *)
Variables (size_of : F -> nat) (addr_of : F -> Z).
(** Txt::translate, Tokenizer::split and Stemmer::stem of the warren. *)
Variables (translate : Z -> Z -> bytes) (wsplit : bytes -> list bytes) (wstem : bytes -> bytes).

(** src/ranking.cc:703-713, 1152-1166: each word of a text once, in the order of first
    occurrence. *)
Fixpoint once (seen : list bytes) (words : list bytes) : list bytes :=
  match words with
  | [] => []
  | w :: r => if existsb (eqb_bytes w) seen then once seen r else w :: once (w :: seen) r
  end.
(** frequencies[t] = 1.0 or frequencies[t]++ *)
Definition tick (m : weights) (t : bytes) : weights :=
  match get t m with None => put t one m | Some f => put t (add f one) m end.
Definition tally (texts : list (list bytes)) : weights :=
  fold_left (fun m ws => fold_left tick (once [] ws) m) texts [].

(** src/ranking.cc:736-742, 1177-1183: the terms are sorted by their values and cut off. *)
Definition by_value (a b : bytes * F) : bool := lt (snd b) (snd a).
Definition chosen (n : nat) (cands : weights) : weights := firstn n (sort _ by_value cands).
(** src/ranking.cc:744-755, 1185-1196: the query with the terms added.  The loop that copies
    the query entry by entry copies it. *)
Definition grow (value : F -> F) (q : weights) (terms : weights) : weights :=
  fold_left (fun m tv => match get (fst tv) m with
                         | Some w => put (fst tv) (add w (value (snd tv))) m
                         | None => put (fst tv) (value (snd tv)) m end) terms q.

(** src/ranking.cc:1126-1199.  [have] and [unstemmed] are what the warren's statistics
    answer for "rsj" and "unstemmed", [rsj] their weights; no statistics is [have = false]. *)
Variables (have unstemmed : bool) (rsj : bytes -> F) (mul : F -> F -> F).
Definition rsj_texts (depth : nat) (ranking : list (@result F)) : list (list bytes) :=
  map (fun r => let ws := wsplit (translate (rcp r) (rcq r)) in if unstemmed then ws else map wstem ws) (firstn depth ranking).
Definition rsj_values (freq : weights) : weights :=
  flat_map (fun tf => if lt zero (rsj (fst tf)) then [(fst tf, mul (rsj (fst tf)) (snd tf))] else []) freq.
Definition rsj_prf (ranking : list (@result F)) (parameters : weights) (q : weights) : res weights :=
  match ranking with
  | [] => Ok q
  | _ =>
      if negb have then Ok q
      else
        let* expansions := ranking_parameter (lit "rsj") (lit "expansions") parameters in
        let* depth := ranking_parameter (lit "rsj") (lit "depth") parameters in
        let* gamma := ranking_parameter (lit "rsj") (lit "gamma") parameters in
        match rsj_texts (size_of depth) ranking with
        | [] => Ok q
        | texts => Ok (grow (fun _ => gamma) q (chosen (size_of expansions) (rsj_values (tally texts))))
        end
  end.

(** src/ranking.cc:676-692: the passage of a result. *)
Definition passage (window : Z) (r : @result F) : Z * Z :=
  if rcq r - rcp r + 1 <=? window then (rcp r, rcq r)
  else
    let '(p, q) := (rp r, rq r) in
    if q - p + 1 <? window then
      let remaining := window - (q - p + 1) in
      let p := p - remaining / 2 in
      let q := q + (remaining - remaining / 2) in
      if p <? rcp r then (rcp r, q + (rcp r - p + 1)) else (p, q)
    else (p, q).
(** src/ranking.cc:671-696: the passages; the loop stops when there are [depth] of them. *)
Fixpoint passages (depth : nat) (window : Z) (seen : list Z) (n : nat) (ranking : list (@result F)) : list (Z * Z) :=
  match ranking with
  | [] => []
  | r :: rest =>
      if existsb (Z.eqb (rcp r)) seen then passages depth window seen n rest
      else passage window r :: if Nat.leb depth (S n) then [] else passages depth window (rcp r :: seen) (S n) rest
  end.
(** src/ranking.cc:714-722: the sum of the expectations of each term.  [expect t n] is the
    chance that a text of n tokens has the token t. *)
Variable expect : bytes -> nat -> F.
Definition expectations (texts : list (list bytes)) : weights :=
  fold_left (fun m ws => fold_left (fun m t =>
    match get t m with None => put t (expect t (length ws)) m | Some e => put t (add e (expect t (length ws))) m end) (once [] ws) m) texts [].
(** src/ranking.cc:725-735.  [gain f e] is f * log(f / e). *)
Variable gain : F -> F -> F.
Definition kld_values (texts : list (list bytes)) : weights :=
  flat_map (fun tf => if lt one (snd tf) then [(fst tf, gain (snd tf) (match get (fst tf) (expectations texts) with Some e => e | None => zero end))] else []) (tally texts).
Definition max_value (m : F) (l : weights) : F := fold_left (fun m tv => if lt m (snd tv) then snd tv else m) l m.
(** src/ranking.cc:656-758.  [share g v m] is g * v / m. *)
Variable share : F -> F -> F -> F.
Definition kld_prf (ranking : list (@result F)) (parameters : weights) (q : weights) : res weights :=
  match ranking with
  | [] => Ok q
  | _ =>
      let* expansions := ranking_parameter (lit "kld") (lit "expansions") parameters in
      let* depth := ranking_parameter (lit "kld") (lit "depth") parameters in
      let* window := ranking_parameter (lit "kld") (lit "window") parameters in
      let* gamma := ranking_parameter (lit "kld") (lit "gamma") parameters in
      match passages (size_of depth) (addr_of window) [] 0 ranking with
      | [] => Ok q
      | ps =>
          let texts := map (fun pq => wsplit (translate (fst pq) (snd pq))) ps in
          let values := kld_values texts in
          Ok (grow (fun v => share gamma v (max_value zero values)) q (chosen (size_of expansions) values))
      end
  end.
End Feedback.

(** * Pipelines *)
(** src/ranker.cc:95-255 *)
Inductive stage := Bm25 | Lmd | Kld | Rsj | Stem | Stop | Param (key : bytes) (value : F) | Random (drawn : weights).
(** The text before and after the first [c]. *)
Fixpoint cut_at (c : Z) (s : bytes) : option (bytes * bytes) :=
  match s with
  | [] => None
  | x :: r => if x =? c then Some ([], r) else match cut_at c r with Some (a, b) => Some (x :: a, b) | None => None end
  end.
(** std::stof; None: it throws. *)
Variable stof : bytes -> option F.
(** src/ranker.cc:257-301 *)
Definition from_name (t : bytes) : option stage :=
  match cut_at (chr "=") t with
  | Some (key, value) =>
      match key, value with
      | [], _ => None
      | _, [] => None
      | _, _ => match stof value with Some v => Some (Param key v) | None => None end
      end
  | None =>
      match cut_at (chr ":") t with
      | Some (name, argument) =>
          if eqb_bytes name (lit "random") then option_map Random (ranker_parameters draw argument) else None
      | None => get t [(lit "bm25", Bm25); (lit "kld", Kld); (lit "lmd", Lmd); (lit "stem", Stem); (lit "stop", Stop); (lit "rsj", Rsj)]
      end
  end.
(** src/ranker.cc:339-342: what stands between runs of white space; nothing after the last
    run is left out, nothing before the first is not. *)
Fixpoint pieces (word : option bytes) (s : bytes) : list bytes :=
  match s, word with
  | [], None => []
  | [], Some w => [w]
  | c :: r, None => if is_space c then pieces None r else pieces (Some [c]) r
  | c :: r, Some w => if is_space c then w :: pieces None r else pieces (Some (w ++ [c])) r
  end.
Fixpoint all_stages (l : list bytes) : option (list stage) :=
  match l with
  | [] => Some []
  | t :: r => match from_name t with
              | None => None
              | Some s => match all_stages r with Some ss => Some (s :: ss) | None => None end
              end
  end.
(** src/ranker.cc:334-354 *)
Definition from_pipeline (pipeline : bytes) : option (list stage) := all_stages (pieces (Some []) pipeline).

Section Run.
(** Tokenizer and stemmer of the statistics; the stop words; bm25_ranking and lmd_ranking of a
    weighted query; the two feedback methods.  lmd_ranking of a text splits it with the
    tokenizer of the warren. *)
Variables (split wsplit : bytes -> list bytes) (stem : bytes -> bytes) (stopwords : list bytes).
Variables (bm25 lmd : weights -> weights -> list (@result F)).
Variables (rsj kld : list (@result F) -> weights -> weights -> res weights).
(** src/ranker.cc:70-74 *)
Record context := Context { c_raw : bytes; c_weighted : weights; c_parameters : weights; c_ranking : list (@result F) }.
(** src/ranker.cc:53-57 *)
Definition cook_terms (terms : list bytes) : weights :=
  fold_left (fun m t => match get t m with None => put t one m | Some w => put t (add w one) m end) terms [].
(** src/ranker.cc:50-59 *)
Definition cook (c : context) : context :=
  match c_weighted c, c_raw c with
  | [], _ :: _ => Context (c_raw c) (cook_terms (split (c_raw c))) (c_parameters c) (c_ranking c)
  | _, _ => c
  end.
(** src/ranking.cc:97-105, 1207-1210: weighted_query[term] += 1.0 *)
Definition raw_terms (terms : list bytes) : weights :=
  fold_left (fun m t => put t (add (match get t m with Some w => w | None => zero end) one) m) terms [].
(** src/ranker.cc:205-216 *)
Definition stem_query (q : weights) : weights :=
  fold_left (fun m tw => let t := stem (fst tw) in
    match get t m with None => put t (snd tw) m | Some w => put t (add w (snd tw)) m end) q [].
(** src/ranker.cc:189-197 *)
Definition stop_query (q : weights) : weights :=
  match filter (fun tw => negb (existsb (eqb_bytes (fst tw)) stopwords)) q with [] => q | l => l end.
Definition ranked (c : context) (r : list (@result F)) : context := Context (c_raw c) (c_weighted c) (c_parameters c) r.
Definition weighing (c : context) (q : weights) : context := Context (c_raw c) q (c_parameters c) (c_ranking c).
Definition setting (c : context) (p : weights) : context := Context (c_raw c) (c_weighted c) p (c_ranking c).
(** src/ranker.cc:139-145 *)
Definition expand (prf : list (@result F) -> weights -> weights -> res weights) (c : context) : res context :=
  match c_ranking c with
  | [] => Ok c
  | _ => let c := cook c in
         let* q := prf (c_ranking c) (c_parameters c) (c_weighted c) in
         Ok (weighing c q)
  end.
(** src/ranker.cc:100-107, 115-123, 189-197, 205-216, 228-230, 249-254 *)
Definition transform (s : stage) (c : context) : res context :=
  match s with
  | Bm25 => Ok (ranked c (bm25 (match c_weighted c with [] => raw_terms (split (c_raw c)) | q => q end) (c_parameters c)))
  | Lmd => Ok (ranked c (lmd (match c_weighted c with [] => raw_terms (wsplit (c_raw c)) | q => q end) (c_parameters c)))
  | Kld => expand kld c
  | Rsj => expand rsj c
  | Stem => let c := cook c in Ok (weighing c (stem_query (c_weighted c)))
  | Stop => let c := cook c in Ok (weighing c (stop_query (c_weighted c)))
  | Param k v => Ok (setting c (put k v (c_parameters c)))
  | Random l => Ok (setting c (fold_left (fun m kv => put (fst kv) (snd kv) m) l (c_parameters c)))
  end.
Fixpoint transforms (l : list stage) (c : context) : res context :=
  match l with [] => Ok c | s :: r => let* c' := transform s c in transforms r c' end.
(** src/ranker.cc:319-329: the ranking and the parameters. *)
Definition rank (l : list stage) (query : bytes) : res (list (@result F) * weights) :=
  let* c := transforms l (Context query [] [] []) in
  Ok (c_ranking c, c_parameters c).
End Run.
End Ranker.
