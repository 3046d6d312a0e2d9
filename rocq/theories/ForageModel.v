(** Model of foraging for term statistics and of reading them: meadowlark/meadowlark.cc (forage),
    meadowlark/forager.h, meadowlark/tf-idf_forager.cc and meadowlark/tf-idf_stats.cc. *)
From Verif Require Import Base Bytes RecipeModel HopperModel PostingModel VectorModel StatsModel ForagerModel.

(** * The intervals of a query *)
(** meadowlark/meadowlark.cc:511-515: hopper, its last answer, and the intervals so far. *)
Definition collect_body (C : hcls) (last : Z) (s : St C * iv * list iv) : res ((St C * iv * list iv) + list iv) :=
  let '(h, x, l) := s in
  if iq x <? last then
    let* k := chk (ip x + 1) in
    let* (h', y) := h_tau C h k in
    Ok (inl (h', y, l ++ [x]))
  else Ok (inr l).
Definition collect (C : hcls) (c : St C) (start stop : Z) : res (list iv) :=
  let* last := if stop <? maxf then chk (stop + 1) else Ok maxf in
  let k := if start =? minf then minf + 1 else start in
  let* (h, x) := h_tau C c k in
  loop (collect_body C last) (h, x, []).

(** * The tf-idf forager *)
Section Forager.
(** tokenizer_->split(warren_->txt()->translate(p, q)), stemmer_->stem and
    warren_->featurizer()->featurize.  As in StatsModel a std::map stands in order of first use. *)
Context (split : Z -> Z -> list word) (stem : word -> word) (featurize : word -> Z).
(** combined_tag of Forager::make, meadowlark/forager.cc:36: the label. *)
Context (label : word).
(** The featurizers of meadowlark/tf-idf_forager.cc:35-46 put the label, "tf", "df" or "total"
    and a colon in front (src/tagging_featurizer.h:21-22, 33-36). *)
Definition labelled (w : word) : Z := featurize (label ++ w).

(** meadowlark/tf-idf_forager.h:38-43 and the annotations made. *)
Record gatherer := Gatherer {
  g_min : Z; g_items : Z; g_length : Z; g_df : list (Z * Z); g_stems : list (word * word); g_notes : list annotation }.
Definition new_gatherer : gatherer := Gatherer maxf 0 0 [] [] [].
Fixpoint known (t : word) (stems : list (word * word)) : option word :=
  match stems with [] => None | (k, s) :: r => if word_eq t k then Some s else known t r end.
(** meadowlark/tf-idf_forager.cc:67-83 *)
Fixpoint count_tokens (tokens : list word) (stems : list (word * word)) (tf : list (word * Z)) : list (word * word) * list (word * Z) :=
  match tokens with
  | [] => (stems, tf)
  | t :: r =>
      match known t stems with
      | Some s => count_tokens r stems (bump word_eq s tf)
      | None => count_tokens r (stems ++ [(t, stem t)]) (bump word_eq (stem t) tf)
      end
  end.
(** meadowlark/tf-idf_forager.cc:56-98, TfIdfForager::forage_; None when the range is refused.
    When an annotation fails is told by the calls below. *)
Definition forage1 (d : iv) (g : gatherer) : res (option gatherer) :=
  if (iq d <? ip d) || (ip d =? minf) || (iq d =? maxf) then Ok None else
  let* n := chk (iq d - ip d) in
  let* n' := chk (n + 1) in
  let* total := chk (g_length g + n') in
  let '(stems, tf) := count_tokens (split (ip d) (iq d)) (g_stems g) [] in
  Ok (Some (Gatherer (Z.min (g_min g) (ip d)) (g_items g + 1) total (item_dfs labelled tf (g_df g)) stems
              (g_notes g ++ item_notes labelled (ip d) tf))).
(** meadowlark/forager.h:47-54; intervals[i] past the end is undefined. *)
Fixpoint forage_range (intervals : list iv) (start n : nat) (g : gatherer) : res (option gatherer) :=
  match n with
  | O => Ok (Some g)
  | S m =>
      match nth_error intervals start with
      | None => UB
      | Some d => let* r := forage1 d g in match r with None => Ok None | Some g' => forage_range intervals (S start) m g' end
      end
  end.
(** meadowlark/tf-idf_forager.cc:100-114, TfIdfForager::ready_: all the annotations of the
    transaction, or None when it answers true and has not made the transaction ready. *)
Definition gathered (g : gatherer) : option (list annotation) :=
  if g_min g =? maxf then None
  else Some (g_notes g ++ map (fun '(f, n) => Ann f (Iv (g_min g) (g_min g) n)) (g_df g) ++
             [Ann (labelled total_items_word) (Iv (g_min g) (g_min g) (g_items g));
              Ann (labelled total_length_word) (Iv (g_min g) (g_min g) (g_length g))]).

(** * The workers: meadowlark/meadowlark.cc:437-477 *)
(** How the calls of a worker come out: clone, transaction, label, all of annotate, ready. *)
Record calls := Calls { c_clone : bool; c_transaction : bool; c_label : bool; c_annotate : bool; c_ready : bool }.
(** How a worker ends: it saw that another had failed, it failed, or it committed annotations;
    or the process stops, for committing what is not ready (src/committable.h:54). *)
Inductive ending := Skipped | Failed | Committed (notes : list annotation) | Stops.
(** Where the text of the label is, when this worker appends it; meadowlark/forager.cc:64-76. *)
Definition label_notes (place : iv) : list annotation :=
  [Ann (featurize (64 :: label)) (Iv (ip place) (iq place) 0); Ann (featurize [64]) (Iv (ip place) (iq place) 0)].
(** [made] says that Forager::make answers a forager, else a null pointer is used.  The calls
    are None when the worker saw that another had failed. *)
Definition worker (made : bool) (place : iv) (intervals : list iv) (c : option calls) (start n : nat) : res ending :=
  match c with
  | None => Ok Skipped
  | Some c =>
      if negb (c_clone c) then Ok Failed
      else if negb made then UB
      else if negb (c_transaction c) then Ok Failed
      else
        let first := Nat.eqb start 0 in
        if first && negb (c_label c) then Ok Failed
        else
          let* r := forage_range intervals start n new_gatherer in
          match r with
          | None => Ok Failed
          | Some g =>
              if negb (c_annotate c) then Ok Failed
              else match gathered g with
                   | None => Ok Stops
                   | Some notes => if c_ready c then Ok (Committed ((if first then label_notes place else []) ++ notes)) else Ok Failed
                   end
          end
  end.
(** meadowlark/meadowlark.cc:478-485: what the workers are given. *)
Fixpoint shares_from (threads : nat) (split size start : nat) : list (nat * nat) :=
  match threads with
  | O => []
  | S O => [(start, (size - start)%nat)]
  | S t => (start, split) :: shares_from t split size (start + split)
  end.
Definition shares (threads size : nat) : list (nat * nat) := shares_from threads (size / threads) size 0.
Fixpoint workers (made : bool) (place : iv) (intervals : list iv) (cs : list (option calls)) (l : list (nat * nat)) : res (list ending) :=
  match cs, l with
  | c :: cs', (start, n) :: l' =>
      let* e := worker made place intervals c start n in
      let* es := workers made place intervals cs' l' in
      Ok (e :: es)
  | _, _ => Ok []
  end.
(** meadowlark/meadowlark.cc:421-489: the answer and how the workers end. *)
Definition forage (made : bool) (place : iv) (intervals : list iv) (threads : nat) (cs : list (option calls)) : res (bool * list ending) :=
  match intervals with
  | [] => Ok (true, [])
  | _ =>
      let* es := workers made place intervals cs (shares threads (length intervals)) in
      Ok (forallb (fun e => match e with Failed => false | _ => true end) es, es)
  end.
End Forager.
(** meadowlark/meadowlark.cc:289-296; [hardware] is std::thread::hardware_concurrency(). *)
Definition thread_count (hardware threads count : nat) : nat :=
  let threads := if (count <=? 64 * 1024)%nat then 1%nat else threads in
  if Nat.eqb threads 0 then (hardware + 1)%nat else threads.
(** meadowlark/meadowlark.cc:432-434, 517-518: the parameters of the forager. *)
Definition forage_params (ps : params) (intervals : list iv) : params :=
  match intervals with
  | [] => ps
  | d :: _ => put (lit "end") (dec (iq (last intervals d))) (put (lit "start") (dec (ip d)) ps)
  end.
Definition gcl_params (ps : params) (gcl : bytes) : params := put (lit "gcl") gcl ps.

(** * Reading: meadowlark/tf-idf_stats.cc *)
Record stats := Stats { s_id : bytes; s_content : bytes; s_container : bytes; s_items : Z; s_length : Z }.
Section Stats.
(** warren->idx()->hopper, warren->txt()->translate and featurize; which queries, stemmers and
    tokenizers there are. *)
Context (index : Z -> hobj) (translate : Z -> Z -> bytes) (featurize : word -> Z).
Context (queries stemmers tokenizers : bytes -> bool).
Definition or_else (d : bytes) (o : option bytes) : bytes := match o with Some x => x | None => d end.
(** meadowlark/tf-idf_stats.cc:18-145, TfIdfStats::make.  The average length, a quotient of
    floating point numbers, is left to the two numbers it is made from. *)
Definition stats_make (recipe : bytes) : res (option stats) :=
  let label := forager_label (lit "tf-idf") recipe in
  let h := index (featurize (64 :: label)) in
  let* (h', x) := h_tau (projT1 h) (projT2 h) (minf + 1) in
  if ip x =? maxf then Ok None else
  let* r := json2forager (translate (ip x) (iq x)) in
  match r with
  | None => Ok None
  | Some (name, tag, ps) =>
      match RecipeModel.get (lit "gcl") ps with
      | None => Ok None
      | Some gcl =>
          if negb (eqb_bytes name (lit "tf-idf") && eqb_bytes tag recipe) then Ok None
          else
            let container := or_else (lit ":") (RecipeModel.get (lit "container") ps) in
            if negb (queries gcl && queries container &&
                     stemmers (or_else (lit "porter") (RecipeModel.get (lit "stemmer") ps)) &&
                     tokenizers (or_else (lit "ascii") (RecipeModel.get (lit "tokenizer") ps))) then Ok None
            else
              let* items := sum_values _ (projT2 (index (featurize (label ++ total_items_word)))) in
              if items <? 1 then Ok None
              else
                let* len := sum_values _ (projT2 (index (featurize (label ++ total_length_word)))) in
                if len <? 1 then Ok None
                else Ok (Some (Stats (or_else (lit ":0:") (RecipeModel.get (lit "id") ps)) gcl container items len))
      end
  end.
End Stats.
