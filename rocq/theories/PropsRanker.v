(** C56, C57: ranking pipelines and feedback. *)
From Verif Require Import Base Bytes RankModel RankSpec RankWitness RankerModel RankerSpec RankerText RankerFeed RankerFinal RankerWitness.
From Verif Require Import RecipeModel.

(** C56: a pipeline is read as its stages, one for each piece of text between white space, and
    refused exactly if one of them is not the text of a stage. *)
Theorem C56_text : forall (F : Type) (default draw : bytes -> F) stof names s, pipeline_of names s ->
  forall ss, from_pipeline default draw stof s = Some ss <-> Forall2 (stage_named default draw stof) names ss.
Proof. exact (fun F default draw stof names s P ss => pipeline_ok default draw stof names s ss P). Qed.
Print Assumptions C56_text.
Example C56_text_ex : pipeline_of [lit "stop"; lit "stem"; lit "bm25"; lit "rsj:gamma=3"; lit "rsj"; lit "bm25"] wpipeline /\
  from_pipeline wdefault wdraw wstof wpipeline = Some wstages /\
  stage_named wdefault wdraw wstof (lit "random:bm25") (Random [(lit "bm25:b", 6); (lit "bm25:k1", 7); (lit "depth", 1000)]).
Proof. exact (conj wtext_pipeline (conj wstages_read wrandom)). Qed.
(** C56: each text names one stage at most. *)
Theorem C56_names : forall (F : Type) (default draw : bytes -> F) stof n s, from_name default draw stof n = Some s <-> stage_named default draw stof n s.
Proof. exact (fun F => @from_name_ok F). Qed.
Print Assumptions C56_names.
(** C56 is false of a pipeline with white space before its first stage, and of one without
    stages: they are refused. *)
Theorem C56_leading_refuted : forall (F : Type) (default draw : bytes -> F) stof,
  from_pipeline default draw stof [] = None /\ forall w s, white_run w -> from_pipeline default draw stof (w ++ s) = None.
Proof. exact (fun F default draw stof => conj (pipeline_empty default draw stof) (pipeline_leading default draw stof)). Qed.
Print Assumptions C56_leading_refuted.
Example C56_leading_ex : white_run [32] /\ from_pipeline wdefault wdraw wstof (lit " bm25") = None /\ from_pipeline wdefault wdraw wstof (lit "bm25") = Some [Bm25].
Proof. split; [split; [discriminate|repeat constructor]|vm_compute; split; reflexivity]. Qed.

(** C56: ranking by a pipeline always comes to an end, and gives what its stages give one after
    the other, starting with the terms of the query and the numbers of their occurrences. *)
Theorem C56_stages : forall (F : Type) (zero one : F) add mul lt sort default size_of addr_of translate split wsplit stem wstem stopwords have unstemmed rsj expect gain share bm25 lmd l query,
  add zero one = one -> split [] = [] -> wsplit query = split query ->
  let rsj_ := rsj_prf zero one add lt default sort size_of translate wsplit wstem have unstemmed rsj mul in
  let kld_ := kld_prf zero one add lt default sort size_of addr_of translate wsplit expect gain share in
  exists ranking ps q q', rank zero one add split wsplit stem stopwords bm25 lmd rsj_ kld_ l query = Ok (ranking, ps) /\
    bag one add (split query) q /\ effects add stem stopwords bm25 lmd rsj_ kld_ l (View q [] []) (View q' ps ranking).
Proof. exact (fun F => @rank_full F). Qed.
Print Assumptions C56_stages.
Example C56_stages_ex : wrank wstages (lit "the ants and ants") =
  Ok ([Res 1 2 0 4 2; Res 10 11 10 14 7; Res 12 13 10 14 6; Res 22 22 20 24 5], [(lit "rsj:gamma", 3)]).
Proof. exact wrank_run. Qed.

(** C56: a parameter of a ranker has the value set under its full name, or else under its short
    name, or else its default. *)
Theorem C56_parameter : forall (F : Type) (default : bytes -> F) ranker name ps names, a_map ps -> parameter_names ranker = Some names ->
  (In (ranker ++ lit ":" ++ name) names \/ name = lit "depth") ->
  exists v, ranking_parameter default ranker name ps = Ok v /\ parameter_value default ranker name ps v.
Proof. exact (fun F => @parameter_ok F). Qed.
Print Assumptions C56_parameter.
Example C56_parameter_ex : ranking_parameter wdefault (lit "rsj") (lit "gamma") [(lit "gamma", 8)] = Ok 8 /\
  ranking_parameter wdefault (lit "rsj") (lit "gamma") [(lit "rsj:gamma", 9)] = Ok 9 /\
  ranking_parameter wdefault (lit "rsj") (lit "gamma") [(lit "lmd:mu", 9)] = Ok 2.
Proof. vm_compute. repeat split. Qed.
(** C56 is false of drawn parameters: drawing those of bm25 or lmd sets a depth that feedback
    takes for its own, in place of the default for feedback. *)
Theorem C56_depth_refuted : forall (F : Type) (default draw : bytes -> F) ranker m ps, drawn_for default draw ranker m -> a_map ps ->
  (ranker = lit "bm25" \/ ranker = lit "lmd") -> ~ In (lit "rsj:depth") (map fst ps) ->
  forall ps', ps' = fold_left (fun m kv => put (fst kv) (snd kv) m) m ps -> ranking_parameter default (lit "rsj") (lit "depth") ps' = Ok (default (lit "depth")).
Proof. exact (fun F => @depth_taken F). Qed.
Print Assumptions C56_depth_refuted.
Example C56_depth_ex : drawn_for wdefault wdraw (lit "bm25") [(lit "bm25:b", 6); (lit "bm25:k1", 7); (lit "depth", 1000)] /\
  ranking_parameter wdefault (lit "rsj") (lit "depth") [] = Ok 2 /\
  ranking_parameter wdefault (lit "rsj") (lit "depth") [(lit "bm25:b", 6); (lit "bm25:k1", 7); (lit "depth", 1000)] = Ok 1000.
Proof. split; [apply drawn_ok; vm_compute; reflexivity|vm_compute; split; reflexivity]. Qed.

(** C57: feedback by weights of the statistics adds, to the terms of the query, those terms of
    the first texts of the ranking that are worth most, by their weight and the number of these
    texts that they are in; each is added with the weight gamma. *)
Theorem C57_rsj : forall (F : Type) (zero one : F) add mul lt sort, sorts sort -> weak_order lt ->
  forall default size_of translate wsplit wstem unstemmed rsj ranking ps q, ranking <> [] -> a_map ps -> a_map q ->
  exists q' e d g terms, rsj_prf zero one add lt default sort size_of translate wsplit wstem true unstemmed rsj mul ranking ps q = Ok q' /\
    parameter_value default (lit "rsj") (lit "expansions") ps e /\ parameter_value default (lit "rsj") (lit "depth") ps d /\ parameter_value default (lit "rsj") (lit "gamma") ps g /\
    best_of lt (size_of e) (rsj_candidate zero one add mul lt rsj (map (fun r => words_of wsplit wstem unstemmed (translate (rcp r) (rcq r))) (firstn (size_of d) ranking))) terms /\
    grown add (fun _ => g) q terms q'.
Proof. exact (fun F zero one add mul lt sort SO WO default size_of => rsj_ok zero one add mul lt sort SO WO default size_of (fun _ => 0)). Qed.
Print Assumptions C57_rsj.
Example C57_rsj_ex : (sorts isrt /\ weak_order Z.ltb) /\ wrsj_prf (wranking [] []) [(lit "rsj:depth", 3)] [(lit "ant", 1)] = Ok [(lit "ant", 3); (lit "bite", 2)].
Proof. exact (conj (conj isrt_sorts z_order) wrsj_run). Qed.

(** C57: feedback by divergence adds those terms that are worth most in the passages about the
    first results of different containers, weighted by their share of the highest worth. *)
Theorem C57_kld : forall (F : Type) (zero one : F) add lt sort, sorts sort -> weak_order lt ->
  forall default size_of addr_of translate wsplit expect gain share ranking ps q, ranking <> [] -> a_map ps -> a_map q ->
  exists q' e d w g m terms, kld_prf zero one add lt default sort size_of addr_of translate wsplit expect gain share ranking ps q = Ok q' /\
    parameter_value default (lit "kld") (lit "expansions") ps e /\ parameter_value default (lit "kld") (lit "depth") ps d /\
    parameter_value default (lit "kld") (lit "window") ps w /\ parameter_value default (lit "kld") (lit "gamma") ps g /\
    let texts := map (fun r => wsplit (translate (fst (passage (addr_of w) r)) (snd (passage (addr_of w) r)))) (firstn (Nat.max 1 (size_of d)) (firsts [] ranking)) in
    (exists vs, (forall v, In v vs <-> exists t, kld_candidate one add lt expect gain texts t v) /\ largest lt zero vs m) /\
    best_of lt (size_of e) (kld_candidate one add lt expect gain texts) terms /\
    grown add (fun v => share g v m) q terms q'.
Proof. exact (fun F zero one add lt sort SO WO default size_of addr_of translate wsplit => kld_ok zero one add add lt sort SO WO default size_of addr_of translate wsplit (fun s => s) (fun _ => zero)). Qed.
Print Assumptions C57_kld.
Example C57_kld_ex : wkld_prf (wranking [] []) [(lit "depth", 2); (lit "kld:gamma", 5)] [(lit "men", 4)] = Ok [(lit "ants", 5); (lit "bite", 5); (lit "men", 4)].
Proof. exact wkld_run. Qed.

(** C57: the passage about a result covers it and starts in its container.  Missing: that it ends
    there and is no longer than the window, see C57_window_refuted. *)
Theorem C57_passage_partial : forall (F : Type) w (r : result (F := F)), rcp r <= rp r <= rq r -> rq r <= rcq r ->
  let '(p, q) := passage w r in rcp r <= p <= rp r /\ rq r <= q /\
  ((p = rcp r /\ q = rcq r /\ rcq r - rcp r + 1 <= w) \/ (p = rp r /\ q = rq r /\ w <= rq r - rp r + 1) \/ q - p + 1 = w \/ (p = rcp r /\ q - p + 1 = w + 1)).
Proof. exact (fun F => @passage_ok F). Qed.
Print Assumptions C57_passage_partial.
(** C57 is false of a result near the start of its container, which gets a token more than the
    window has, and of one near its end, whose passage goes past the end. *)
Theorem C57_window_refuted : passage 4 (Res 0 0 0 4 1) = (0, 4) /\ passage 4 (Res 4 4 0 4 1) = (3, 6).
Proof. exact wpassages. Qed.
Print Assumptions C57_window_refuted.
(** C57 is false of a depth of 0: one passage is taken. *)
Theorem C57_depth_refuted : passages 0 4 [] 0 (wranking [] []) = [(0, 3)].
Proof. exact wzero_depth. Qed.
Print Assumptions C57_depth_refuted.
