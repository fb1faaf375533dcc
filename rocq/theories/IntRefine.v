(** Every checked computation gives the unlimited result or overflows. *)
From Verif Require Import IntModel IntSpec ParProofs IntProofs JTModel.
Local Open Scope nat_scope.

Lemma unless_bind {A B} (o oi : outcome A) (f fi : A -> outcome B) : unless_overflow o oi -> (forall x, unless_overflow (f x) (fi x)) -> unless_overflow (o ≫= f) (oi ≫= fi).
Proof. intros [->| ->] H; [|by right]. destruct o; cbn; [apply H|by left]. Qed.
Lemma unless_mfor {I S} (l : list I) (f fi : I -> S -> outcome S) : (forall i s, unless_overflow (f i s) (fi i s)) -> forall s, unless_overflow (mfor l f s) (mfor l fi s).
Proof. intros H. induction l as [|i l IH]; intros s; cbn [mfor]; [by left|]. by apply unless_bind. Qed.
Lemma unless_imul {B} M a b (f fi : nat -> outcome B) : (forall x, unless_overflow (f x) (fi x)) -> unless_overflow (f (a * b)) (imul M a b ≫= fi).
Proof. intros H. unfold imul. case_bool_decide; [apply H|by right]. Qed.
Lemma unless_same {A B} (o : outcome A) (f fi : A -> outcome B) : (forall x, unless_overflow (f x) (fi x)) -> unless_overflow (o ≫= f) (o ≫= fi).
Proof. intros H. apply unless_bind; [by left|done]. Qed.
Lemma unless_refl {A} (o : outcome A) : unless_overflow o o.
Proof. by left. Qed.
Lemma unless_mcollect {I A} (l : list I) (f fi : I -> outcome A) : (forall i, unless_overflow (f i) (fi i)) -> unless_overflow (mcollect l f) (mcollect l fi).
Proof. intros H. induction l as [|i l IH]; cbn [mcollect]; [by left|]. apply unless_bind; [done|]. intros x. apply unless_bind; [done|]. intros xs. by left. Qed.
Lemma unless_par_for {Me X} es (rd rdi : nat -> Me -> outcome X) wr wri : (forall s m, unless_overflow (rd s m) (rdi s m)) -> (forall s x m, unless_overflow (wr s x m) (wri s x m)) ->
  forall m, unless_overflow (par_for es rd wr m) (par_for es rdi wri m).
Proof.
  intros H1 H2 m. unfold par_for. apply unless_bind; [|intros; by left]. apply unless_mfor. intros e s. destruct e as [k|k]; [apply unless_bind; [done|intros; by left]|]. destruct (list_find _ _) as [[? ?]|]; [|by left]. apply unless_bind; [done|intros; by left].
Qed.
Lemma cum_levels_unless M nv dims : unless_overflow (construct_cum_levels nv dims) (construct_cum_levels_i M nv dims).
Proof.
  unfold construct_cum_levels, construct_cum_levels_i. case_bool_decide; [by left|]. apply unless_same. intros c0. apply unless_mfor. intros i s. apply unless_same. intros c. apply unless_same. intros d.
  apply (unless_imul M c d (fun p => vset s i p)). intros x. by left.
Qed.
(** A check in front. *)
Lemma check_mul {B} M a b (o : outcome B) fi : unless_overflow o (fi (a * b)) -> unless_overflow o (imul M a b ≫= fi).
Proof. intros H. unfold imul. case_bool_decide; [apply H|by right]. Qed.
Lemma check_add {B} M a b (o : outcome B) fi : unless_overflow o (fi (a + b)) -> unless_overflow o (iadd M a b ≫= fi).
Proof. intros H. unfold iadd. case_bool_decide; [apply H|by right]. Qed.
Lemma check_add_end M a b : unless_overflow (Ok (a + b)) (iadd M a b).
Proof. unfold iadd. case_bool_decide; [by left|by right]. Qed.
Lemma final_sum_unless M sizes : unless_overflow (Ok (foldl Nat.add 0 sizes)) (final_sum_i M sizes).
Proof.
  unfold final_sum_i. generalize 0 as a. induction sizes as [|n l IH]; intros a; [by left|]. cbn [foldl mfor]. apply check_add. apply IH.
Qed.
Lemma check_sum {B} M sizes (o : outcome B) fi : unless_overflow o (fi (foldl Nat.add 0 sizes)) -> unless_overflow o (final_sum_i M sizes ≫= fi).
Proof. intros H. destruct (final_sum_unless M sizes) as [->| ->]; [apply H|by right]. Qed.
Lemma check_total {B} M sizes (o : outcome B) fi : unless_overflow o (fi (snd (cum_sums sizes))) -> unless_overflow o (final_sum_i M sizes ≫= fi).
Proof.
  intros H. apply check_sum. enough (foldl Nat.add 0 sizes = snd (cum_sums sizes)) as ->; [done|]. unfold cum_sums.
  change 0 with (snd (@nil nat, 0)) at 1. generalize (@nil nat, 0) as st. clear H. induction sizes as [|n l IH]; intros st; [done|]. cbn [foldl]. by rewrite <-IH.
Qed.
Lemma scratch_unless M ts nvs : unless_overflow (Ok tt) (scratch_i M ts nvs).
Proof.
  unfold scratch_i. assert (unless_overflow (mfor (zip ts nvs) (fun _ _ => Ok tt) tt) (mfor (zip ts nvs) (fun tn _ => _ ← imul M (pt_size (fst tn)) (pt_nv (fst tn)); _ ← imul M (pt_size (fst tn)) (snd tn); Ok tt) tt)) as H.
  { apply unless_mfor. intros tn []. apply check_mul, check_mul. by left. }
  enough (mfor (zip ts nvs) (fun _ _ => Ok tt) tt = Ok tt) as E; [by rewrite E in H|]. clear H. induction (zip ts nvs); [done|]. done.
Qed.
Lemma check_scratch {B} M ts nvs (o : outcome B) fi : unless_overflow o (fi tt) -> unless_overflow o (scratch_i M ts nvs ≫= fi).
Proof. intros H. destruct (scratch_unless M ts nvs) as [->| ->]; [apply H|by right]. Qed.
Lemma unless_par1 {X} es (f fi : nat -> X -> outcome X) m : (forall k x, unless_overflow (f k x) (fi k x)) -> unless_overflow (par1 es f m) (par1 es fi m).
Proof. intros H. unfold par1. apply unless_par_for; intros; [apply unless_same; intros; apply H|by left]. Qed.
Lemma unless_par1_fill {X} es n (f fi : nat -> outcome X) : (forall k, unless_overflow (f k) (fi k)) -> unless_overflow (par1_fill es n f) (par1_fill es n fi).
Proof. intros H. unfold par1_fill. apply unless_bind; [|intros; by left]. apply unless_par1. intros. apply unless_bind; [apply H|intros; by left]. Qed.
Lemma unless_par2_fill {X} es sizes (f fi : nat -> nat -> outcome X) : (forall j k, unless_overflow (f j k) (fi j k)) -> unless_overflow (par2_fill es sizes f) (par2_fill es sizes fi).
Proof.
  intros H. unfold par2_fill. apply unless_bind; [|intros; by left]. unfold par2. apply unless_par_for; intros; [|by left].
  do 3 (apply unless_same; intros). apply unless_bind; [apply H|intros; by left].
Qed.

Create HintDb unl.
Ltac unl_step := lazymatch goal with
  | |- forall _, _ => intros
  | |- unless_overflow _ (mbind _ (imul _ _ _)) => apply check_mul
  | |- unless_overflow _ (mbind _ (iadd _ _ _)) => apply check_add
  | |- unless_overflow _ (mbind _ (scratch_i _ _ _)) => apply check_scratch
  | |- unless_overflow _ (mbind _ (final_sum_i _ _)) => apply check_total
  | |- unless_overflow (Ok _) (iadd _ _ _) => apply check_add_end
  | |- unless_overflow (mbind _ _) (mbind _ _) => apply unless_bind
  | |- unless_overflow (mfor _ _ _) (mfor _ _ _) => apply unless_mfor
  | |- unless_overflow (mcollect _ _) (mcollect _ _) => apply unless_mcollect
  | |- unless_overflow (par1 _ _ _) (par1 _ _ _) => apply unless_par1
  | |- unless_overflow (par1_fill _ _ _) (par1_fill _ _ _) => apply unless_par1_fill
  | |- unless_overflow (par2_fill _ _ _) (par2_fill _ _ _) => apply unless_par2_fill
  | |- unless_overflow (match ?x with _ => _ end) (match ?x with _ => _ end) => destruct x
  | |- unless_overflow ?o ?o => apply unless_refl
  | |- unless_overflow _ _ => solve [auto with unl nocore]
  end.
Ltac unl := repeat (cbv zeta beta; unl_step).
Lemma get_index_nv_unless M cfg nv cum : unless_overflow (get_index_nv cfg nv cum) (get_index_nv_i M cfg nv cum).
Proof. unfold get_index_nv, get_index_nv_i. unl. Qed.
#[global] Hint Resolve get_index_nv_unless : unl.
Lemma get_index_unless M t cfg : unless_overflow (get_index t cfg) (get_index_i M t cfg).
Proof. unfold get_index, get_index_i. unl. Qed.
#[global] Hint Resolve get_index_unless : unl.
Lemma construct_cum_levels_unless M nv dims : unless_overflow (construct_cum_levels nv dims) (construct_cum_levels_i M nv dims).
Proof. unfold construct_cum_levels, construct_cum_levels_i. unl. Qed.
#[global] Hint Resolve construct_cum_levels_unless : unl.
Lemma construct_var_dims_and_cum_levels_unless M doms vars : unless_overflow (construct_var_dims_and_cum_levels doms vars) (construct_var_dims_and_cum_levels_i M doms vars).
Proof. unfold construct_var_dims_and_cum_levels, construct_var_dims_and_cum_levels_i. unl. Qed.
#[global] Hint Resolve construct_var_dims_and_cum_levels_unless : unl.
Lemma construct_empty_potential_table_unless M doms vars : unless_overflow (construct_empty_potential_table doms vars) (construct_empty_potential_table_i M doms vars).
Proof. unfold construct_empty_potential_table, construct_empty_potential_table_i. unl. Qed.
#[global] Hint Resolve construct_empty_potential_table_unless : unl.
Lemma reorganization_main_unless M new old locs k : unless_overflow (reorganization_main new old locs k) (reorganization_main_i M new old locs k).
Proof. unfold reorganization_main, reorganization_main_i. unl. Qed.
#[global] Hint Resolve reorganization_main_unless : unl.
Lemma table_reorganization_unless M this refer : unless_overflow (table_reorganization this refer) (table_reorganization_i M this refer).
Proof. unfold table_reorganization, table_reorganization_i. unl. Qed.
#[global] Hint Resolve table_reorganization_unless : unl.
Lemma reorganization_pre_unless M this common : unless_overflow (reorganization_pre this common) (reorganization_pre_i M this common).
Proof. unfold reorganization_pre, reorganization_pre_i. unl. Qed.
#[global] Hint Resolve reorganization_pre_unless : unl.
Lemma table_reorganize_tail_unless M this common : unless_overflow (table_reorganize_tail this common) (table_reorganize_tail_i M this common).
Proof. unfold table_reorganize_tail, table_reorganize_tail_i. unl. Qed.
#[global] Hint Resolve table_reorganize_tail_unless : unl.
Lemma reduction_main_unless M t loc i : unless_overflow (reduction_main t loc i) (reduction_main_i M t loc i).
Proof. unfold reduction_main, reduction_main_i. unl. Qed.
#[global] Hint Resolve reduction_main_unless : unl.
Lemma reduction_post_unless M t index value vidx loc : unless_overflow (reduction_post t index value vidx loc) (reduction_post_i M t index value vidx loc).
Proof. unfold reduction_post, reduction_post_i. unl. Qed.
#[global] Hint Resolve reduction_post_unless : unl.
Lemma marginalization_main_unless M new nv cl locs k : unless_overflow (marginalization_main new nv cl locs k) (marginalization_main_i M new nv cl locs k).
Proof. unfold marginalization_main, marginalization_main_i, project_i. unl. Qed.
#[global] Hint Resolve marginalization_main_unless : unl.
Lemma marginalization_pre_unless M variables dims : unless_overflow (marginalization_pre variables dims) (marginalization_pre_i M variables dims).
Proof. unfold marginalization_pre, marginalization_pre_i. unl. Qed.
#[global] Hint Resolve marginalization_pre_unless : unl.
Lemma marginalization_body_unless M this new : unless_overflow (marginalization_body this new) (marginalization_body_i M this new).
Proof. unfold marginalization_body, marginalization_body_i. unl. Qed.
#[global] Hint Resolve marginalization_body_unless : unl.
Lemma table_marginalization_unless M this variables dims : unless_overflow (table_marginalization this variables dims) (table_marginalization_i M this variables dims).
Proof. unfold table_marginalization, table_marginalization_i. unl. Qed.
#[global] Hint Resolve table_marginalization_unless : unl.
Lemma extension_pre_unless M variables dims : unless_overflow (extension_pre variables dims) (extension_pre_i M variables dims).
Proof. unfold extension_pre, extension_pre_i. unl. Qed.
#[global] Hint Resolve extension_pre_unless : unl.
Lemma extension_main_unless M big nv cl locs k : unless_overflow (extension_main big nv cl locs k) (extension_main_i M big nv cl locs k).
Proof. unfold extension_main, extension_main_i, project_i. unl. Qed.
#[global] Hint Resolve extension_main_unless : unl.
Lemma table_extension_unless M this variables dims : unless_overflow (table_extension this variables dims) (table_extension_i M this variables dims).
Proof. unfold table_extension, table_extension_i. unl. Qed.
#[global] Hint Resolve table_extension_unless : unl.
Lemma table_multiplication_unless M this second : unless_overflow (table_multiplication this second) (table_multiplication_i M this second).
Proof. unfold table_multiplication, table_multiplication_i. unl. Qed.
#[global] Hint Resolve table_multiplication_unless : unl.
Lemma new_clique_unless M doms vars : unless_overflow (new_clique doms vars) (new_clique_i M doms vars).
Proof. unfold new_clique, new_clique_i. unl. Qed.
#[global] Hint Resolve new_clique_unless : unl.
Lemma candidate_seps_unless M doms cliques : unless_overflow (candidate_seps doms cliques) (candidate_seps_i M doms cliques).
Proof. unfold candidate_seps, candidate_seps_i. unl. Qed.
#[global] Hint Resolve candidate_seps_unless : unl.
Lemma form_junction_tree_unless M o doms cliques : unless_overflow (form_junction_tree o doms cliques) (form_junction_tree_i M o doms cliques).
Proof. unfold form_junction_tree, form_junction_tree_i. unl. Qed.
#[global] Hint Resolve form_junction_tree_unless : unl.
Lemma assign_one_unless M pt cs : unless_overflow (assign_one pt cs) (assign_one_i M pt cs).
Proof. induction cs as [|c cs IH]; cbn [assign_one assign_one_i]; [by left|]. unl; apply IH. Qed.
#[global] Hint Resolve assign_one_unless : unl.
Lemma assign_potentials_unless M pts cliques : unless_overflow (assign_potentials pts cliques) (assign_potentials_i M pts cliques).
Proof. unfold assign_potentials, assign_potentials_i. unl. Qed.
#[global] Hint Resolve assign_potentials_unless : unl.
Lemma triangulate_unless M fuel : forall n doms m processed cliques, unless_overflow (triangulate fuel n doms m processed cliques) (triangulate_i M fuel n doms m processed cliques).
Proof. induction fuel as [|fuel IH]; intros n doms m processed cliques; cbn [triangulate triangulate_i]; [by left|]. unl. all: apply IH. Qed.
#[global] Hint Resolve triangulate_unless : unl.
Lemma jt_structure_unless M o N pts : unless_overflow (jt_structure o N pts) (jt_structure_i M o N pts).
Proof. unfold jt_structure, jt_structure_i. unl. Qed.
#[global] Hint Resolve jt_structure_unless : unl.
Lemma reorganize_storage_unless M mk ctabs stabs : unless_overflow (reorganize_storage mk ctabs stabs) (reorganize_storage_i M mk ctabs stabs).
Proof. unfold reorganize_storage, reorganize_storage_i. unl. Qed.
#[global] Hint Resolve reorganize_storage_unless : unl.
Lemma jt_build_unless M o N pts : unless_overflow (jt_build o N pts) (jt_build_i M o N pts).
Proof. unfold jt_build, jt_build_i. unl. Qed.
#[global] Hint Resolve jt_build_unless : unl.
Lemma load_evidence_to_nodes_unless M sch tag st nodes index value : unless_overflow (load_evidence_to_nodes sch tag st nodes index value) (load_evidence_to_nodes_i M sch tag st nodes index value).
Proof. unfold load_evidence_to_nodes, load_evidence_to_nodes_i. unl. Qed.
#[global] Hint Resolve load_evidence_to_nodes_unless : unl.
Lemma load_evidence_unless M sch tag n E st : unless_overflow (load_evidence sch tag n E st) (load_evidence_i M sch tag n E st).
Proof. unfold load_evidence, load_evidence_i. unl. Qed.
#[global] Hint Resolve load_evidence_unless : unl.
Lemma divide_level_unless M seps tmp : unless_overflow (divide_level seps tmp) (divide_level_i M seps tmp).
Proof. unfold divide_level_i. unl. Qed.
#[global] Hint Resolve divide_level_unless : unl.
Lemma separator_level_collection_unless M sch tag T i st : unless_overflow (separator_level_collection sch tag T i st) (separator_level_collection_i M sch tag T i st).
Proof. unfold separator_level_collection, separator_level_collection_i. unl. Qed.
#[global] Hint Resolve separator_level_collection_unless : unl.
Lemma separator_level_distribution_unless M sch tag T i st : unless_overflow (separator_level_distribution sch tag T i st) (separator_level_distribution_i M sch tag T i st).
Proof. unfold separator_level_distribution, separator_level_distribution_i. unl. Qed.
#[global] Hint Resolve separator_level_distribution_unless : unl.
Lemma multiply_level_unless M sch tag st vec clqs tmp : unless_overflow (multiply_level sch tag st vec clqs tmp) (multiply_level_i M sch tag st vec clqs tmp).
Proof. unfold multiply_level_i. unl. Qed.
#[global] Hint Resolve multiply_level_unless : unl.
Lemma clique_level_collection_unless M sch tag T i has k st : unless_overflow (clique_level_collection sch tag T i has k st) (clique_level_collection_i M sch tag T i has k st).
Proof. unfold clique_level_collection, clique_level_collection_i. unl. Qed.
#[global] Hint Resolve clique_level_collection_unless : unl.
Lemma clique_level_distribution_unless M sch tag T i st : unless_overflow (clique_level_distribution sch tag T i st) (clique_level_distribution_i M sch tag T i st).
Proof. unfold clique_level_distribution, clique_level_distribution_i. unl. Qed.
#[global] Hint Resolve clique_level_distribution_unless : unl.
Lemma collect_level_unless M sch tag T i st : unless_overflow (collect_level sch tag T i st) (collect_level_i M sch tag T i st).
Proof. unfold collect_level, collect_level_i. unl. Qed.
#[global] Hint Resolve collect_level_unless : unl.
Lemma collect_unless M sch tag T st : unless_overflow (collect sch tag T st) (collect_i M sch tag T st).
Proof. unfold collect, collect_i. unl. Qed.
#[global] Hint Resolve collect_unless : unl.
Lemma distribute_level_unless M sch tag T i st : unless_overflow (distribute_level sch tag T i st) (distribute_level_i M sch tag T i st).
Proof. unfold distribute_level, distribute_level_i. unl. Qed.
#[global] Hint Resolve distribute_level_unless : unl.
Lemma distribute_unless M sch tag T st : unless_overflow (distribute sch tag T st) (distribute_i M sch tag T st).
Proof. unfold distribute, distribute_i. unl. Qed.
#[global] Hint Resolve distribute_unless : unl.
Lemma propagate_unless M sch T E st : unless_overflow (propagate sch T E st) (propagate_i M sch T E st).
Proof. unfold propagate, propagate_i. unl. Qed.
#[global] Hint Resolve propagate_unless : unl.
Lemma calculate_marginal_unless M T st q : unless_overflow (calculate_marginal T st q) (calculate_marginal_i M T st q).
Proof. unfold calculate_marginal, calculate_marginal_i. unl. Qed.
#[global] Hint Resolve calculate_marginal_unless : unl.
Lemma probabilities_all_unless M T st E : unless_overflow (probabilities_all T st E) (probabilities_all_i M T st E).
Proof. unfold probabilities_all, probabilities_all_i. apply check_sum. unl. Qed.
#[global] Hint Resolve probabilities_all_unless : unl.
Lemma query_label_unless M sch T q E st : unless_overflow (query_label sch T q E st) (query_label_i M sch T q E st).
Proof. unfold query_label, query_label_i. unl. Qed.
#[global] Hint Resolve query_label_unless : unl.
Lemma query_probs_unless M sch T E st : unless_overflow (query_probs sch T E st) (query_probs_i M sch T E st).
Proof. unfold query_probs, query_probs_i. unl. Qed.
#[global] Hint Resolve query_probs_unless : unl.
Lemma run_query_unless M sch T qu st : unless_overflow (run_query sch T qu st) (run_query_i M sch T qu st).
Proof. unfold run_query, run_query_i. unl. Qed.
#[global] Hint Resolve run_query_unless : unl.
Lemma run_queries_unless M T qs st : unless_overflow (run_queries T qs st) (run_queries_i M T qs st).
Proof. unfold run_queries, run_queries_i. unl. Qed.
#[global] Hint Resolve run_queries_unless : unl.
