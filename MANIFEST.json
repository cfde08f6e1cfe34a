{"claims": [
{"property": "C01", "status": "proved", "theorems": ["C01_lexing_loses_nothing", "C01_lexing_always_answers"], "note": ""},
{"property": "C02", "status": "proved", "theorems": ["C02_lexemes_are_maximal_runs", "C02_maximal_runs_are_unique"], "note": ""},
{"property": "C03", "status": "proved", "theorems": ["C03_opening_brackets_point_to_their_partner", "C03_closing_brackets_point_to_their_partner"], "note": ""},
{"property": "C04", "status": "partial", "theorems": ["C04_category_is_that_of_the_whole_text", "C04_categories_tell_what_is_found_partial", "C04_new_symbol_in_use_refuted"], "note": "Variables exactly the underscored symbols; reported concepts and built-in types are those found from the text's string through the recorded lists; new means none is found. The full claim fails: after `let (a b) := (c d)` and a renaming, a symbol is reported new although a concept carries it."},
{"property": "C05", "status": "proved", "theorems": ["C05_accepts_exactly_the_well_bracketed", "C05_otherwise_a_bracket_error", "C05_empty_expression_exactly_without_symbols"], "note": ""},
{"property": "C06", "status": "proved", "theorems": ["C06_malformed_commands_change_nothing", "C06_other_commands_pass_the_bracket_check"], "note": "For every command whose symbols the context can classify; the whole context is unchanged."},
{"property": "C07", "status": "proved", "theorems": ["C07_white_space_does_not_affect_nesting", "C07_white_space_does_not_matter"], "note": "Whole outcome of execute, in any context state."},
{"property": "C08", "status": "proved", "theorems": ["C08_nesting_keeps_symbols_in_order", "C08_nesting_follows_the_brackets", "C08_brackets_can_be_read_in_one_way"], "note": ""},
{"property": "C09", "status": "partial", "theorems": ["C09_groups_to_the_right_partial", "C09_bracketed_groups_refuted"], "note": "Refuted: `(a b) (c d) (e f)` with fresh symbols is answered with an ambiguity error. Proved: any list that no precedence mentions, in which some token has a concept and none is found left-associative, is grouped to the right when it is parsed in a debug build."},
{"property": "C10", "status": "partial", "theorems": ["C10_left_associativity_refuted", "C10_symbols_are_dropped_refuted", "C10_left_associative_lists_are_cut", "C10_left_associative_lists_lose_symbols"], "note": "Refuted: after declaring c, d and e left associative (all accepted), parsing `c d e` panics; after declaring c left associative and z to precede c, `x c y` is read as `x`. Proved beyond that, for every list of three or more tokens, context, hash order and fuel: left associativity never works. If a weakest symbol is found left-associative and the list is read at all, there is one such symbol and it is dropped with all that follows it; the tree has fewer symbols than the list (debug builds for the latter). Lists of one or two tokens are read in full whatever the associativity."},
{"property": "C11", "status": "partial", "theorems": ["C11_display_does_not_parse_back_refuted", "C11_answers_mean_something_else_refuted", "C11_bracketless_displays_parse_back_partial"], "note": "Refuted: `((a b) c) d` is displayed with another grouping; typed in again it can have another answer. Proved (debug builds, any number of words, every history and hash order): words that no precedence mentions and none of which is found left-associative, when what was read is displayed without brackets, are displayed as typed and read back with the same grouping."},
{"property": "C12", "status": "proved", "theorems": ["C12_contexts_are_reachable", "C12_knowledge_is_append_only", "C12_variables_stay_variables", "C12_concepts_keep_their_numbers"], "note": "For every history, hash order and both build modes."},
{"property": "C13", "status": "proved", "theorems": ["C13_reductions_are_listed"], "note": "For every history, hash order and both build modes."},
{"property": "C14", "status": "partial", "theorems": ["C14_listed_reductions_refuted", "C14_listed_reductions_are_real_partial"], "note": "Refuted: `let a -> _x_`, `let a -> b` leaves a listed at the old variable. Proved for every history in which no command gives a reduction to a concept that has one, every hash order and both builds: what is listed really reduces."},
{"property": "C15", "status": "partial", "theorems": ["C15_composition_links_agree_partial", "C15_composition_links_refuted"], "note": "Proved for histories in which no command replaces or removes a composition and (release builds only) composes an existing concept. The unrestricted statement fails: committing a composition update removes the wrong hand entries (zia/src/concepts/mod.rs)."},
{"property": "C16", "status": "partial", "theorems": ["C16_built_in_concepts_stay_built_in_partial", "C16_builtin_names_refuted", "C16_inferred_reduction_of_a_built_in_refuted"], "note": "First half (same concepts, no reduction, no composition, nothing else becomes built in). The second half (still reachable under their own names) is false: `let foo := true` renames true. An implication can also make the evaluation of false go on to something else."},
{"property": "C17", "status": "partial", "theorems": ["C17_readings_survive_the_commit", "C17_normal_forms_survive_the_commit", "C17_strings_and_built_ins_survive_the_commit", "C17_labels_survive_the_commit", "C17_names_survive_the_commit_partial", "C17_shared_names_refuted"], "note": "Refuted: when a command gives two concepts one name, which of them is found can differ before and after the commit. Proved: reductions, compositions, text, built-in type, normal forms, string lookups and labels: every command. Inverse labels: both lookups answer or neither does, what is found bears the name, and the answer is the same when one concept bears it."},
{"property": "C18", "status": "partial", "theorems": ["C18_two_concepts_share_a_name_refuted", "C18_concepts_have_one_name_partial", "C18_symbols_name_what_they_denote_partial"], "note": "Refuted: `let (a b) := (c d)` gives the parts of `a b` names that are already in use. Proved: a concept carries at most one label (histories that replace or remove no composition); if also no command gives a reduction to a concept that has one, what a symbol denotes carries that symbol as its label and asking for the label gives it back. Every hash order and both builds."},
{"property": "C19", "status": "partial", "theorems": ["C19_declared_reduction_names_refuted", "C19_declared_reduction_takes_effect_partial"], "note": "Refuted: `let (label_of (p q)) -> (label_of t)` names an existing concept. Proved for every history, hash order and build mode: a successful `let x -> y` makes x reduce to y and leaves every other existing concept's reduction, every composition, text and kind, and every name that does not go through x, unchanged; a failed one changes nothing."},
{"property": "C20", "status": "partial", "theorems": ["C20_forgotten_name_refuted", "C20_forget_takes_effect_partial", "C20_let_self_takes_effect_partial", "C20_nothing_to_forget_is_an_error"], "note": "Refuted: `forget (label_of a)` takes away the name of a. Proved for every history, hash order and build mode: a successful `forget x` or `let x -> x` removes the reduction x had and leaves every other existing concept's reduction, every composition, text and kind, and every name that does not go through x, unchanged; with nothing to forget the answer is an error and nothing changes."},
{"property": "C21", "status": "partial", "theorems": ["C21_reductions_form_a_cycle_refuted", "C21_no_cycle_of_first_reductions_partial"], "note": "Refuted: `let a -> _x_`, `let b -> a`, `let a -> b` makes a cycle. Proved for every history in which no command gives a reduction to a concept that has one, every hash order and both builds: no concept reduces to itself."},
{"property": "C22", "status": "proved", "theorems": ["C22_no_concept_is_part_of_itself"], "note": "For every history, hash order and both build modes."},
{"property": "C23", "status": "partial", "theorems": ["C23_commands_crash_refuted", "C23_more_commands_crash_refuted", "C23_lexing_never_crashes_partial", "C23_bad_brackets_never_crash_partial", "C23_bad_brackets_are_answered_partial"], "note": "Refuted: eight commands that panic in a new context. Proved: cutting any command into lexemes never panics, after every history; badly bracketed commands never panic; after histories in which no command gives a reduction to a concept that has one, a number of steps is enough for every command to be cut into lexemes and every badly bracketed one to be answered with an error."},
{"property": "C24", "status": "partial", "theorems": ["C24_evaluation_never_ends_refuted", "C24_outcomes_do_not_depend_on_the_bound", "C24_larger_bounds_suffice_too", "C24_circular_implications_refuted", "C24_circular_implications_are_never_answered", "C24_circular_implications_are_never_answered_later"], "note": "Refuted: after `let a -> _x_`, `let b -> a`, `let a -> b` the command `a` is not answered with any bound on the recursion; neither is it after `let ((a => b) -> true)`, `let ((b => a) -> true)`. Also proved: no word for a symbol in a circle of implications, or for one declared to reduce to such a symbol, is ever answered, also after other questions, and outcomes do not depend on the bound."},
{"property": "C25", "status": "partial", "theorems": ["C25_query_forgets_refuted", "C25_answered_query_keeps_meaning_partial", "C25_symbols_change_nothing_partial"], "note": "Refuted: after `let drop -> forget`, `drop a` removes a reduction. Proved: a command answered with something other than nothing or an error message leaves every existing concept's reduction, composition, text, kind and label unchanged (every history, hash order, build mode). So does every command read as a single symbol, whatever the answer."},
{"property": "C26", "status": "partial", "theorems": ["C26_repeated_query_refuted", "C26_evaluation_repeats_partial", "C26_remembered_answers_stay_partial"], "note": "Refuted: with the rule `let _x_ foo -> bar _x_` the query `new foo` is answered once and panics the second time. Proved: in every context, evaluating a tree again gives the same normal form and changes nothing, if no tree on the way is a variable or has the key of the one before; a remembered answer stays the answer whatever questions that record no change come in between."},
{"property": "C27", "status": "partial", "theorems": ["C27_answers_are_reached_by_reductions", "C27_declared_chains_are_followed_partial", "C27_declared_reduction_overruled_refuted"], "note": "Refuted in general: an implication overrules a declared reduction. Proved for every evaluation: the answer is reached by reductions and does not reduce further; chains of declared reductions of any length are followed to their end when no implication is found for a link and no link is cached."},
{"property": "C28", "status": "partial", "theorems": ["C28_nothing_reduces_to_itself_partial", "C28_true_only_along_reductions_partial", "C28_self_question_refuted", "C28_declared_answer_refuted"], "note": "Refuted for commands: an implication can make false reduce further, and declared answers to questions come first; moreover words whose chains meet are compared by their distance from where they meet (C65). Proved for every state of the evaluator: x -> x without a concept of its own is false; the question rules answer true only along reductions."},
{"property": "C29", "status": "partial", "theorems": ["C29_equal_to_itself_partial", "C29_nothing_is_greater_than_itself_partial", "C29_answers_follow_the_comparison_partial", "C29_opposite_verdicts_partial", "C29_self_comparison_refuted", "C29_opposite_answers_refuted"], "note": "Refuted for commands: a > b and b > a can both be answered true, and a > a need not be false. Proved for every state of the evaluator: an expression is equal to itself; verdicts are opposite unless a question is answered differently in the two comparisons."},
{"property": "C30", "status": "partial", "theorems": ["C30_rules_on_commands_refuted", "C30_patterns_match_only_instances", "C30_instances_match", "C30_rules_apply_to_instances_partial", "C30_rules_apply_to_instances", "C30_remembered_rules_applied", "C30_matching_is_sound", "C30_matching_is_complete"], "note": "Refuted: on whole commands, `(((a b) c) d) same ((a b c) d)` matches `_x_ same _x_`: expressions count as the same when they have the same text and concept, and displays conflate distinct trees. Proved up to that: both matchers of the evaluator (check_generalisation against a pattern in the store, check_example against a pattern tree) find exactly the assignments under which the pattern becomes the expression, each variable standing for one expression; and every answer that is justified by a rule, from memory or not, after every history, in both builds, for every hash order and fuel, was given for an expression of this wording and concept that was such an instance in the store of that time, with pattern, assignment and result as claimed."},
{"property": "C31", "status": "proved", "theorems": ["C31_merging_succeeds_exactly_on_agreement", "C31_merging_gives_the_union", "C31_merging_is_symmetric", "C31_merging_masks_succeeds_exactly_on_agreement", "C31_merging_masks_gives_the_union", "C31_merging_masks_is_symmetric"], "note": ""},
{"property": "C32", "status": "proved", "theorems": ["C32_innermost_binding_wins", "C32_push_adds_a_new_innermost_layer", "C32_dropping_restores"], "note": ""},
{"property": "C33", "status": "proved", "theorems": ["C33_substitution_replaces_outermost_mapped_parts", "C33_substitution_without_mapped_parts_is_the_identity"], "note": ""},
{"property": "C34", "status": "partial", "theorems": ["C34_recorded_free_variables_are_exact", "C34_recorded_bound_variables_are_exact_partial", "C34_recorded_bound_variables_bracketed", "C34_bound_variables_refuted"], "note": "Free variables exact; bound variables exact unless a variable occurs both free and bound across sibling expressions, where the exactness claim is refuted."},
{"property": "C35", "status": "partial", "theorems": ["C35_one_concept_per_name_partial", "C35_fresh_for_every_command_partial", "C35_pairs_refuted"], "note": "Proved for the variable leaves of the command's tree, for every command and history. Refuted for pairs: label_of _x_ is looked up through a lasting concept named _x_ that commands share. By C49 the variable symbols of the text are these leaves unless symbols are dropped."},
{"property": "C36", "status": "partial", "theorems": ["C36_stale_cache_refuted", "C36_one_question_spoils_another_refuted", "C36_cached_answers_were_computed_partial", "C36_nothing_older_than_the_last_change", "C36_nothing_older_than_the_changes"], "note": "Refuted: a cached tree mentions an id that no longer exists after the commit; different expressions that are displayed alike share a cache entry. Proved, after every history, in both builds, for all hash orders and fuels: every entry was computed for its key by the evaluator, with caches filled in the same way, from a store with pending changes that make it the store of now, that is from the store as it is or as the last command with changes knew it before its commit; and if no command evaluates anything after its last change, from what the context knows."},
{"property": "C37", "status": "partial", "theorems": ["C37_answers_depend_on_hash_order_refuted", "C37_knowledge_after_a_query_partial", "C37_knowledge_after_a_declaration_partial", "C37_knowledge_after_a_definition_partial"], "note": "Refuted: with the rules `let (_x_ a) -> b` and `let (a _y_) -> c` the answer to `a a` depends on the iteration order of a hash set. Proved: under any two iteration orders, two answered queries, two accepted reductions between the same concepts and two accepted definitions of a symbol from the same concepts leave the same reductions, compositions, texts and kinds of existing concepts."},
{"property": "C38", "status": "partial", "theorems": ["C38_a_new_context_is_consistent_partial", "C38_naming_succeeds_in_every_order_partial", "C38_bootstrap_keeps_the_built_in_concepts_partial"], "note": "Proved in full for iteration in insertion order, both builds. For every order: the built-in concepts are created and named correctly, and the bootstrap commands, if they succeed, keep them. Missing: that the bootstrap commands succeed and keep the names for every order."},
{"property": "C39", "status": "partial", "theorems": ["C39_clones_share_their_cache_refuted", "C39_clones_leave_answers_partial"], "note": "Refuted: a question put to a clone changes the answer of the original, because both write into one cache in which different expressions share a key. Proved: after any questions to any clones that record no change, everything in the shared cache was computed from what the original knows, and the answers the original remembered are still its answers."},
{"property": "C40", "status": "proved", "theorems": ["C40_layers_read_like_one_list_of_changes", "C40_changes_are_read_bottom_up"], "note": "For every sequence of recorded changes that one layer accepts and every way of splitting it into layers. A stack also accepts some sequences that one layer refuses, see C40_stacks_accept_more."},
{"property": "C41", "status": "partial", "theorems": ["C41_redefining_leaves_two_concepts_with_a_name_refuted", "C41_definition_takes_effect_partial", "C41_definitions_relate_what_the_words_name_partial", "C41_written_definitions_relate_what_the_words_name_partial"], "note": "Refuted: second half: redefining `a b` as `c d` moves names in use and leaves two concepts with one name. Proved of the first half, for every history, hash order and build mode: a successful `let n := l r` for a symbol n makes the concept read for n the composition of those read for l and r and changes nothing else; a failed one changes nothing. For words that are unknown or stand for something not composed (debug builds), the words lead to those concepts afterwards. Missing: words that stand for compositions already."},
{"property": "C42", "status": "proved", "theorems": ["C42_builds_agree", "C42_sessions_agree", "C42_starting_agrees"], "note": "For every order, command and state. A command on which an assertion does fail: C42_an_assertion_fails."},
{"property": "C43", "status": "partial", "theorems": ["C43_indirect_commands_refuted", "C43_indirect_commands_always_fail"], "note": "Refuted: `let a -> (let b -> c)`; `a` is answered with an error and nothing changes. Proved that it is always so (every history, hash order, build mode): a symbol whose normal form is a `let`, or a `forget` of a concept, is answered with an error and nothing changes."},
{"property": "C44", "status": "partial", "theorems": ["C44_failed_definition_renames_refuted", "C44_failed_reduction_changes_nothing_partial", "C44_failed_definition_of_a_symbol_changes_nothing_partial"], "note": "Refuted: `let foo := (c d)` can fail with an error after having renamed a concept. Proved: definitions of a symbol as a pair and declarations and removals of reductions that are answered with an error leave every existing concept's reduction, composition, text, kind and label unchanged."},
{"property": "C45", "status": "proved", "theorems": ["C45_submitting_appends_command_and_answer", "C45_other_messages_keep_or_clear_the_history", "C45_history_is_a_true_record", "C45_visitors_see_a_true_record"], "note": "For every sequence of messages and of visitor actions."},
{"property": "C46", "status": "partial", "theorems": ["C46_only_the_last_step_can_break_the_page_partial", "C46_drawing_needs_a_step_partial", "C46_next_button_leads_to_a_step_partial", "C46_tutorial_runs_off_its_end_refuted"], "note": "Refuted: a command with an empty answer on the last step makes the page look up a step that does not exist. Proved: this is the only way."},
{"property": "C47", "status": "partial", "theorems": ["C47_empty_session_clears_knowledge_partial", "C47_empty_session_keeps_the_tutorial_refuted"], "note": "Refuted for the tutorial and the input, which stay. Proved for context, history and menu."},
{"property": "C48", "status": "partial", "theorems": ["C48_existence_without_a_witness_refuted", "C48_existence_goes_by_an_example_partial", "C48_one_sided_claims_are_exact_partial", "C48_known_examples_are_found_partial"], "note": "Refuted: in a new context `(_x_ exists_such_that) _x_ c` is answered true although no known name makes it true. Proved for every state of the evaluator: the rule claims existence only if some concept listed as reducing to true fits the pattern (free variables recorded in rules count as examples); for `_x_ p` and `p _x_` exactly when a pair with p or with a free variable in its place is listed."},
{"property": "C49", "status": "proved", "theorems": ["C49_parsing_keeps_symbols_in_order", "C49_release_builds_keep_symbols_in_order"], "note": "Debug builds; release builds whenever the debug build does not stop at an assertion."},
{"property": "C50", "status": "proved", "theorems": ["C50_weakest_symbols_split", "C50_ranks_determine_the_grouping"], "note": "Debug builds, every successful run. The ranking is compared with the answers given on the way."},
{"property": "C51", "status": "partial", "theorems": ["C51_chained_operators_refuted", "C51_chains_are_split"], "note": "Refuted: `a plus b plus c` is read as `(a ((plus b) (plus c)))`. Proved: whenever the grouping is by rank this is how such a chain is read."},
{"property": "C52", "status": "proved", "theorems": ["C52_last_word_counts", "C52_declarations_last", "C52_forgetting_undoes", "C52_order_does_not_matter"], "note": "Every hash order and both builds; the changes made by the commands are links_safe (no composition replaced; in release builds none given to an existing concept). Refused commands are included."},
{"property": "C53", "status": "partial", "theorems": ["C53_expression_declared_refuted", "C53_expression_declared_partial"], "note": "Refuted: after a concept has been renamed to an expression its name contains a space and is taken for the expression: `let ((x y) (-> z))` is accepted but `x y` is still answered `x y`. Proved whenever no text contains a space: for all expressions, nested to any depth, with known and new symbols."},
{"property": "C54", "status": "proved", "theorems": ["C54_lines_are_answered_in_order", "C54_exits_after_answering", "C54_crashes_where_a_command_does"], "note": "The terminal is modelled as a list of results of read_line; failures of the terminal itself are left out."},
{"property": "C55", "status": "proved", "theorems": ["C55_mistakes_do_not_disturb"], "note": "For sessions the model answers within its fuel; every hash order, both builds."},
{"property": "C56", "status": "proved", "theorems": ["C56_names_are_answered", "C56_names_are_looked_up"], "note": "The second theorem covers every history: the answer is what the label lookup gives after the command."},
{"property": "C57", "status": "partial", "theorems": ["C57_false_implication_used_refuted", "C57_conditions_are_true_partial", "C57_steps_by_implication_partial"], "note": "Refuted: after `let ((a => b) -> false)` and `let (a -> true)`, `b` is answered true because of `a => b`, which is answered false. Proved, when nothing but variables is pending: a reduction put down to an implication comes from a rule cond => (t -> r) that is known to be true, or from a pair cond => k in the store, and in both cases the condition evaluates to true."},
{"property": "C58", "status": "proved", "theorems": ["C58_chains_are_followed", "C58_chains_are_followed_beside_implications"], "note": "Every history in which no composition is replaced or removed, every hash order, fuel and both builds. Symbols are elementary, named and such that no implication or variable can match them; only the last of a chain may be built in. In the second theorem the symbols may also be conclusions of implications none of whose conditions is declared true or follows from something true: they change no answer."},
{"property": "C59", "status": "proved", "theorems": ["C59_declarations_relate_what_the_words_name", "C59_written_declarations_relate_what_the_words_name"], "note": "Debug builds. The command must be read as the built-in let and ->, and neither word as a variable; the second theorem says of the text and of the store when it is: let and -> have their built-in meaning only, and nothing is composed of -> and what w2 stands for."},
{"property": "C60", "status": "proved", "theorems": ["C60_words_of_questions_are_names"], "note": "Debug builds."},
{"property": "C61", "status": "proved", "theorems": ["C61_addresses_of_the_home_page", "C61_other_addresses_are_not_found", "C61_addresses_and_the_page_are_independent", "C61_a_visit_to_the_site_is_a_visit_to_the_page", "C61_wandering_visitors_see_a_true_record", "C61_the_logo_leads_home_and_turns_the_menu_over"], "note": "The browser and the seed framework are modelled by the messages they send; drawing is modelled as far as it depends on the state."},
{"property": "C62", "status": "proved", "theorems": ["C62_bracketed_commands_are_read_as_written", "C62_release_builds_read_bracketed_commands_as_written", "C62_unjoined_words_stay_apart"], "note": "First part: every context; for release builds when the debug build does not stop at an assertion. Second part: debug builds, histories in which no composition is replaced or removed."},
{"property": "C63", "status": "proved", "theorems": ["C63_notes_are_answered", "C63_notes_are_kept", "C63_answers_are_determined", "C63_new_interpreters_take_notes", "C63_release_builds_take_notes"], "note": "Debug builds; release builds answer alike as long as the debug build does not stop at an assertion (C63_release_builds_take_notes). The first theorem is for any context in the state of a notebook (no implication can say anything about a reduction, the words name elementary symbols which reduce as the notes say), the last for the context that Context::new gives; that the store then has exactly the reductions that were declared and not forgotten is C63_notes_are_kept. Declarations are written with brackets, sequences and questions with or without them (see C68). Yes/no questions in between need a little more of the context (inquiry), which a new interpreter has; they are answered as described for C65, sequences as for C66 and other expressions as for C67. That the answers are determined is for sessions without the last kind."},
{"property": "C64", "status": "proved", "theorems": ["C64_commands_of_the_example", "C64_slides_after_the_commands", "C64_no_example"], "note": "The text of the slides is a parameter. Lines are as in a documentation comment: nothing but the margin, or the margin and a line of code without another margin in it."},
{"property": "C65", "status": "partial", "theorems": ["C65_undeclared_reductions_are_confirmed_refuted", "C65_declared_reductions_are_confirmed_partial", "C65_other_questions_stay", "C65_questions_are_settled"], "note": "Refuted: after `let (tom (-> cat))`, `let (cat (-> animal))` and `let (dog (-> animal))`, `tom (-> dog)` is answered true: if neither word is on the chain of the other, both are reduced by one step and the question is asked again. Proved for all sessions in which the chains of the two words end alike (and not with let, forget or label_of): the answer is true if w becomes v, false if they are the same or v becomes w, and in every case true exactly if w is further away from the end than v. If the chains end differently then the answer is neither true nor false but the question about the two ends, `z -> z'` (proved for ends that are not words of the language other than assoc). So all such questions are settled, with or without brackets, by how far the words are from which ends (C65_questions_are_settled)."},
{"property": "C66", "status": "proved", "theorems": ["C66_sequences_are_evaluated_word_by_word", "C66_sequences_in_sessions"], "note": "Debug builds. The first theorem is for any context in the state of a notebook in which nothing is composed of two of the words and no expression with variables is about one (phrasing), with nothing remembered; the second for whole sessions with a new interpreter, with whatever earlier lines left in memory, if no other expressions were evaluated (see C67)."},
{"property": "C67", "status": "partial", "theorems": ["C67_brackets_depend_on_earlier_questions_refuted", "C67_groupings_are_lost_refuted", "C67_the_words_of_expressions_partial", "C67_the_words_in_sessions_partial"], "note": "Refuted: after `let (tom (-> cat))`, `tom (((tom tom) tom) tom)` is answered `cat (cat cat) cat cat`, but `cat cat cat cat cat` if `(tom (tom tom)) tom` was asked before; and `tom ((tom tom) tom)` and `tom (tom (tom tom))` are both answered `cat cat cat cat`. The text of a pair leaves out brackets of its halves, and answers are remembered by the text. Proved for all sessions and expressions: apart from brackets, the answer has the right words in the right order, and nothing is changed."},
{"property": "C68", "status": "proved", "theorems": ["C68_sequences_need_no_brackets", "C68_questions_need_no_brackets", "C68_brackets_make_no_difference"], "note": "Debug builds. The first two theorems are for any context in the state of a notebook in which it is known how strongly `->` binds and nothing of that kind is known of words that are not words of the language (unbracketed), with nothing remembered; the third for whole sessions with a new interpreter. Declarations `let w -> v` without brackets are not covered. For expressions in which some brackets are left out see C69."},
{"property": "C69", "status": "proved", "theorems": ["C69_words_tell_groups_apart", "C69_words_tell_groups_apart_in_sessions", "C69_answered_or_refused", "C69_extremes_are_answered"], "note": "Debug builds. The first theorem is for any context in the state of a notebook in which nothing is known of how strongly the words bind (unbracketed), with nothing remembered; the second for whole sessions with a new interpreter. That the brackets of the answer may be any is not a gap of the proof: see C67."},
{"property": "C70", "status": "proved", "theorems": ["C70_declarations_are_judged", "C70_nothing_to_forget", "C70_objections_in_sessions", "C70_accepted_in_sessions", "C70_accepted_or_refused", "C70_objections_leave_no_trace", "C70_declarations_are_forgotten", "C70_two_ways_to_forget"], "note": "Debug builds, for commands that the model finishes without a panic. C70_declarations_are_judged, C70_nothing_to_forget and C70_declarations_are_forgotten are for any context in the state of a notebook with nothing remembered, the others for whole sessions with a new interpreter; that refusals leave no trace in the answers is for sessions without expressions other than sequences, whose brackets depend on what was asked before (C67)."},
{"property": "C71", "status": "proved", "theorems": ["C71_words_keep_their_names", "C71_names_in_sessions", "C71_names_are_not_confused", "C71_asking_for_names_leaves_no_trace"], "note": "Debug builds, for commands that the model finishes without a panic. C71_words_keep_their_names is for any context in the state of a notebook with nothing remembered, the others for whole sessions with a new interpreter; that asking leaves no trace in the answers is for sessions without expressions other than sequences, whose brackets depend on what was asked before (C67)."},
{"property": "C72", "status": "proved", "theorems": ["C72_only_what_is_declared_counts", "C72_order_does_not_matter", "C72_asking_leaves_no_trace"], "note": "Debug builds, for commands that the model finishes without a panic. For sessions without expressions other than sequences, whose brackets depend on what was asked before (C67)."},
{"property": "C73", "status": "proved", "theorems": ["C73_words_are_interchangeable"], "note": "Debug builds, for commands that the model finishes without a panic. In sessions without expressions other than sequences the answers are renamed literally; in others the answers to expressions apart from brackets, which depend on what was asked before (C67)."},
{"property": "C74", "status": "proved", "theorems": ["C74_conversations_do_not_interfere"], "note": "Debug builds, for commands that the model finishes without a panic. For sessions without expressions other than sequences, whose brackets depend on what was asked before (C67)."},
{"property": "C75", "status": "proved", "theorems": ["C75_paraphrases_have_the_same_answer", "C75_up_to_brackets", "C75_other_words_beside_implications"], "note": "Debug builds, for commands that the model finishes without a panic. The first theorem is for sessions without expressions other than sequences, whose brackets depend on what was asked before (C67). Questions whether one word reduces to another with the same end are not meant: their answer depends on the distance of the two words (C65). The third theorem is about single words as in C58, next to implications, in both builds."},
{"property": "C76", "status": "proved", "theorems": ["C76_answers_are_answered_with_themselves", "C76_answers_are_answered_with_themselves_beside_implications"], "note": "Debug builds, for commands that the model finishes without a panic. For sessions without expressions other than sequences, whose brackets depend on what was asked before (C67). The second theorem is about single words as in C58, within one session, next to implications, in both builds."},
{"property": "C77", "status": "partial", "theorems": ["C77_reductions_lead_back_refuted"], "note": "Refuted: `let a -> (b c)` and `let b -> a` are both accepted; then `b` reduces to `a`, which reduces to an expression containing `b`, and the question `b` uses up the steps that are enough for others. The direct loop `let a -> (a c)` is refused (Example)."},
{"property": "C78", "status": "partial", "theorems": ["C78_refused_declarations_have_effects_refuted", "C78_refused_notes_have_no_effect_partial"], "note": "Refuted: after `let (c e) -> f` the question `a c e` is answered with `a f`, but it panics if `let (a c e) -> g` is refused before. Proved for sessions of notes about words (debug builds, commands that the model finishes): a refused declaration or a withdrawal of nothing can be left out and all other answers are the same."},
{"property": "C79", "status": "partial", "theorems": ["C79_declarations_are_not_confirmed_refuted", "C79_words_are_confirmed_partial"], "note": "Refuted: after `let a := b d` and `let c -> (b d)` the question `c -> (b d)` is answered with `a -> b d`. Proved for sessions of notes about words (debug builds, commands that the model finishes): what was declared and not withdrawn since is confirmed, whatever comes in between."},
{"property": "C80", "status": "partial", "theorems": ["C80_conclusions_are_missed_refuted", "C80_conclusions_are_true_partial", "C80_conclusions_are_true_later_partial"], "note": "Refuted: after `let ((a => b) -> true)`, `let (a -> c)` and `let (c -> true)`, `a` and `a => b` are answered true but `b` is not. Proved right after a change to the store and any number of questions about symbols evaluated by following declarations, for every history in which no composition is replaced or removed, every hash order and both builds: a symbol that follows, by any number of implications, from a symbol declared to be true is answered true if it is answered. The other conditions may be any symbols evaluated by following declarations, or conclusions that follow or do not. So is a symbol whose declared reductions lead to one that follows."},
{"property": "C81", "status": "proved", "theorems": ["C81_order_of_questions_does_not_matter"], "note": "For any two sessions of such questions, with different hash orders and bounds, about symbols as in C58, as long as `=>` and `->` are not renamed to variables. Histories that replace or remove no composition."}
]}
