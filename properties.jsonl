{"id": "C01", "title": "Lexing loses nothing", "statement": "Concatenating the texts of the lexemes returned by Context::lex gives back exactly the command that was lexed, so a UI that colours a command lexeme by lexeme shows what the user typed.", "quantifier": "every Unicode command text, every context state", "why_tests_cant": "The input space is all strings; a test fixes a handful of ASCII commands.", "anchors": ["zia/src/context.rs: lex"]}
{"id": "C02", "title": "Lexemes are maximal runs", "statement": "Every lexeme is non-empty and is one of: a single '(' , a single ')' , a run of whitespace characters, or a run of characters that are neither parentheses nor whitespace; two whitespace lexemes are never adjacent and two concept lexemes are never adjacent. Together with losslessness this determines the lexeme texts uniquely.", "quantifier": "every Unicode command text, every context state", "why_tests_cant": "Quantifies over all strings and, for uniqueness, over all rival tokenisations.", "anchors": ["zia/src/context.rs: lex", "zia/src/lexer.rs: Category"]}
{"id": "C03", "title": "Parenthesis positions match", "statement": "An opening-parenthesis lexeme reports the position of its matching closing parenthesis and vice versa, where matching is the usual balanced-bracket relation on the lexemes; a parenthesis with no partner reports None.", "quantifier": "every command text, including unbalanced ones", "why_tests_cant": "Nested and unbalanced inputs of every depth; tests cover a few.", "anchors": ["zia/src/context.rs: lex", "zia/src/lexer.rs: Category"]}
{"id": "C04", "title": "Lexeme categories tell the truth", "statement": "The category of a concept lexeme is decided by its whole text alone: Variable exactly when it starts and ends with an underscore, otherwise New exactly when no concept carries that label, and otherwise Abstract or Concrete with the id (and built-in type) of the concept the label denotes.", "quantifier": "every command text, every context state", "why_tests_cant": "The category is updated incrementally while characters arrive; only a proof rules out a stale prefix category for all inputs.", "anchors": ["zia/src/context.rs: lex, concept_kind_from_symbol"]}
{"id": "C05", "title": "Bracket errors are exact", "statement": "A command whose brackets are unbalanced, which contains an empty pair of brackets, or which has no symbols is answered with an error message and never with a crash; conversely every other command gets past bracket checking.", "quantifier": "every command text", "why_tests_cant": "Exactness is an equivalence over all strings.", "anchors": ["zia/src/context.rs: nest", "zia/src/errors.rs"]}
{"id": "C06", "title": "Malformed commands change nothing", "statement": "Executing a command that fails bracket checking returns the error text and leaves the knowledge of the context exactly as it was.", "quantifier": "every malformed command text, every context state", "why_tests_cant": "Ranges over all states reachable by all histories.", "anchors": ["zia/src/context.rs: execute, execute_without_closing_scope, nest, commit"]}
{"id": "C07", "title": "Whitespace does not matter", "statement": "Two commands whose non-whitespace lexemes agree are answered identically and leave identical contexts.", "quantifier": "every pair of commands that differ only in the amount and kind of white space between tokens and brackets, every context state", "why_tests_cant": "All layouts of all commands in all states.", "anchors": ["zia/src/context.rs: lex, nest, execute"]}
{"id": "C08", "title": "Bracketing keeps every symbol in order", "statement": "The nested syntax built from a command contains exactly the command's symbols, in the order in which they were typed.", "quantifier": "every well-bracketed command", "why_tests_cant": "Induction over unboundedly nested input.", "anchors": ["zia/src/context.rs: nest", "zia/src/nester.rs: append_node, nest"]}
{"id": "C09", "title": "Symbols group to the right by default", "statement": "A list of symbols (or bracketed groups) t1 t2 ... tn that carry no precedence or associativity information is parsed as t1 (t2 (... tn)), with no symbol lost or reordered.", "quantifier": "every length n and all tokens without precedence or associativity declarations", "why_tests_cant": "Unbounded token lists.", "anchors": ["zia/src/context.rs: ast_from_syntax_list, associativity_try_fold_handler, lowest_precedence_info"]}
{"id": "C10", "title": "Left associative operators group to the left", "statement": "If the user declares the lowest-precedence symbols of a command left associative then the command is parsed with those symbols grouped to the left, every symbol is kept, and the parser does not crash.", "quantifier": "every declaration history and every command whose lowest-precedence symbols are left associative", "why_tests_cant": "The repository has one test with a single operator occurrence; the property ranges over all token lists.", "anchors": ["zia/src/context.rs: ast_from_syntax_list, associativity_try_fold_handler", "zia/src/associativity.rs: slice_tokens"]}
{"id": "C11", "title": "Printed expressions parse back", "statement": "Displaying a syntax tree and parsing the display gives back the same tree, so a result printed by one command can be typed in again with the same meaning.", "quantifier": "every syntax tree", "why_tests_cant": "Trees of every depth and shape.", "anchors": ["zia/src/context_search.rs: join, display_joint", "zia/src/ast/macro.rs: Display", "zia/src/context.rs: ast_from_expression"]}
{"id": "C12", "title": "Knowledge is append-only", "statement": "Executing commands never deletes a concept and never renumbers one: after any history every concept that existed before still exists under the same id, with the same text if it is a string, the same built-in type if it is built in, and the same kind of variable if it is a variable.", "quantifier": "every command history, every hash iteration order, debug and release builds", "why_tests_cant": "Quantifies over all histories.", "anchors": ["zia/src/context_snap_shot/mod.rs: apply, apply_new_concept, write_concepts", "zia/src/concepts/mod.rs"]}
{"id": "C13", "title": "Reduction links agree in both directions", "statement": "After any history, whenever a concept reduces to another, the latter lists the former among the concepts that reduce to it.", "quantifier": "every command history, every hash iteration order", "why_tests_cant": "Invariant over all histories.", "anchors": ["zia/src/concepts/mod.rs: make_reduce_to, change_reduction", "zia/src/context_snap_shot/mod.rs: apply", "zia/src/context_updater.rs: update_reduction"]}
{"id": "C14", "title": "Only concepts that reduce to it are listed", "statement": "After any history, a concept lists another among the concepts that reduce to it only if the other really reduces to it.", "quantifier": "every command history", "why_tests_cant": "Converse direction of the link invariant, over all histories.", "anchors": ["zia/src/context_updater.rs: update_reduction", "zia/src/concepts/mod.rs: change_reduction"]}
{"id": "C15", "title": "Composition links agree in both directions", "statement": "After any history, a concept is composed of left and right exactly when left records it as its composition with right and right records it as its composition with left; so a pair of concepts has at most one composition.", "quantifier": "every command history", "why_tests_cant": "Invariant over all histories.", "anchors": ["zia/src/concepts/mod.rs: composition_of, change_composition", "zia/src/context_snap_shot/mod.rs: apply"]}
{"id": "C16", "title": "Built-in concepts stay built in", "statement": "Built-in concepts (let, ->, :=, true, false, ...) never get a reduction or a composition, and every one of them is still reachable under its own name after any history.", "quantifier": "every command history", "why_tests_cant": "Invariant over all histories, including hostile redefinitions.", "anchors": ["zia/src/context.rs: define, execute_reduction, label_concrete_concepts", "zia/src/concepts/mod.rs: SpecificPart"]}
{"id": "C17", "title": "Committing preserves meaning", "statement": "Reading any concept's reduction, composition, text, built-in type, label or inverse label through the pending changes gives the same answer as reading it after those changes are committed.", "quantifier": "every snapshot, every list of pending changes produced by the updater", "why_tests_cant": "Two code paths (mixed reader and commit) must agree on every delta list.", "anchors": ["zia/src/snap_shot.rs: maybe_read_concept", "zia/src/context_snap_shot/mod.rs: apply", "zia/src/context_snap_shot/concept.rs"]}
{"id": "C18", "title": "Names denote one concept", "statement": "After any history a symbol denotes at most one concept, and asking for the label of the concept denoted by a symbol gives back that symbol.", "quantifier": "every command history without redefinitions of a used name, every symbol", "why_tests_cant": "Invariant over all histories and symbols.", "anchors": ["zia/src/context_snap_shot/mod.rs: concept_from_label, get_label, get_labellee", "zia/src/context_updater.rs: label, new_labelled_concept"]}
{"id": "C19", "title": "A declared reduction takes effect and nothing else changes", "statement": "After a successful `let x -> y` for concepts x and y, x reduces to y; the reduction of every other concept, every composition, every name and every string is unchanged.", "quantifier": "every context state, every pair of concepts", "why_tests_cant": "Frame condition over all other concepts.", "anchors": ["zia/src/context.rs: execute_reduction", "zia/src/context_updater.rs: update_reduction"]}
{"id": "C20", "title": "Forgetting a reduction takes effect and nothing else changes", "statement": "After a successful `forget x` (or `let x -> x`), x has no reduction; the reductions of all other concepts, compositions, names and strings are unchanged, and forgetting where there is nothing to forget is reported as an error.", "quantifier": "every context state, every concept", "why_tests_cant": "Frame condition over all other concepts.", "anchors": ["zia/src/context.rs: call_pair, try_removing_reduction", "zia/src/context_updater.rs: delete_reduction"]}
{"id": "C21", "title": "Reductions never form a cycle", "statement": "No sequence of commands makes a concept reduce, in one or more steps, to itself; a command that would do so is rejected with an error.", "quantifier": "every command history", "why_tests_cant": "Invariant over all histories; cycles may have any length.", "anchors": ["zia/src/context_updater.rs: update_reduction", "zia/src/snap_shot.rs: get_normal_form, check_reductions"]}
{"id": "C22", "title": "Compositions are well founded", "statement": "No concept is, directly or indirectly, a part of itself.", "quantifier": "every command history", "why_tests_cant": "Invariant over all histories; cycles may have any length.", "anchors": ["zia/src/context.rs: execute_composition", "zia/src/context_updater.rs: insert_composition, define_new_syntax", "zia/src/snap_shot.rs: check_reductions"]}
{"id": "C23", "title": "No command crashes the interpreter", "statement": "Every command is answered with a text; Context::execute never panics.", "quantifier": "every command text, every reachable context state", "why_tests_cant": "All inputs in all states.", "anchors": ["zia/src/context.rs: execute, commit", "zia/src/concepts/mod.rs: make_reduce_to", "zia/src/context_snap_shot/mod.rs: with_dependent, apply"]}
{"id": "C24", "title": "Every command terminates", "statement": "Evaluation of every command terminates.", "quantifier": "every command text, every reachable context state", "why_tests_cant": "Termination is a liveness property; tests can only time out.", "anchors": ["zia/src/context_search.rs: recursively_reduce, reduce, expand", "zia/src/context.rs: call"]}
{"id": "C25", "title": "Queries do not change the meaning of existing concepts", "statement": "A command that is not a `let` or `forget` leaves the reduction, composition, text and label of every existing concept unchanged.", "quantifier": "every query command, every context state", "why_tests_cant": "Frame condition over all concepts and states.", "anchors": ["zia/src/context.rs: call, call_pair", "zia/src/context_updater.rs"]}
{"id": "C26", "title": "Repeating a query repeats the answer", "statement": "Executing the same query twice in a row gives the same answer twice.", "quantifier": "every context state, every query command", "why_tests_cant": "Depends on cache and commit interplay in all states.", "anchors": ["zia/src/context.rs: execute, commit", "zia/src/context_cache/macro.rs"]}
{"id": "C27", "title": "Evaluation finds the declared reduction", "statement": "If x was declared to reduce to y, y to z, and so on to a final w that has no reduction, evaluating x answers with w.", "quantifier": "every chain length", "why_tests_cant": "Unbounded chains.", "anchors": ["zia/src/context_search.rs: recursively_reduce, reduce_concept", "zia/src/context.rs: call"]}
{"id": "C28", "title": "Nothing reduces to itself", "statement": "The question `x -> x` is answered false for every x, and `x -> y` is answered true only if y can be reached from x by one or more reductions.", "quantifier": "every context state, all x and y", "why_tests_cant": "All states and expressions.", "anchors": ["zia/src/reduction_reason.rs: determine_reduction_truth", "zia/src/context.rs: reduce_and_call_pair"]}
{"id": "C29", "title": "Greater-than comparison is consistent", "statement": "Comparing an expression with itself gives Equal; the answers for (x,y) and (y,x) are opposite; `x > x` reduces to false.", "quantifier": "every context state, all expressions", "why_tests_cant": "All states and expressions.", "anchors": ["zia/src/context_search.rs: compare"]}
{"id": "C30", "title": "Rules apply only to instances of their pattern", "statement": "When a stored rule with pattern p is used on an expression e, there is one assignment of expressions to the pattern's free variables under which p becomes e; the same variable never stands for two different expressions.", "quantifier": "every pattern, every expression, every variable assignment", "why_tests_cant": "Soundness of matching over unbounded trees.", "anchors": ["zia/src/context_search.rs: check_generalisation, find_generalisations", "zia/src/ast/macro.rs: check_example", "zia/src/consistent_merge.rs"]}
{"id": "C31", "title": "Merging variable assignments is sound and complete", "statement": "Merging two partial variable assignments succeeds exactly when they agree wherever both are defined, and then the result is their union; the order of the two arguments does not matter.", "quantifier": "all finite maps", "why_tests_cant": "All pairs of maps.", "anchors": ["zia/src/consistent_merge.rs: consistent_merge"]}
{"id": "C32", "title": "Variable masks layer properly", "statement": "A variable mask list hides outer bindings by inner ones: a lookup returns the innermost binding, dropping the innermost layer restores the previous view, and a layer that adds nothing new is not added.", "quantifier": "all stacks of masks", "why_tests_cant": "All stacks and keys.", "anchors": ["zia/src/variable_mask_list.rs"]}
{"id": "C33", "title": "Substitution replaces exactly the mapped parts", "statement": "Substituting in a syntax tree replaces every outermost subtree whose key is mapped, leaves every other node's shape alone, and is the identity when no key of the tree is mapped.", "quantifier": "all trees, all substitutions", "why_tests_cant": "All trees.", "anchors": ["zia/src/substitute.rs", "zia/src/ast/macro.rs"]}
{"id": "C34", "title": "Free and bound variables of a pair are computed correctly", "statement": "The free (binding) variables recorded for an expression built from parts are exactly the variables that occur free (bound by a quantifier) in it.", "quantifier": "all expressions", "why_tests_cant": "All trees.", "anchors": ["zia/src/ast/node.rs: new_pair", "zia/src/concepts/mod.rs: composition_of"]}
{"id": "C35", "title": "Variables live for one command", "statement": "Within one command all occurrences of a variable name denote the same concept, and variables of different commands denote different concepts even when they have the same name.", "quantifier": "every command, every history", "why_tests_cant": "All histories.", "anchors": ["zia/src/context.rs: create_variable_concepts, execute"]}
{"id": "C36", "title": "Cached answers equal recomputed answers", "statement": "Whatever is served from a cache equals what would be computed without it, in particular after a command has been committed.", "quantifier": "every command history", "why_tests_cant": "All interleavings of cache fills, changes and commits.", "anchors": ["zia/src/context_cache/macro.rs", "zia/src/context_delta.rs: update_concept_delta", "zia/src/context.rs: commit"]}
{"id": "C37", "title": "Answers do not depend on hash order", "statement": "The answer to a command and the knowledge after it do not depend on the iteration order of hash maps and sets, which differs from run to run.", "quantifier": "all iteration orders, every command history", "why_tests_cant": "A test run sees a handful of orders.", "anchors": ["zia/src/context.rs: lowest_precedence_info", "zia/src/context_search.rs: find_generalisations, find_examples"]}
{"id": "C38", "title": "A new context starts consistent", "statement": "Creating a context succeeds (its own bootstrap commands all succeed) in debug and release builds and for every hash iteration order, and afterwards every built-in name denotes its built-in concept.", "quantifier": "all iteration orders, both build modes", "why_tests_cant": "All iteration orders.", "anchors": ["zia/src/context.rs: new, setup, label_concrete_concepts"]}
{"id": "C39", "title": "Clones are independent", "statement": "Commands executed on a clone of a context do not affect the answers of the original, and the other way round.", "quantifier": "every context state, all command lists on both sides, all interleavings", "why_tests_cant": "All interleavings.", "anchors": ["zia/src/context.rs: Clone", "zia/src/context_cache/macro.rs: invalidate"]}
{"id": "C40", "title": "Layered pending changes behave like one list of changes", "statement": "Reading through a stack of pending-change layers gives the same result as reading through the single layer in which the upper layers' changes come after the lower layers' changes.", "quantifier": "all stacks of layers", "why_tests_cant": "All stacks.", "anchors": ["zia/src/context_delta.rs: NestedDelta get_concept, get_string, iter_string, spawn"]}
{"id": "C41", "title": "Definitions can be queried and relabelled", "statement": "After a successful `let n := a b` with n fresh, n denotes the composition of a and b; redefining n moves the name and does not leave two concepts with the same name.", "quantifier": "every context state, all names", "why_tests_cant": "All states.", "anchors": ["zia/src/context.rs: define", "zia/src/context_updater.rs: redefine, relabel, define_new_syntax"]}
{"id": "C42", "title": "Release and debug builds agree", "statement": "If no debug assertion fails, a command gives the same answer and the same context in a debug and in a release build.", "quantifier": "every command, every state", "why_tests_cant": "Tests run in one build mode.", "anchors": ["zia/src/context_delta.rs", "zia/src/snap_shot.rs", "zia/src/context_search.rs: find_examples"]}
{"id": "C43", "title": "A command executed through a reduction behaves like the command itself", "statement": "If x reduces to a `let` command, evaluating x has the effect of that command.", "quantifier": "every context state, every let command", "why_tests_cant": "All states and commands.", "anchors": ["zia/src/context.rs: try_reducing_then_call, call_pair"]}
{"id": "C44", "title": "Failed commands leave existing meaning unchanged", "statement": "A command answered with an error message leaves the reduction, composition, text and label of every existing concept unchanged.", "quantifier": "every command, every context state", "why_tests_cant": "All error paths in all states.", "anchors": ["zia/src/context.rs: execute_without_closing_scope"]}
{"id": "C45", "title": "The web history alternates commands and results", "statement": "On the interactive page every submitted command appends exactly the command and then its evaluation to the shown history and clears the input; earlier entries change only when the page is started afresh, and the history always shows the answers that a new context gives to the shown commands.", "quantifier": "every sequence of UI events", "why_tests_cant": "All event sequences.", "anchors": ["zia-lang.org/crate/src/page/home/mod.rs: update"]}
{"id": "C46", "title": "The tutorial never runs off its end", "statement": "While a tutorial is active the current step is always one of its steps, so the page can be drawn after every sequence of UI events.", "quantifier": "every sequence of UI events, every tutorial", "why_tests_cant": "All event sequences.", "anchors": ["zia-lang.org/crate/src/page/home/mod.rs", "zia-lang.org/crate/src/page/home/tutorials.rs"]}
{"id": "C47", "title": "Starting an empty session starts from nothing", "statement": "After choosing to start an empty session the context is a new one, the history and the input are empty, the menu is closed and no tutorial is active.", "quantifier": "every state of the page", "why_tests_cant": "All states of the page.", "anchors": ["zia-lang.org/crate/src/page/home/mod.rs: reset, update"]}
{"id": "C48", "title": "Existence is claimed only with a witness", "statement": "The question whether something exists such that an expression holds is answered true only if some known name, put for the variable, makes the expression true.", "quantifier": "every context state, every existence question", "why_tests_cant": "All states and questions.", "anchors": ["zia/src/context_search.rs: find_examples, reduce_pair", "zia/src/context_search.rs: check_example"]}
{"id": "C49", "title": "Reading a command keeps its symbols", "statement": "The symbols of the tree read from a text are symbols of the text, in the same order, none repeated or invented; all of them are there unless an expression made of them was found to be left-associative, and the variables among them are exactly those that begin and end with an underscore. Reading records nothing but new names and variables.", "quantifier": "every text, every context state, every hash order", "why_tests_cant": "All texts and contexts.", "anchors": ["zia/src/context.rs: ast_from_expression, ast_from_nested_syntax, ast_from_syntax_list", "zia/src/associativity.rs"]}
{"id": "C50", "title": "Symbols that bind weakest split an expression", "statement": "If the precedences between the symbols of a list amount to a ranking and none of them is found left-associative, the list is cut before each symbol of the lowest rank, the pieces are grouped in the same way and the results are grouped to the right; the ranking determines the grouping.", "quantifier": "every list of tokens, every ranking, every context state, every hash order", "why_tests_cant": "All lists and rankings.", "anchors": ["zia/src/context.rs: lowest_precedence_info, ast_from_syntax_list", "zia/src/associativity.rs: try_fold_handler"]}
{"id": "C51", "title": "Chains of an operator group to the right", "statement": "If a symbol p binds weakest and is right-associative, a p b p c is read as a p (b p c).", "quantifier": "every context state, every such symbol", "why_tests_cant": "All contexts and symbols.", "anchors": ["zia/src/context.rs: ast_from_syntax_list", "zia/src/associativity.rs: try_fold_handler"]}
{"id": "C52", "title": "The last word about a concept counts", "statement": "After any sequence of questions, declared reductions, removals of reductions and definitions, in which no composition is replaced and no name contains a space, a concept reduces to what the last accepted command about it said, is composed of what the last accepted definition of it said, and everything no command was about is as it was. So declarations last, forgetting undoes them, and commands about different concepts can be given in any order and repeated.", "quantifier": "every sequence of commands of any length, every context state, every hash order", "why_tests_cant": "All sequences of commands, compared after reordering.", "anchors": ["zia/src/context.rs: execute_reduction, define", "zia/src/context_updater.rs"]}
{"id": "C53", "title": "A declaration about an expression concerns that expression", "statement": "An accepted let a -> b, for any expressions a and b, makes the concept composed as a says reduce to the concept composed as b says, finding existing compositions and creating missing ones, and no other concept reduces differently.", "quantifier": "every pair of expressions, every context state, every hash order", "why_tests_cant": "All expressions and contexts.", "anchors": ["zia/src/context.rs: execute_reduction", "zia/src/context_updater.rs: concept_from_ast, find_or_insert_composition, update_reduction"]}
{"id": "C54", "title": "The shell answers every line once and in order", "statement": "The interactive shell prints one answer for each line typed, in order, each computed in the context the lines before it left; when the input ends or it is interrupted it prints a farewell and reads nothing more; it stops otherwise only where a command crashes, after answering all lines before.", "quantifier": "every sequence of lines, ends of input and signals, every context state, every hash order", "why_tests_cant": "All sequences of input.", "anchors": ["izia/src/main.rs: main"]}
{"id": "C55", "title": "Mistyped lines and spacing do not disturb a session", "statement": "Leaving out badly bracketed lines of a session and changing white space in the others leaves the answers to the other lines and the final context as they were.", "quantifier": "every session of any length, every context state, every hash order", "why_tests_cant": "All sessions and all ways to space them.", "anchors": ["zia/src/lexer.rs", "zia/src/nester.rs", "zia/src/context.rs: execute", "izia/src/main.rs: main"]}
{"id": "C56", "title": "Asking for a name gives the name", "statement": "A command `label_of x` is answered, in quotes, with the label of what x stands for or, if nothing is recorded as its label, with the name of what it reduces to, and with the text of x if there is none; nothing about any existing concept changes.", "quantifier": "every history in which no composition is replaced or removed, every x that has a concept, every hash order, both builds", "why_tests_cant": "The repository tests a few labels; the property ranges over all histories and chains of reductions of any length.", "anchors": ["zia/src/context.rs: call_pair", "zia/src/context_snap_shot/mod.rs: get_label"]}
{"id": "C57", "title": "An implication is used only when it holds and its condition is true", "statement": "Evaluation concludes that a concept reduces to something because of an implication only if the implication is known to be true and its condition evaluates to true.", "quantifier": "every history, every concept and expression evaluated, every state of the caches that evaluation can reach, every hash order, both builds", "why_tests_cant": "The repository tests a few implications; the property ranges over all stores, rules and caches.", "anchors": ["zia/src/context_search.rs:101-145 (infer_reduction)", "zia/src/context_search.rs:456-570 (find_examples_of_inferred_reduction)"]}
{"id": "C58", "title": "Symbols are answered with the end of their chain of reductions", "statement": "Asked right after a change, symbols that no implication can say anything about are answered, one after the other, each with the name of what its chain of declared reductions ends in; asking changes nothing in the store, and earlier questions do not change later answers.", "quantifier": "every history in which no composition is replaced, every sequence of such questions, chains of any length, every hash order, both builds", "why_tests_cant": "The repository tests short chains in fixed contexts; the property ranges over all stores, chains, hash orders and sequences of questions with the caches they leave.", "anchors": ["zia/src/context.rs: execute, call", "zia/src/context_search.rs: reduce, recursively_reduce, infer_reduction", "zia/src/context_cache/macro.rs"]}
{"id": "C59", "title": "Declarations relate what their words name", "statement": "After a successful command nested as `let (w1 (-> w2))`, where w1 and w2 are unknown words or words for concepts that are not composed (w1 for one that reduces to nothing), both words are names, and the concept named by w1 reduces to the one named by w2. Words that were names before still lead to a concept they led to, and no other reduction changes.", "quantifier": "every history of a debug build, every such command, all words, every hash order", "why_tests_cant": "The repository tests a handful of words; the property ranges over all stores, words, caches left by earlier commands and hash orders.", "anchors": ["zia/src/context.rs: ast_from_expression, ast_from_syntax_leaf, execute_reduction", "zia/src/context_updater.rs: new_labelled_concept, update_reduction", "zia/src/context_search.rs: expand, to_ast"]}
{"id": "C60", "title": "The words of a question are names afterwards", "statement": "After a command that is answered with neither an error nor the empty text, every word of the command leads to the concept it was taken for when the command was read, whether that existed before or was made for the word.", "quantifier": "every history of a debug build, every command with such an answer, every hash order", "why_tests_cant": "New words are numbered provisionally and renumbered when the change is committed; tests look at a few words, the property ranges over all commands and stores.", "anchors": ["zia/src/context.rs: ast_from_syntax_leaf, commit", "zia/src/context_updater.rs: new_labelled_concept", "zia/src/context_snap_shot/mod.rs: apply"]}
{"id": "C61", "title": "Wandering about the site does not disturb the session", "statement": "The home page is shown exactly at the addresses without a path, every other address shows the page for addresses not found, and the title follows. Going to other addresses and back changes nothing of the session: a visit to the site has the outcome of the visit to the interactive page with the actions done while that page was shown, plus the clicks on the logo, which leads home and turns the menu over.", "quantifier": "every sequence of addresses and actions, every context state, every order in which the browser sends the messages of a click on the logo, every hash order", "why_tests_cant": "The repository has no tests of the site beyond an empty one; the property ranges over all visits.", "anchors": ["zia-lang.org/crate/src/lib.rs: Page::from, init, update, view", "zia-lang.org/crate/src/page/partial/header.rs: view", "zia-lang.org/crate/src/page/not_found.rs: view"]}
{"id": "C62", "title": "Bracketed commands are read as they are written", "statement": "A command in which every pair within another is bracketed, with single spaces between the halves, is read as the tree with exactly those words for leaves and those pairs for branches, whatever the store and caches hold: precedence and associativity play no part. If moreover no concept is composed of what two adjacent paired words stand for, and each word is unknown or the label of an undivided concept that is not a variable, the tree that is evaluated has for each word the concept it names, or a new one, and takes no pair for a concept.", "quantifier": "every command, every context (first part; both builds); every history without replaced compositions, every hash order (second part; debug builds)", "why_tests_cant": "The repository tests some bracketed commands in fixed contexts; the property ranges over all bracketings, words, stores and caches.", "anchors": ["zia/src/lexer.rs", "zia/src/context.rs: ast_from_expression, ast_from_syntax_list, ast_from_nested_syntax, ast_from_pair", "zia/src/context_search.rs: combine, expand"]}
{"id": "C63", "title": "A new interpreter keeps notes faithfully", "statement": "In a session whose lines are declarations `let (w (-> v))` and withdrawals `forget w`, answered with nothing, and questions consisting of one word, in any order, every question is answered with the word at the end of the chain of what was declared so far and not withdrawn. In between it may be asked whether one word reduces to another (see C65) and sequences of words may be evaluated (see C66). For each word at most one thing is declared at a time; the words are words of the language, `and`, or any others that are not written like variables; withdrawals and questions are about words of the language or words written before. Declarations that were accepted never form a chain without end. Afterwards exactly the reductions declared and not withdrawn are stored.", "quantifier": "every such session with a new interpreter of a debug build and with any context in the state of a notebook, of any length, all words, every hash order and fuel", "why_tests_cant": "The repository tests single declarations; the property ranges over all sessions, where declarations, withdrawals, questions and the caches they leave come in any order.", "anchors": ["zia/src/context.rs: execute, ast_from_expression, execute_reduction, call, commit", "zia/src/context_updater.rs: new_labelled_concept, update_reduction, delete_reduction", "zia/src/context_search.rs: expand, reduce, recursively_reduce, infer_reduction", "zia/src/context_cache/macro.rs"]}
{"id": "C64", "title": "The slides are printed after the documented commands", "statement": "The program that prints the slides gives a new interpreter exactly the commands of the first call of execute on each line of the first example in the documentation of the library, in their order, and prints the slides exactly if the interpreter takes them all without a panic. A source without an example is refused with a panic.", "quantifier": "every source text with an example, of any number of lines and blocks, every text before and after it, every slides, hash order and fuel", "why_tests_cant": "The program has no tests and is run on one text; the property ranges over all texts that the documentation could become.", "anchors": ["presentations/src/main.rs: main", "zia/src/lib.rs: documentation"]}
{"id": "C65", "title": "Whether one word reduces to another is answered from what was declared", "statement": "In a session of declarations, withdrawals and questions as in C63, the question `w (-> v)` is answered `true` exactly if w becomes v by one or more of the replacements declared so far and not withdrawn, and `false` otherwise.", "quantifier": "every such session with a new interpreter of a debug build, of any length, all words, every hash order and fuel", "why_tests_cant": "The repository tests such questions after one or two declarations; the property ranges over all sessions and over the memory that earlier questions leave.", "anchors": ["zia/src/context_search.rs: reduce, reduce_pair", "zia/src/reduction_reason.rs: determine_evidence_of_reduction, determine_reduction_truth", "zia/src/context.rs: execute, reduce_and_call_pair, call"]}
{"id": "C66", "title": "Sequences of words are evaluated word by word", "statement": "In a session of declarations, withdrawals, questions and such sequences, a sequence of two or more words grouped to the right, `u (v (\u2026 w))`, is answered with the sequence of the words at the ends of their chains, with single spaces and no brackets, and changes nothing. The words were written before, and neither they nor the words of their chains are words of the language other than `assoc`.", "quantifier": "every such session with a new interpreter of a debug build and any context in the state of a notebook, sequences of any length, all such words, every hash order and fuel", "why_tests_cant": "The repository tests expressions of two or three words in fixed contexts; the property ranges over all sequences, sessions and the memory that earlier lines leave, and rules out that an implication, an associativity rule or a remembered answer interferes.", "anchors": ["zia/src/context_search.rs: reduce, reduce_pair, recursively_reduce, infer_reduction, display_joint, get_associativity", "zia/src/associativity.rs", "zia/src/context.rs: execute, reduce_and_call_pair, call"]}
{"id": "C67", "title": "Expressions made of words keep their brackets", "statement": "In a session of declarations, withdrawals, questions and expressions made of words with any brackets, such an expression is answered with the same expression in which each word is replaced by the one at the end of its chain: expressions that are grouped differently get different answers, and what was asked before plays no part. The words are as in C66.", "quantifier": "every such session with a new interpreter of a debug build and any context in the state of a notebook, expressions of any size and grouping, all such words, every hash order and fuel", "why_tests_cant": "The repository tests a few groupings of three words; the property ranges over all expressions, sessions and the memory that earlier lines leave.", "anchors": ["zia/src/context_search.rs: reduce, reduce_pair, recursively_reduce, infer_reduction, display_joint, get_associativity", "zia/src/associativity.rs: display_joint_left, display_joint_right", "zia/src/context_cache/macro.rs", "zia/src/context.rs: execute, reduce_and_call_pair, call"]}
{"id": "C68", "title": "Brackets may be left out", "statement": "In sessions of declarations, withdrawals, questions and sequences, a sequence `u v \u2026 w` written without brackets is answered as `u (v (\u2026 w))`, that is with the words at the ends of their chains, and the question `w -> v` as `w (-> v)`. So two sessions that differ only in brackets left out in this way get the same answers to all their lines. The words are as in C65 and C66, and for `w -> v` not words of the language.", "quantifier": "every such session with a new interpreter of a debug build and any context in the state of a notebook, sequences of any length, all such words, every hash order and fuel, which may differ between the two sessions", "why_tests_cant": "The repository tests precedence and grouping on a few commands in fixed contexts; the property ranges over all sequences, sessions and what earlier lines leave in the store and in memory, on which the search for precedences and associativities depends.", "anchors": ["zia/src/context.rs: lowest_precedence_info, ast_from_syntax_list, ast_from_expression, execute", "zia/src/associativity.rs: slice_tokens", "zia/src/context_search.rs: get_associativity, reduce_pair"]}
{"id": "C69", "title": "A word in each group is enough to leave brackets out", "statement": "In a session of declarations, withdrawals, questions and expressions made of words, an expression whose groups have any number of parts, words and bracketed groups mixed, is answered with the words at the ends of the chains of its words, in their order and with some brackets, if each group of three parts or more has a word among its parts. If one of them has none then the expression is refused because of its ambiguity, whatever was declared or asked before. Nothing is changed in either case. The words are as in C66.", "quantifier": "every such session with a new interpreter of a debug build and any context in the state of a notebook, expressions of any size and grouping, all such words, every hash order and fuel", "why_tests_cant": "The repository tests precedence and grouping on a few commands in fixed contexts; the property ranges over all ways to leave brackets out, all sessions and what earlier lines leave in the store and in memory.", "anchors": ["zia/src/context.rs: lowest_precedence_info, ast_from_syntax_list, ast_from_nested_syntax, ast_from_expression, execute", "zia/src/associativity.rs: slice_tokens", "zia/src/lexer.rs", "zia/src/context_search.rs: get_associativity, reduce_pair"]}
{"id": "C70", "title": "Declarations are refused for two reasons only", "statement": "In a session of declarations, withdrawals, questions and expressions made of words, the declaration `let (w (-> v))` about words written before is accepted exactly if w does not reduce to anything yet and the chain of v does not end with w. Otherwise the answer says what w reduces to already, that a chain of reductions would loop, or, if w and v are the same, that the reduction exists already. So is `forget w` if nothing was declared of w. Nothing is changed by what is refused: the session without these lines gets the same answers to its other lines. If w was declared to reduce to something then both `forget w` and `let (w (-> w))` are answered with nothing, and w does not reduce to anything any more; saying the one or the other makes no difference to later answers. The word w is as in C66.", "quantifier": "every such session with a new interpreter of a debug build and any context in the state of a notebook, chains of any length, all such words, every hash order and fuel", "why_tests_cant": "The repository tests one refusal of each kind in a fixed context; the property ranges over all sessions, chains and what earlier lines leave in the store and in memory, says that there is no other reason for a refusal, and that refusals leave nothing behind.", "anchors": ["zia/src/context.rs: execute, execute_reduction, call_pair", "zia/src/context_updater.rs: update_reduction, delete_reduction", "zia/src/errors.rs", "zia/src/context_search.rs: expand, get_associativity"]}
{"id": "C71", "title": "Words keep their names whatever they are declared to mean", "statement": "In a session of declarations, withdrawals, questions and expressions made of words, `label_of w` about a word written before is answered with the word w in quotation marks, also if w was declared to reduce to another word, and also if w is a word of the language. So different words have different names even if they come to mean the same. Nothing is changed by asking: the session without these lines gets the same answers to its other lines.", "quantifier": "every such session with a new interpreter of a debug build and any context in the state of a notebook, chains of any length, all such words, every hash order and fuel", "why_tests_cant": "The repository tests the name of one word in a fixed context; the property ranges over all sessions, chains of reductions and what earlier lines leave in the store and in memory, in each of which the name could be looked up for what the word reduces to instead.", "anchors": ["zia/src/context.rs: execute, call, call_pair", "zia/src/snap_shot.rs: get_label, get_concept_of_label", "zia/src/context_snap_shot/mod.rs: get_label", "zia/src/context_search.rs: expand"]}
{"id": "C72", "title": "Only what is declared counts, not how it came about", "statement": "Two sessions of declarations, withdrawals, questions and sequences of words after which the same declarations stand get the same answers to the same further lines, whatever else was declared and withdrawn, asked or refused before. In particular declarations can be made in any order, and questions, sequences and refused lines can be left out, some or all of them, without any effect on the other answers.", "quantifier": "every two such sessions with new interpreters of debug builds and all further lines of the same kinds, all such words, every hash order and fuel, which may differ between the two sessions", "why_tests_cant": "A test compares two fixed sessions; the property ranges over all pairs of sessions, whose stores have different identifiers and whose memories hold different things when the further lines come.", "anchors": ["zia/src/context.rs: execute, execute_reduction, call_pair", "zia/src/context_updater.rs: update_reduction, delete_reduction", "zia/src/context_cache/macro.rs", "zia/src/context_search.rs: reduce, recursively_reduce"]}
{"id": "C73", "title": "It does not matter which words are used", "statement": "If other words are written for the words in a session of declarations, withdrawals, questions, expressions and refused lines, different ones for different ones and words of the language only for themselves, then the answers are the same with those words written for the former, brackets of expressions apart. So of these words nothing counts but which of them are the same.", "quantifier": "every such session with a new interpreter of a debug build, every such renaming, every hash order and fuel, which may differ between the two sessions", "why_tests_cant": "A test compares two fixed sessions; words are hashed, and sets of candidates are ordered by hashes, so that any pair of words could be treated in its own way. The property ranges over all words and sessions.", "anchors": ["zia/src/context.rs: execute", "zia/src/snap_shot.rs: get_label, ast_from_symbol", "zia/src/context_snap_shot/mod.rs: concept_from_label, get_labellee", "zia/src/context_search.rs: reduce, display_joint"]}
{"id": "C74", "title": "Conversations about different words do not interfere", "statement": "If each line of a session of declarations, withdrawals, questions, sequences and refused lines is about words of one kind only or about words of the other kind only, then the lines about the first kind are answered as in the session of just these lines, in whatever way the others are mixed in. So nothing that is declared, asked or refused of some words has an effect on what is said of words that are not connected with them.", "quantifier": "every such session with a new interpreter of a debug build, every division of the words in two kinds, every mixture of the lines, every hash order and fuel, which may differ between the two sessions", "why_tests_cant": "A test compares two fixed sessions; all lines share one store, one list of identifiers, one cache and the searches through concepts that hash sets give in any order, so each line could have an effect on each other. The property ranges over all mixtures of all sessions.", "anchors": ["zia/src/context.rs: execute, execute_reduction, call_pair", "zia/src/context_updater.rs: update_reduction, delete_reduction", "zia/src/context_cache/macro.rs", "zia/src/context_search.rs: reduce, recursively_reduce, infer_reduction"]}
{"id": "C75", "title": "The same question in other words has the same answer", "statement": "If the same declarations stand in two sessions of declarations, withdrawals, questions and sequences of words, and in the one a word, a sequence of words or whether one word reduces to another with a different end is asked, and in the other the same with words whose chains end alike, such as what the words were declared to reduce to, and with or without brackets, then the answers are the same. For expressions with any brackets the answers are the same apart from brackets.", "quantifier": "every two such sessions with new interpreters of debug builds, all such words and replacements, sequences and expressions of any length, every hash order and fuel, which may differ between the two sessions", "why_tests_cant": "A test asks a few questions in two ways; the property ranges over all replacements of words by others that mean the same and over all sessions before, which leave different things in the store and in memory.", "anchors": ["zia/src/context.rs: execute, reduce_and_call_pair", "zia/src/context_search.rs: reduce, recursively_reduce, reduce_pair", "zia/src/context_cache/macro.rs"]}
{"id": "C76", "title": "Answers are answered with themselves", "statement": "If a word, a sequence of words or whether one word reduces to another with a different end is asked in a session of declarations, withdrawals, questions and sequences of words, and the text of the answer is itself typed in as a command, in this session or in another one in which the same declarations stand and no words are missing, then it is answered with itself. So answers cannot be simplified further.", "quantifier": "every two such sessions with new interpreters of debug builds, all such words, sequences of any length, chains of any length, every hash order and fuel, which may differ between the two sessions", "why_tests_cant": "A test types a few answers in again; the answer is parsed, grouped and evaluated anew as a text, in a store and with a memory that the session made, and the property ranges over all of these.", "anchors": ["zia/src/context.rs: execute, call, ast_from_expression", "zia/src/context_search.rs: reduce, recursively_reduce, display_joint", "zia/src/lexer.rs"]}
{"id": "C77", "title": "Reductions never lead back to the concept", "statement": "Starting from a concept, going on with what it reduces to or with a part of its composition, and so on, never leads back to the concept: no concept reduces to an expression containing itself, neither directly nor through the reductions of the parts.", "quantifier": "every context that arises from a new one by commands", "why_tests_cant": "The tests try the direct case, which is refused (zia/src/lib.rs:79). The property is about all combinations of declarations, each of which is checked on its own.", "anchors": ["zia/src/context.rs: execute_reduction", "zia/src/errors.rs: ExpandingReduction", "zia/src/ast/macro.rs: contains"]}
{"id": "C78", "title": "Refused declarations have no effect on later answers", "statement": "If a declaration or the withdrawal of one is answered with the reason why it is refused, then all later lines are answered as they would have been without it.", "quantifier": "every session of commands, every refused line in it and every further line", "why_tests_cant": "Tests check the message of refused lines; that nothing they computed on the way is still in memory or in the store can only be noticed by comparing all later answers with those of another session.", "anchors": ["zia/src/context.rs: execute, execute_reduction", "zia/src/context_cache/macro.rs", "zia/src/context_search.rs: reduce"]}
{"id": "C79", "title": "What was declared is confirmed", "statement": "If `let x -> y` was accepted and not withdrawn since, then whether x reduces to y is answered `true`.", "quantifier": "every session of commands, all expressions x and y, whatever is declared, asked, evaluated and refused in between", "why_tests_cant": "A test asks about a few declarations right after they were made; the answer depends on everything else that was declared, on names for the expressions and on what is remembered.", "anchors": ["zia/src/context.rs: execute_reduction, reduce_and_call_pair", "zia/src/context_search.rs: reduce, contract_pair"]}
{"id": "C80", "title": "What follows from something true is true", "statement": "If an implication from x to y is known and x is answered `true`, then y is answered `true`.", "quantifier": "every context that commands can produce, every number of implications in a row, every symbol y and all the symbols that imply it", "why_tests_cant": "Tests have one or two implications; the order in which the conditions of a symbol are tried is that of a hash map, conditions are evaluated recursively, and the results are remembered under way.", "anchors": ["zia/src/context_search.rs: infer_reduction, reduce_concept, reduce", "zia/src/context.rs: try_reducing_then_call"]}
{"id": "C81", "title": "The order of questions does not matter", "statement": "Two sessions that begin in the same context and ask only about words for symbols about which nothing follows from what is declared to be true give the same answer to the same word, whatever they asked before it, in whatever order and however often.", "quantifier": "every context that commands can produce without replacing or removing a composition, every two sessions of any length, every two hash orders, every two bounds on the work, both build modes", "why_tests_cant": "Tests ask their questions in one order; each question fills the remembered reductions, trees and inferences that all later ones consult.", "anchors": ["zia/src/context_search.rs: reduce, recursively_reduce, infer_reduction", "zia/src/context_cache/macro.rs", "zia/src/context.rs: execute"]}
