# Design: a Rocq model of the Zia interpreter

The code is read as text only.  The tie between the model and the code is the citation on each
definition.  The plan of section 2 was written before the proofs; sections 1 and 3-7 are kept up to
date as the model grows.

## 1. Architecture

| file (rocq/theories) | contents |
|---|---|
| `Base.v` | Common vocabulary of the model: outcomes, finite maps, decimal printing |
| `Text.v` | Characters and texts |
| `Ids.v` | Identifiers, built-in concept types, and the configuration every run has |
| `Lexer.v` | zia/src/lexer.rs and [Context::lex] |
| `LexerSpec.v` | What tokenising means, said without reference to how the lexer works |
| `LexerFacts.v` | Proofs about the lexer |
| `MapFacts.v` | Lemmas about the association lists and sets of Base.v |
| `Nester.v` | zia/src/nester.rs and [Context::nest] |
| `NesterSpec.v` | What bracket structure means, said without reference to how [nest] works |
| `NesterFacts.v` | Proofs about bracket nesting |
| `PropertiesLex.v` | C01-C05, C07 (first half), C08: property theorems about lexing and bracketing |
| `Ast.v` | Syntax trees (zia/src/ast), substitutions, merging and variable masks |
| `AstSpec.v` | Specifications for syntax trees, variable assignments and masks (C30-C34) |
| `AstFacts.v` | Lemmas about syntax trees, variable assignments and masks |
| `PropertiesAst.v` | C30 (matching of expressions against patterns), C31-C34: property theorems about variable assignments, masks, substitution and the variables of an expression |
| `Concepts.v` | Concepts (zia/src/concepts/mod.rs), with identifiers left abstract as in the source ([Concept<Id>] is used with [Committed] and with [ConceptId]) |
| `Delta.v` | Uncommitted changes (zia/src/context_delta.rs) |
| `Snapshot.v` | Committed concepts and the reading of concepts through a delta (zia/src/context_snap_shot/, zia/src/snap_shot.rs) |
| `StoreSpec.v` | Specification of the committed store: what a snapshot says about each concept, and the invariants of C12-C16 and C22. Only the data of a snapshot is mentioned |
| `StoreFacts.v` | What each change does to the committed store, and the invariants it keeps |
| `StoreInv.v` | Invariants of the committed store kept by every change |
| `LayerFacts.v` | Stacked layers of pending changes against one layer with all changes |
| `PropertiesLayers.v` | C40: stacked layers of pending changes behave like one layer with all of them |
| `Reason.v` | Why a reduction holds (zia/src/reduction_reason.rs) |
| `Search.v` | Evaluation (zia/src/context_search.rs) with its caches (zia/src/context_cache/macro.rs) |
| `Updater.v` | The state of a context and the functions changing its delta (zia/src/context_updater.rs) |
| `Parser.v` | From the text of a command to a syntax tree (zia/src/context.rs:265-780) |
| `Context.v` | Running commands (zia/src/context.rs:288-347, 782-1229) |
| `Fuel.v` | The bound on the depth of recursion only decides whether an answer is found: a larger bound gives the same answer |
| `Build.v` | Debug and release builds: a run of the debug build either crashes or does exactly what the release build does |
| `RangeFacts.v` | Every identifier that a command handles was obtained from the store, from the delta or by creating a concept |
| `History.v` | The whole history of a context: what holds of the committed store after any number of commands |
| `Sim.v` | Reading a concept through the pending changes agrees with reading it in the store that results from applying them |
| `SimRead.v` | What is read through the pending changes agrees with the store they produce |
| `Steps.v` | Invariants of the store proved change by change, with the knowledge of what the command had read when it recorded the change |
| `Keep.v` | What every change a command can record keeps |
| `Quiet.v` | Which changes a command records: looking things up records none, reading the text of a command only records new concepts, and evaluation records changes only when its answer is empty or an error |
| `Links.v` | Composition links of the store (C15) |
| `Meaning.v` | Committing preserves meaning (C17): what is read through the pending changes of a command is what is read after the commit |
| `StoreLaws.v` | The laws of the store for all histories, put together from the step lemmas |
| `Pending.v` | Looking up names through the pending changes of a command (C17, inverse labels) |
| `Start.v` | The context that [Context::new] builds, computed once, and a way to write sessions |
| `Sample.v` | Contexts used to illustrate the theorems about the store |
| `PropertiesStore.v` | C12, C13, C15-C17, C22: property theorems about the store, for every history of commands |
| `Witness.v` | Sessions of commands that refute a property, run once in the model |
| `PropertiesRefuted.v` | Properties that do not hold of the program |
| `Clones.v` | Clones of a context share its cache (zia/src/context.rs:86-112) |
| `PropertiesCache.v` | Answers and the cache: one question spoils another (C36, C39) |
| `PropertiesBuild.v` | Debug and release builds |
| `PropertiesExists.v` | Existence questions |
| `PropertiesOrder.v` | Iteration order of hash collections |
| `CommandSpec.v` | Commands as texts: which are well bracketed and when two say the same, said with the tokenisation of LexerSpec.v only |
| `CommandFacts.v` | From the text of a command to its bracketed structure: what the later stages see |
| `CommandRun.v` | Running a command depends on its text only through its significant tokens; a badly bracketed command changes nothing |
| `NameSpec.v` | Names of concepts, in terms of what the committed store says (StoreSpec.v) |
| `Names.v` | Looking up names in the committed store |
| `NameWitness.v` | Sessions that confuse the names of concepts |
| `PropertiesCommand.v` | C04, C06, C07: from the text of a command to the context |
| `FrameSpec.v` | What it means that a command leaves a concept alone, in terms of what the committed store says (StoreSpec.v, NameSpec.v) |
| `Frames.v` | What the changes recorded by a command leave alone |
| `PropertiesFrames.v` | What commands leave alone |
| `SearchPlain.v` | Searches fail only in ways that end the command |
| `Reductions.v` | Declaring and forgetting reductions |
| `Declare.v` | The commands `let x -> y`, `let x -> x` and `forget x`, from their text to the store |
| `PropertiesReductions.v` | Declaring and forgetting reductions: C19, C20 and a part of C44 |
| `Define.v` | The command `let n := l r`, from its text to the store |
| `PropertiesDefine.v` | Definitions `let n := l r`: the first half of C41, and a part of C44 |
| `PropertiesOrderless.v` | C37: what does not depend on the iteration order of hash collections |
| `Acyclic.v` | Reductions given only to concepts that have none (C14, C21) |
| `PropertiesCycles.v` | C14, C21: what holds of the lists of reductions and of cycles when reductions are declared only for concepts that have none |
| `OneName.v` | A concept has at most one name, and what a symbol denotes bears that symbol |
| `PropertiesNames.v` | C18: names of concepts |
| `NoCrash.v` | Telling the symbols of a command apart never crashes, and terminates when reductions make no cycle |
| `PropertiesNoCrash.v` | C23: commands that do not crash |
| `Diverge.v` | A command that never ends, however large the bound on the recursion |
| `PropertiesRun.v` | Termination of commands |
| `Replay.v` | The model run on the repository's own tests (zia/tests/*.rs and the documentation example of zia/src/lib.rs): every expected answer of the test suite that goes through [execute] comes out of the model |
| `SearchReplay.v` | The model run on the repository's unit tests of evaluation and of the lexer (zia/src/context_search_test/*.rs, zia/src/context_test/*.rs, zia/tests/lexer.rs), as in Replay.v: checks of the model against the expectations written in the source, not theorems |
| `Tutorials.v` | The tutorials of the interactive page (zia-lang.org/crate/src/page/home/tutorials.rs), copied as data |
| `WebUi.v` | The interactive page (zia-lang.org/crate/src/page/home) |
| `WebFacts.v` | What the interactive page shows, described without the page_update function, and proofs |
| `PropertiesWeb.v` | The interactive page: its history (C45), its tutorials (C46) and its fresh start (C47) |
| `Site.v` | The web site around the interactive page: its addresses and its two pages (zia-lang.org/crate/src/lib.rs, page/not_found.rs, page/partial/header.rs) |
| `SiteFacts.v` | Lemmas about the web site: visiting it is visiting the interactive page |
| `PropertiesSite.v` | The web site: addresses, titles and the interactive page behind them (C61) |
| `TutorialReplay.v` | The tests of the tutorials (zia-lang.org/crate/src/page/home/tutorials.rs:280-331), replayed in the model |
| `Variables.v` | Variables of commands |
| `PropertiesVariables.v` | C35: the variables of commands |
| `Questions.v` | What the evaluator answers to the questions [x -> y] and [x > y] |
| `Chains.v` | Normal forms: what evaluation ends with |
| `PropertiesQuestions.v` | The questions [x -> y] and [x > y]: C27, C28, C29 and a part of C16 |
| `SearchKeeps.v` | The memory of inferences holds inferences only |
| `Rules.v` | When a stored rule is used on an expression (C30): matching against patterns in the store |
| `PropertiesRules.v` | C30: rules apply only to instances of their pattern, as evaluation uses them |
| `Grouping.v` | Lists of tokens without precedence or associativity |
| `PropertiesGrouping.v` | How lists of symbols are grouped: C09 |
| `Displays.v` | What is displayed for a tree read from words that no precedence mentions, and what typing the display in again is read as |
| `PropertiesDisplays.v` | C11: displays that are read back as they were |
| `PropertiesStart.v` | Starting the program (C38) |
| `SearchCaches.v` | What a search does to the caches: a way to prove that every search keeps a property of the states of the search, given that every single change of a cache keeps it |
| `Repeat.v` | Evaluating the same tree again: the answer that was remembered is given again |
| `Earned.v` | Where the contents of the caches come from |
| `CacheRun.v` | What a command does to the caches: properties of contexts that hold throughout a command, given that every single search and every single change keeps them |
| `CacheLife.v` | The life of the entries of a context's cache |
| `Uses.v` | Where the remembered uses of rules come from (C30) |
| `PropertiesUses.v` | C30: rules apply only to instances of their pattern, also in the answers that are remembered |
| `Moments.v` | Where the contents of the caches come from, after any history |
| `PropertiesMoments.v` | C36: nothing that is remembered is older than the last change |
| `PropertiesRepeat.v` | C26, C36, C39: the answers that are remembered |
| `Keeping.v` | What becomes of the symbols of a command when it is parsed |
| `Cutting.v` | Lists whose weakest symbols are left-associative |
| `PropertiesKeeping.v` | C49: parsing keeps the symbols of a command in order |
| `Precedence.v` | How lists are grouped when the recorded precedences rank the symbols |
| `PropertiesPrecedence.v` | How the recorded precedences group lists of symbols: C50 and C51 |
| `Expressions.v` | Which concept an expression in a declaration stands for |
| `Sequences.v` | What a sequence of declarations, removals, definitions and questions amounts to |
| `PropertiesSequences.v` | Sequences of commands: C52 and C53 |
| `Shell.v` | The interactive shell (izia/src/main.rs) |
| `PropertiesShell.v` | The interactive shell: C54 and C55 |
| `PropertiesTies.v` | C17: names that two concepts share |
| `Indirect.v` | Commands that are reached by evaluating something else: they record no change |
| `PropertiesIndirect.v` | C43 and C25: commands that are reached by evaluating a symbol |
| `Existence.v` | When the evaluator says that something exists (C48) |
| `PropertiesExistence.v` | C48: what the evaluator goes by when it says that something exists |
| `Asking.v` | Commands that ask for a name: `label_of x` (C56) |
| `PropertiesAsking.v` | C56: what is answered when the name of something is asked for |
| `Wide.v` | Reading the committed store through the layers of a running search |
| `Matches.v` | Which examples of a pattern the evaluator finds, and what stands for the variables in them |
| `Implications.v` | When an implication is used (C57) |
| `PropertiesImplications.v` | C57: when an implication is used |
| `Shapes.v` | What the trees made for concepts look like while a symbol is evaluated |
| `Unruled.v` | When no implication can say anything about a symbol |
| `Answers.v` | The evaluation of a symbol about which there are only declared reductions |
| `Clean.v` | Looking things up never ends in an error that would be reported to the user: a search gives a result, panics or runs out of fuel |
| `Replies.v` | What a symbol is answered with |
| `PropertiesAnswers.v` | C58: what a symbol is answered with |
| `Naming.v` | The words of a command: what they lead to while it runs and when it is committed |
| `Words.v` | The words of a command as it is read: each is found under the concept of its leaf |
| `Said.v` | The words of a command are names afterwards |
| `OwnTrees.v` | The trees that are remembered for concepts without parts stand for these concepts |
| `Follow.v` | Expanding what was read: words that stand for concepts without parts stay what they are |
| `Settled.v` | What a new word stands for: a concept that has neither parts nor a reduction |
| `Spoken.v` | Commands of words alone: what is declared and defined between the words |
| `WideNames.v` | The name of a concept, read through the layers of a search that starts with pending changes |
| `OwnKinds.v` | The trees that are remembered for named concepts without parts are no variables unless they are named so |
| `Spelled.v` | Commands in which every pair is bracketed: how they are written and read |
| `Uttered.v` | What is bracketed is read as it is said: commands of words in bracketed pairs that no concepts are composed of |
| `PropertiesWords.v` | C59, C60: the words of a command, and what they name when it is done |
| `PropertiesUttered.v` | C62: commands in which every pair is bracketed are read as they are written |
| `Added.v` | What the words of a command add to the store |
| `Told.v` | What a written declaration does to the store, in full |
| `Forgot.v` | What `forget` does to the store, in full |
| `Keyed.v` | The tables of the compositions a concept takes part in have one entry for each other concept |
| `Flat.v` | Sequences of words written without brackets: how they are read |
| `Outlines.v` | Expressions in which some brackets are left out: how they are written and read |
| `Checks.v` | Whether one symbol reduces to another: what is answered |
| `Phrases.v` | Sequences of words: what is answered |
| `Groups.v` | Expressions made of words with any brackets: which words are answered |
| `Objections.v` | What declarations about known words are answered with: which are accepted, which are refused and why |
| `Notebook.v` | A store kept as a notebook: symbols that were said to reduce to one another, and nothing that could be inferred about them |
| `Notes.v` | Sessions of declarations, forgetting and questions |
| `PropertiesNotebook.v` | C63: sessions of declarations, forgetting them and questions about them |
| `PropertiesChecks.v` | C65: whether one word reduces to another, in sessions of declarations |
| `PropertiesPhrases.v` | C66: sequences of words, in sessions of declarations |
| `PropertiesGroups.v` | C67: expressions made of words with any brackets, in sessions of declarations |
| `PropertiesFlat.v` | C68: sequences and questions written without brackets, in sessions of declarations |
| `PropertiesOutlines.v` | C69: expressions in which some brackets are left out, in sessions of declarations |
| `PropertiesObjections.v` | C70: which declarations are refused in sessions of declarations, why, and that nothing is changed by them |
| `PropertiesLabels.v` | C71: names are kept in sessions of declarations, whatever the words are declared to reduce to |
| `PropertiesPast.v` | C72: what counts in sessions of declarations is what is declared, not how this came about |
| `PropertiesRenaming.v` | C73: in sessions of declarations it does not matter which words are used |
| `PropertiesApart.v` | C74: conversations about different words do not interfere |
| `PropertiesSynonyms.v` | C75: words that end alike are interchangeable in questions |
| `PropertiesEffects.v` | C77, C78 and C79: what declarations lead to, and what refused declarations leave behind; more commands that crash (C23) |
| `Slides.v` | The program that prints the slides of a talk (presentations/src/main.rs) |
| `PropertiesSlides.v` | C64: the slides are printed after the commands of the documentation example |
| `Circular.v` | Concepts that imply one another: evaluating one of them is never finished (zia/src/context_search.rs:101-197: `reduce` asks `infer_reduction`, which reduces each condition in the same environment) |
| `PropertiesCircular.v` | C24: concepts that imply one another are never answered |
| `Concluded.v` | Concepts that follow from something declared to be true (zia/src/context_search.rs:101-197) |
| `PropertiesConcluded.v` | C80: what follows from something true is true |
| `Undecided.v` | Concepts that would follow from something that is not declared to be true: they are evaluated as if there were no implication (zia/src/context_search.rs:101-197) |
| `PropertiesUndecided.v` | C58, C80 and C24: what a symbol is answered with, next to implications |
| `PropertiesUnordered.v` | C81: the order of questions does not matter; C75 and C76: other words and answers as questions, next to implications |

Conventions: `*Spec.v` are small specifications that do not mention the model's helpers; where a
specification is only needed by one file it opens that file under the heading "Specification".
`Properties*.v` hold the property theorems, each with `Print Assumptions` and with an `Example` or
lemma beside it that meets its hypotheses.

Choices made once and used everywhere:

* **Panics** (`panic!`, `unwrap` on `None`/`Err`, `todo!`, `unimplemented!`, slice index out of range,
  failed `assert!`/`debug_assert!`) are the outcome `Panic site`.
* **Build mode** is a boolean `dbg cfg`; a `debug_assert!` panics only if it is true.
* **Hash iteration order**: `HashMap`/`HashSet` are association lists and every iteration whose order
  may be observed goes through an arbitrary reordering `ord cfg owner`.  The order may depend on the
  map's owner and on how many iterations were made before (`c_tick`).  Theorems assume only `fair cfg`:
  each reordering is a permutation.
* **`BinaryHeap`**: popping gives the elements in descending order; iterating gives the maximum first
  and then an arbitrary order.
* **Recursion that the code does not bound** uses fuel with the explicit outcome `OutOfFuel`, which no
  theorem treats as a result; `Fuel.v` proves that outcomes do not depend on the bound.
* **Logging macros** are no-ops (the `log` level is off by default).
* **Sharing** (`Rc`/`Arc`) is invisible except that `SharedDelta::get_mut` fails while a search that
  holds the delta is alive: the flag `pinned`; and that clones of a context share one cache (`Clones.v`).
* Single-threaded and multi-threaded contexts instantiate the same generic code with `Rc`/`Arc`; the
  model is of the generic code.
* **Reachable**: `reachable b c` says that `c` arises from `Context::new` by commands, in build mode
  `b`, each command with any fair hash order and any bound for which it is answered.

## 2. Plan per property (written before the proofs)

C01-C04 (lexing): model `lex` as the fold over characters that the code is; induction over the
characters, against a specification of tokens that does not mention the fold.
C05-C08 (bracketing): model `nest` with its depth-indexed map; the specification is a grammar of
bracketed token lists; C06/C07 lift this through `execute`.
C09-C11 (parsing and printing): model `ast_from_syntax_list` with the binary heap of positions and both
associativity branches; C10 and C11 expected false.
C12-C16 (store invariants): model the commit for arbitrary lists of changes, prove the invariants for
each change a command can record, hence for all histories.
C17: refinement between the mixed reader and the commit.
C18-C22, C41: theorems about the updater over states satisfying the store invariants.
C23, C24: expected false; refuted with short histories.
C25, C44: frame theorems over `execute`.  C26, C36: expected false (stale cache).
C27-C30: theorems about the search functions by induction on fuel.
C31-C34: laws of pure data structures.  C35, C38, C39, C42: theorems over `execute`/`new`/`clone`.
C37: every theorem is quantified over the iteration order; independence itself is expected false.
C40: refinement of stacked layers to one layer.  C43: expected false.
C45-C47, C61: state machine of the page and of the site.  C48: expected false.

## 3. Trusted base

* The Coq 8.16.1 kernel, including `vm_compute` (re-checked without it by `coqchk`).
* Faithfulness of the model to the code, by the citation on every definition.  `Replay.v`,
  `SearchReplay.v` and `TutorialReplay.v` run the repository's own tests, documentation example and tutorials in the model and compare
  every answer; these are tests of the model, not proofs about the code.
* No axioms.  `Print Assumptions` answers "Closed under the global context" for each of the 248 theorems
  that is followed by it.  Only the standard library is used.  `coqchk` names seven axioms of the
  standard library's `Coq.ssr.ssrunder` (fields of a module type of that file, which the library loads);
  no theorem here depends on them.

## 4. What is modelled and what is not

Modelled: all of `zia/src` that takes part in executing a command: lexer, nester, syntax trees,
concepts, deltas (with layers), snapshot and mixed reader, updater, search with both caches, reasons,
parser, executor, `new`, `clone`; of `zia-lang.org/crate/src/page/home` the update function, history,
tutorials and the decision what is shown, and the routing of the site around it.
The program that prints the slides of a talk (presentations) is modelled up to the
text of the slides.

Not modelled: logging and `Debug` formatting; allocation failure and stack overflow (deep recursion is
modelled as terminating or as out of fuel); thread interleavings (a `Context` is used through `&mut`);
rendering of the page to HTML, browser events and scrolling; line editing of the terminal front end;
the macros that generate the single- and multi-threaded variants (their common result is modelled);
the exact SipHash order of hash maps (any order is allowed, so refutations name one order that is
possible).

Simplifications are stated in the comment of the definition concerned.  The main ones: `usize` is
unbounded `nat`; `char` is its scalar value; a panicking command ends the session; a `HashMap` is an
association list without duplicate keys; where code visits a map in an order that provably cannot be
observed, no reordering is modelled.

## 5. Status and assumptions per property

Assumptions of every theorem named here: none (closed under the global context).

* **C01** Lexing loses nothing: proved. 
  Theorems: `C01_lexing_loses_nothing`, `C01_lexing_always_answers`.
* **C02** Lexemes are maximal runs: proved. 
  Theorems: `C02_lexemes_are_maximal_runs`, `C02_maximal_runs_are_unique`.
* **C03** Parenthesis positions match: proved. 
  Theorems: `C03_opening_brackets_point_to_their_partner`, `C03_closing_brackets_point_to_their_partner`.
* **C04** Lexeme categories tell the truth: partial. Variables exactly the underscored symbols; reported concepts and built-in types are those found from the text's string through the recorded lists; new means none is found. The full claim fails: after `let (a b) := (c d)` and a renaming, a symbol is reported new although a concept carries it.
  Theorems: `C04_category_is_that_of_the_whole_text`, `C04_categories_tell_what_is_found_partial`, `C04_new_symbol_in_use_refuted`.
* **C05** Bracket errors are exact: proved. 
  Theorems: `C05_accepts_exactly_the_well_bracketed`, `C05_otherwise_a_bracket_error`, `C05_empty_expression_exactly_without_symbols`.
* **C06** Malformed commands change nothing: proved. For every command whose symbols the context can classify; the whole context is unchanged.
  Theorems: `C06_malformed_commands_change_nothing`, `C06_other_commands_pass_the_bracket_check`.
* **C07** Whitespace does not matter: proved. Whole outcome of execute, in any context state.
  Theorems: `C07_white_space_does_not_affect_nesting`, `C07_white_space_does_not_matter`.
* **C08** Bracketing keeps every symbol in order: proved. 
  Theorems: `C08_nesting_keeps_symbols_in_order`, `C08_nesting_follows_the_brackets`, `C08_brackets_can_be_read_in_one_way`.
* **C09** Symbols group to the right by default: partial. Refuted: `(a b) (c d) (e f)` with fresh symbols is answered with an ambiguity error. Proved: any list that no precedence mentions, in which some token has a concept and none is found left-associative, is grouped to the right when it is parsed in a debug build.
  Theorems: `C09_groups_to_the_right_partial`, `C09_bracketed_groups_refuted`.
* **C10** Left associative operators group to the left: partial. Refuted: after declaring c, d and e left associative (all accepted), parsing `c d e` panics; after declaring c left associative and z to precede c, `x c y` is read as `x`. Proved beyond that, for every list of three or more tokens, context, hash order and fuel: left associativity never works. If a weakest symbol is found left-associative and the list is read at all, there is one such symbol and it is dropped with all that follows it; the tree has fewer symbols than the list (debug builds for the latter). Lists of one or two tokens are read in full whatever the associativity.
  Theorems: `C10_left_associativity_refuted`, `C10_symbols_are_dropped_refuted`, `C10_left_associative_lists_are_cut`, `C10_left_associative_lists_lose_symbols`.
* **C11** Printed expressions parse back: partial. Refuted: `((a b) c) d` is displayed with another grouping; typed in again it can have another answer. Proved (debug builds, any number of words, every history and hash order): words that no precedence mentions and none of which is found left-associative, when what was read is displayed without brackets, are displayed as typed and read back with the same grouping.
  Theorems: `C11_display_does_not_parse_back_refuted`, `C11_answers_mean_something_else_refuted`, `C11_bracketless_displays_parse_back_partial`.
* **C12** Knowledge is append-only: proved. For every history, hash order and both build modes.
  Theorems: `C12_contexts_are_reachable`, `C12_knowledge_is_append_only`, `C12_variables_stay_variables`, `C12_concepts_keep_their_numbers`.
* **C13** Reduction links agree in both directions: proved. For every history, hash order and both build modes.
  Theorems: `C13_reductions_are_listed`.
* **C14** Only concepts that reduce to it are listed: partial. Refuted: `let a -> _x_`, `let a -> b` leaves a listed at the old variable. Proved for every history in which no command gives a reduction to a concept that has one, every hash order and both builds: what is listed really reduces.
  Theorems: `C14_listed_reductions_refuted`, `C14_listed_reductions_are_real_partial`.
* **C15** Composition links agree in both directions: partial. Proved for histories in which no command replaces or removes a composition and (release builds only) composes an existing concept. The unrestricted statement fails: committing a composition update removes the wrong hand entries (zia/src/concepts/mod.rs).
  Theorems: `C15_composition_links_agree_partial`, `C15_composition_links_refuted`.
* **C16** Built-in concepts stay built in: partial. First half (same concepts, no reduction, no composition, nothing else becomes built in). The second half (still reachable under their own names) is false: `let foo := true` renames true. An implication can also make the evaluation of false go on to something else.
  Theorems: `C16_built_in_concepts_stay_built_in_partial`, `C16_builtin_names_refuted`, `C16_inferred_reduction_of_a_built_in_refuted`.
* **C17** Committing preserves meaning: partial. Refuted: when a command gives two concepts one name, which of them is found can differ before and after the commit. Proved: reductions, compositions, text, built-in type, normal forms, string lookups and labels: every command. Inverse labels: both lookups answer or neither does, what is found bears the name, and the answer is the same when one concept bears it.
  Theorems: `C17_readings_survive_the_commit`, `C17_normal_forms_survive_the_commit`, `C17_strings_and_built_ins_survive_the_commit`, `C17_labels_survive_the_commit`, `C17_names_survive_the_commit_partial`, `C17_shared_names_refuted`.
* **C18** Names denote one concept: partial. Refuted: `let (a b) := (c d)` gives the parts of `a b` names that are already in use. Proved: a concept carries at most one label (histories that replace or remove no composition); if also no command gives a reduction to a concept that has one, what a symbol denotes carries that symbol as its label and asking for the label gives it back. Every hash order and both builds.
  Theorems: `C18_two_concepts_share_a_name_refuted`, `C18_concepts_have_one_name_partial`, `C18_symbols_name_what_they_denote_partial`.
* **C19** A declared reduction takes effect and nothing else changes: partial. Refuted: `let (label_of (p q)) -> (label_of t)` names an existing concept. Proved for every history, hash order and build mode: a successful `let x -> y` makes x reduce to y and leaves every other existing concept's reduction, every composition, text and kind, and every name that does not go through x, unchanged; a failed one changes nothing.
  Theorems: `C19_declared_reduction_names_refuted`, `C19_declared_reduction_takes_effect_partial`.
* **C20** Forgetting a reduction takes effect and nothing else changes: partial. Refuted: `forget (label_of a)` takes away the name of a. Proved for every history, hash order and build mode: a successful `forget x` or `let x -> x` removes the reduction x had and leaves every other existing concept's reduction, every composition, text and kind, and every name that does not go through x, unchanged; with nothing to forget the answer is an error and nothing changes.
  Theorems: `C20_forgotten_name_refuted`, `C20_forget_takes_effect_partial`, `C20_let_self_takes_effect_partial`, `C20_nothing_to_forget_is_an_error`.
* **C21** Reductions never form a cycle: partial. Refuted: `let a -> _x_`, `let b -> a`, `let a -> b` makes a cycle. Proved for every history in which no command gives a reduction to a concept that has one, every hash order and both builds: no concept reduces to itself.
  Theorems: `C21_reductions_form_a_cycle_refuted`, `C21_no_cycle_of_first_reductions_partial`.
* **C22** Compositions are well founded: proved. For every history, hash order and both build modes.
  Theorems: `C22_no_concept_is_part_of_itself`.
* **C23** No command crashes the interpreter: partial. Refuted: eight commands that panic in a new context. Proved: cutting any command into lexemes never panics, after every history; badly bracketed commands never panic; after histories in which no command gives a reduction to a concept that has one, a number of steps is enough for every command to be cut into lexemes and every badly bracketed one to be answered with an error.
  Theorems: `C23_commands_crash_refuted`, `C23_more_commands_crash_refuted`, `C23_lexing_never_crashes_partial`, `C23_bad_brackets_never_crash_partial`, `C23_bad_brackets_are_answered_partial`.
* **C24** Every command terminates: partial. Refuted: after `let a -> _x_`, `let b -> a`, `let a -> b` the command `a` is not answered with any bound on the recursion; neither is it after `let ((a => b) -> true)`, `let ((b => a) -> true)`. Also proved: no word for a symbol in a circle of implications, or for one declared to reduce to such a symbol, is ever answered, also after other questions, and outcomes do not depend on the bound.
  Theorems: `C24_evaluation_never_ends_refuted`, `C24_outcomes_do_not_depend_on_the_bound`, `C24_larger_bounds_suffice_too`, `C24_circular_implications_refuted`, `C24_circular_implications_are_never_answered`, `C24_circular_implications_are_never_answered_later`.
* **C25** Queries do not change the meaning of existing concepts: partial. Refuted: after `let drop -> forget`, `drop a` removes a reduction. Proved: a command answered with something other than nothing or an error message leaves every existing concept's reduction, composition, text, kind and label unchanged (every history, hash order, build mode). So does every command read as a single symbol, whatever the answer.
  Theorems: `C25_query_forgets_refuted`, `C25_answered_query_keeps_meaning_partial`, `C25_symbols_change_nothing_partial`.
* **C26** Repeating a query repeats the answer: partial. Refuted: with the rule `let _x_ foo -> bar _x_` the query `new foo` is answered once and panics the second time. Proved: in every context, evaluating a tree again gives the same normal form and changes nothing, if no tree on the way is a variable or has the key of the one before; a remembered answer stays the answer whatever questions that record no change come in between.
  Theorems: `C26_repeated_query_refuted`, `C26_evaluation_repeats_partial`, `C26_remembered_answers_stay_partial`.
* **C27** Evaluation finds the declared reduction: partial. Refuted in general: an implication overrules a declared reduction. Proved for every evaluation: the answer is reached by reductions and does not reduce further; chains of declared reductions of any length are followed to their end when no implication is found for a link and no link is cached.
  Theorems: `C27_answers_are_reached_by_reductions`, `C27_declared_chains_are_followed_partial`, `C27_declared_reduction_overruled_refuted`.
* **C28** Nothing reduces to itself: partial. Refuted for commands: an implication can make false reduce further, and declared answers to questions come first; moreover words whose chains meet are compared by their distance from where they meet (C65). Proved for every state of the evaluator: x -> x without a concept of its own is false; the question rules answer true only along reductions.
  Theorems: `C28_nothing_reduces_to_itself_partial`, `C28_true_only_along_reductions_partial`, `C28_self_question_refuted`, `C28_declared_answer_refuted`.
* **C29** Greater-than comparison is consistent: partial. Refuted for commands: a > b and b > a can both be answered true, and a > a need not be false. Proved for every state of the evaluator: an expression is equal to itself; verdicts are opposite unless a question is answered differently in the two comparisons.
  Theorems: `C29_equal_to_itself_partial`, `C29_nothing_is_greater_than_itself_partial`, `C29_answers_follow_the_comparison_partial`, `C29_opposite_verdicts_partial`, `C29_self_comparison_refuted`, `C29_opposite_answers_refuted`.
* **C30** Rules apply only to instances of their pattern: partial. Refuted: on whole commands, `(((a b) c) d) same ((a b c) d)` matches `_x_ same _x_`: expressions count as the same when they have the same text and concept, and displays conflate distinct trees. Proved up to that: both matchers of the evaluator (check_generalisation against a pattern in the store, check_example against a pattern tree) find exactly the assignments under which the pattern becomes the expression, each variable standing for one expression; and every answer that is justified by a rule, from memory or not, after every history, in both builds, for every hash order and fuel, was given for an expression of this wording and concept that was such an instance in the store of that time, with pattern, assignment and result as claimed.
  Theorems: `C30_rules_on_commands_refuted`, `C30_patterns_match_only_instances`, `C30_instances_match`, `C30_rules_apply_to_instances_partial`, `C30_rules_apply_to_instances`, `C30_remembered_rules_applied`, `C30_matching_is_sound`, `C30_matching_is_complete`.
* **C31** Merging variable assignments is sound and complete: proved. 
  Theorems: `C31_merging_succeeds_exactly_on_agreement`, `C31_merging_gives_the_union`, `C31_merging_is_symmetric`, `C31_merging_masks_succeeds_exactly_on_agreement`, `C31_merging_masks_gives_the_union`, `C31_merging_masks_is_symmetric`.
* **C32** Variable masks layer properly: proved. 
  Theorems: `C32_innermost_binding_wins`, `C32_push_adds_a_new_innermost_layer`, `C32_dropping_restores`.
* **C33** Substitution replaces exactly the mapped parts: proved. 
  Theorems: `C33_substitution_replaces_outermost_mapped_parts`, `C33_substitution_without_mapped_parts_is_the_identity`.
* **C34** Free and bound variables of a pair are computed correctly: partial. Free variables exact; bound variables exact unless a variable occurs both free and bound across sibling expressions, where the exactness claim is refuted.
  Theorems: `C34_recorded_free_variables_are_exact`, `C34_recorded_bound_variables_are_exact_partial`, `C34_recorded_bound_variables_bracketed`, `C34_bound_variables_refuted`.
* **C35** Variables live for one command: partial. Proved for the variable leaves of the command's tree, for every command and history. Refuted for pairs: label_of _x_ is looked up through a lasting concept named _x_ that commands share. By C49 the variable symbols of the text are these leaves unless symbols are dropped.
  Theorems: `C35_one_concept_per_name_partial`, `C35_fresh_for_every_command_partial`, `C35_pairs_refuted`.
* **C36** Cached answers equal recomputed answers: partial. Refuted: a cached tree mentions an id that no longer exists after the commit; different expressions that are displayed alike share a cache entry. Proved, after every history, in both builds, for all hash orders and fuels: every entry was computed for its key by the evaluator, with caches filled in the same way, from a store with pending changes that make it the store of now, that is from the store as it is or as the last command with changes knew it before its commit; and if no command evaluates anything after its last change, from what the context knows.
  Theorems: `C36_stale_cache_refuted`, `C36_one_question_spoils_another_refuted`, `C36_cached_answers_were_computed_partial`, `C36_nothing_older_than_the_last_change`, `C36_nothing_older_than_the_changes`.
* **C37** Answers do not depend on hash order: partial. Refuted: with the rules `let (_x_ a) -> b` and `let (a _y_) -> c` the answer to `a a` depends on the iteration order of a hash set. Proved: under any two iteration orders, two answered queries, two accepted reductions between the same concepts and two accepted definitions of a symbol from the same concepts leave the same reductions, compositions, texts and kinds of existing concepts.
  Theorems: `C37_answers_depend_on_hash_order_refuted`, `C37_knowledge_after_a_query_partial`, `C37_knowledge_after_a_declaration_partial`, `C37_knowledge_after_a_definition_partial`.
* **C38** A new context starts consistent: partial. Proved in full for iteration in insertion order, both builds. For every order: the built-in concepts are created and named correctly, and the bootstrap commands, if they succeed, keep them. Missing: that the bootstrap commands succeed and keep the names for every order.
  Theorems: `C38_a_new_context_is_consistent_partial`, `C38_naming_succeeds_in_every_order_partial`, `C38_bootstrap_keeps_the_built_in_concepts_partial`.
* **C39** Clones are independent: partial. Refuted: a question put to a clone changes the answer of the original, because both write into one cache in which different expressions share a key. Proved: after any questions to any clones that record no change, everything in the shared cache was computed from what the original knows, and the answers the original remembered are still its answers.
  Theorems: `C39_clones_share_their_cache_refuted`, `C39_clones_leave_answers_partial`.
* **C40** Layered pending changes behave like one list of changes: proved. For every sequence of recorded changes that one layer accepts and every way of splitting it into layers. A stack also accepts some sequences that one layer refuses, see C40_stacks_accept_more.
  Theorems: `C40_layers_read_like_one_list_of_changes`, `C40_changes_are_read_bottom_up`.
* **C41** Definitions can be queried and relabelled: partial. Refuted: second half: redefining `a b` as `c d` moves names in use and leaves two concepts with one name. Proved of the first half, for every history, hash order and build mode: a successful `let n := l r` for a symbol n makes the concept read for n the composition of those read for l and r and changes nothing else; a failed one changes nothing. For words that are unknown or stand for something not composed (debug builds), the words lead to those concepts afterwards. Missing: words that stand for compositions already.
  Theorems: `C41_redefining_leaves_two_concepts_with_a_name_refuted`, `C41_definition_takes_effect_partial`, `C41_definitions_relate_what_the_words_name_partial`, `C41_written_definitions_relate_what_the_words_name_partial`.
* **C42** Release and debug builds agree: proved. For every order, command and state. A command on which an assertion does fail: C42_an_assertion_fails.
  Theorems: `C42_builds_agree`, `C42_sessions_agree`, `C42_starting_agrees`.
* **C43** A command executed through a reduction behaves like the command itself: partial. Refuted: `let a -> (let b -> c)`; `a` is answered with an error and nothing changes. Proved that it is always so (every history, hash order, build mode): a symbol whose normal form is a `let`, or a `forget` of a concept, is answered with an error and nothing changes.
  Theorems: `C43_indirect_commands_refuted`, `C43_indirect_commands_always_fail`.
* **C44** Failed commands leave existing meaning unchanged: partial. Refuted: `let foo := (c d)` can fail with an error after having renamed a concept. Proved: definitions of a symbol as a pair and declarations and removals of reductions that are answered with an error leave every existing concept's reduction, composition, text, kind and label unchanged.
  Theorems: `C44_failed_definition_renames_refuted`, `C44_failed_reduction_changes_nothing_partial`, `C44_failed_definition_of_a_symbol_changes_nothing_partial`.
* **C45** The web history alternates commands and results: proved. For every sequence of messages and of visitor actions.
  Theorems: `C45_submitting_appends_command_and_answer`, `C45_other_messages_keep_or_clear_the_history`, `C45_history_is_a_true_record`, `C45_visitors_see_a_true_record`.
* **C46** The tutorial never runs off its end: partial. Refuted: a command with an empty answer on the last step makes the page look up a step that does not exist. Proved: this is the only way.
  Theorems: `C46_only_the_last_step_can_break_the_page_partial`, `C46_drawing_needs_a_step_partial`, `C46_next_button_leads_to_a_step_partial`, `C46_tutorial_runs_off_its_end_refuted`.
* **C47** Starting an empty session starts from nothing: partial. Refuted for the tutorial and the input, which stay. Proved for context, history and menu.
  Theorems: `C47_empty_session_clears_knowledge_partial`, `C47_empty_session_keeps_the_tutorial_refuted`.
* **C48** Existence is claimed only with a witness: partial. Refuted: in a new context `(_x_ exists_such_that) _x_ c` is answered true although no known name makes it true. Proved for every state of the evaluator: the rule claims existence only if some concept listed as reducing to true fits the pattern (free variables recorded in rules count as examples); for `_x_ p` and `p _x_` exactly when a pair with p or with a free variable in its place is listed.
  Theorems: `C48_existence_without_a_witness_refuted`, `C48_existence_goes_by_an_example_partial`, `C48_one_sided_claims_are_exact_partial`, `C48_known_examples_are_found_partial`.
* **C49** Reading a command keeps its symbols: proved. Debug builds; release builds whenever the debug build does not stop at an assertion.
  Theorems: `C49_parsing_keeps_symbols_in_order`, `C49_release_builds_keep_symbols_in_order`.
* **C50** Symbols that bind weakest split an expression: proved. Debug builds, every successful run. The ranking is compared with the answers given on the way.
  Theorems: `C50_weakest_symbols_split`, `C50_ranks_determine_the_grouping`.
* **C51** Chains of an operator group to the right: partial. Refuted: `a plus b plus c` is read as `(a ((plus b) (plus c)))`. Proved: whenever the grouping is by rank this is how such a chain is read.
  Theorems: `C51_chained_operators_refuted`, `C51_chains_are_split`.
* **C52** The last word about a concept counts: proved. Every hash order and both builds; the changes made by the commands are links_safe (no composition replaced; in release builds none given to an existing concept). Refused commands are included.
  Theorems: `C52_last_word_counts`, `C52_declarations_last`, `C52_forgetting_undoes`, `C52_order_does_not_matter`.
* **C53** A declaration about an expression concerns that expression: partial. Refuted: after a concept has been renamed to an expression its name contains a space and is taken for the expression: `let ((x y) (-> z))` is accepted but `x y` is still answered `x y`. Proved whenever no text contains a space: for all expressions, nested to any depth, with known and new symbols.
  Theorems: `C53_expression_declared_refuted`, `C53_expression_declared_partial`.
* **C54** The shell answers every line once and in order: proved. The terminal is modelled as a list of results of read_line; failures of the terminal itself are left out.
  Theorems: `C54_lines_are_answered_in_order`, `C54_exits_after_answering`, `C54_crashes_where_a_command_does`.
* **C55** Mistyped lines and spacing do not disturb a session: proved. For sessions the model answers within its fuel; every hash order, both builds.
  Theorems: `C55_mistakes_do_not_disturb`.
* **C56** Asking for a name gives the name: proved. The second theorem covers every history: the answer is what the label lookup gives after the command.
  Theorems: `C56_names_are_answered`, `C56_names_are_looked_up`.
* **C57** An implication is used only when it holds and its condition is true: partial. Refuted: after `let ((a => b) -> false)` and `let (a -> true)`, `b` is answered true because of `a => b`, which is answered false. Proved, when nothing but variables is pending: a reduction put down to an implication comes from a rule cond => (t -> r) that is known to be true, or from a pair cond => k in the store, and in both cases the condition evaluates to true.
  Theorems: `C57_false_implication_used_refuted`, `C57_conditions_are_true_partial`, `C57_steps_by_implication_partial`.
* **C58** Symbols are answered with the end of their chain of reductions: proved. Every history in which no composition is replaced or removed, every hash order, fuel and both builds. Symbols are elementary, named and such that no implication or variable can match them; only the last of a chain may be built in. In the second theorem the symbols may also be conclusions of implications none of whose conditions is declared true or follows from something true: they change no answer.
  Theorems: `C58_chains_are_followed`, `C58_chains_are_followed_beside_implications`.
* **C59** Declarations relate what their words name: proved. Debug builds. The command must be read as the built-in let and ->, and neither word as a variable; the second theorem says of the text and of the store when it is: let and -> have their built-in meaning only, and nothing is composed of -> and what w2 stands for.
  Theorems: `C59_declarations_relate_what_the_words_name`, `C59_written_declarations_relate_what_the_words_name`.
* **C60** The words of a question are names afterwards: proved. Debug builds.
  Theorems: `C60_words_of_questions_are_names`.
* **C61** Wandering about the site does not disturb the session: proved. The browser and the seed framework are modelled by the messages they send; drawing is modelled as far as it depends on the state.
  Theorems: `C61_addresses_of_the_home_page`, `C61_other_addresses_are_not_found`, `C61_addresses_and_the_page_are_independent`, `C61_a_visit_to_the_site_is_a_visit_to_the_page`, `C61_wandering_visitors_see_a_true_record`, `C61_the_logo_leads_home_and_turns_the_menu_over`.
* **C62** Bracketed commands are read as they are written: proved. First part: every context; for release builds when the debug build does not stop at an assertion. Second part: debug builds, histories in which no composition is replaced or removed.
  Theorems: `C62_bracketed_commands_are_read_as_written`, `C62_release_builds_read_bracketed_commands_as_written`, `C62_unjoined_words_stay_apart`.
* **C63** A new interpreter keeps notes faithfully: proved. Debug builds; release builds answer alike as long as the debug build does not stop at an assertion (C63_release_builds_take_notes). The first theorem is for any context in the state of a notebook (no implication can say anything about a reduction, the words name elementary symbols which reduce as the notes say), the last for the context that Context::new gives; that the store then has exactly the reductions that were declared and not forgotten is C63_notes_are_kept. Declarations are written with brackets, sequences and questions with or without them (see C68). Yes/no questions in between need a little more of the context (inquiry), which a new interpreter has; they are answered as described for C65, sequences as for C66 and other expressions as for C67. That the answers are determined is for sessions without the last kind.
  Theorems: `C63_notes_are_answered`, `C63_notes_are_kept`, `C63_answers_are_determined`, `C63_new_interpreters_take_notes`, `C63_release_builds_take_notes`.
* **C64** The slides are printed after the documented commands: proved. The text of the slides is a parameter. Lines are as in a documentation comment: nothing but the margin, or the margin and a line of code without another margin in it.
  Theorems: `C64_commands_of_the_example`, `C64_slides_after_the_commands`, `C64_no_example`.
* **C65** Whether one word reduces to another is answered from what was declared: partial. Refuted: after `let (tom (-> cat))`, `let (cat (-> animal))` and `let (dog (-> animal))`, `tom (-> dog)` is answered true: if neither word is on the chain of the other, both are reduced by one step and the question is asked again. Proved for all sessions in which the chains of the two words end alike (and not with let, forget or label_of): the answer is true if w becomes v, false if they are the same or v becomes w, and in every case true exactly if w is further away from the end than v. If the chains end differently then the answer is neither true nor false but the question about the two ends, `z -> z'` (proved for ends that are not words of the language other than assoc). So all such questions are settled, with or without brackets, by how far the words are from which ends (C65_questions_are_settled).
  Theorems: `C65_undeclared_reductions_are_confirmed_refuted`, `C65_declared_reductions_are_confirmed_partial`, `C65_other_questions_stay`, `C65_questions_are_settled`.
* **C66** Sequences of words are evaluated word by word: proved. Debug builds. The first theorem is for any context in the state of a notebook in which nothing is composed of two of the words and no expression with variables is about one (phrasing), with nothing remembered; the second for whole sessions with a new interpreter, with whatever earlier lines left in memory, if no other expressions were evaluated (see C67).
  Theorems: `C66_sequences_are_evaluated_word_by_word`, `C66_sequences_in_sessions`.
* **C67** Expressions made of words keep their brackets: partial. Refuted: after `let (tom (-> cat))`, `tom (((tom tom) tom) tom)` is answered `cat (cat cat) cat cat`, but `cat cat cat cat cat` if `(tom (tom tom)) tom` was asked before; and `tom ((tom tom) tom)` and `tom (tom (tom tom))` are both answered `cat cat cat cat`. The text of a pair leaves out brackets of its halves, and answers are remembered by the text. Proved for all sessions and expressions: apart from brackets, the answer has the right words in the right order, and nothing is changed.
  Theorems: `C67_brackets_depend_on_earlier_questions_refuted`, `C67_groupings_are_lost_refuted`, `C67_the_words_of_expressions_partial`, `C67_the_words_in_sessions_partial`.
* **C68** Brackets may be left out: proved. Debug builds. The first two theorems are for any context in the state of a notebook in which it is known how strongly `->` binds and nothing of that kind is known of words that are not words of the language (unbracketed), with nothing remembered; the third for whole sessions with a new interpreter. Declarations `let w -> v` without brackets are not covered. For expressions in which some brackets are left out see C69.
  Theorems: `C68_sequences_need_no_brackets`, `C68_questions_need_no_brackets`, `C68_brackets_make_no_difference`.
* **C69** A word in each group is enough to leave brackets out: proved. Debug builds. The first theorem is for any context in the state of a notebook in which nothing is known of how strongly the words bind (unbracketed), with nothing remembered; the second for whole sessions with a new interpreter. That the brackets of the answer may be any is not a gap of the proof: see C67.
  Theorems: `C69_words_tell_groups_apart`, `C69_words_tell_groups_apart_in_sessions`, `C69_answered_or_refused`, `C69_extremes_are_answered`.
* **C70** Declarations are refused for two reasons only: proved. Debug builds, for commands that the model finishes without a panic. C70_declarations_are_judged, C70_nothing_to_forget and C70_declarations_are_forgotten are for any context in the state of a notebook with nothing remembered, the others for whole sessions with a new interpreter; that refusals leave no trace in the answers is for sessions without expressions other than sequences, whose brackets depend on what was asked before (C67).
  Theorems: `C70_declarations_are_judged`, `C70_nothing_to_forget`, `C70_objections_in_sessions`, `C70_accepted_in_sessions`, `C70_accepted_or_refused`, `C70_objections_leave_no_trace`, `C70_declarations_are_forgotten`, `C70_two_ways_to_forget`.
* **C71** Words keep their names whatever they are declared to mean: proved. Debug builds, for commands that the model finishes without a panic. C71_words_keep_their_names is for any context in the state of a notebook with nothing remembered, the others for whole sessions with a new interpreter; that asking leaves no trace in the answers is for sessions without expressions other than sequences, whose brackets depend on what was asked before (C67).
  Theorems: `C71_words_keep_their_names`, `C71_names_in_sessions`, `C71_names_are_not_confused`, `C71_asking_for_names_leaves_no_trace`.
* **C72** Only what is declared counts, not how it came about: proved. Debug builds, for commands that the model finishes without a panic. For sessions without expressions other than sequences, whose brackets depend on what was asked before (C67).
  Theorems: `C72_only_what_is_declared_counts`, `C72_order_does_not_matter`, `C72_asking_leaves_no_trace`.
* **C73** It does not matter which words are used: proved. Debug builds, for commands that the model finishes without a panic. In sessions without expressions other than sequences the answers are renamed literally; in others the answers to expressions apart from brackets, which depend on what was asked before (C67).
  Theorems: `C73_words_are_interchangeable`.
* **C74** Conversations about different words do not interfere: proved. Debug builds, for commands that the model finishes without a panic. For sessions without expressions other than sequences, whose brackets depend on what was asked before (C67).
  Theorems: `C74_conversations_do_not_interfere`.
* **C75** The same question in other words has the same answer: proved. Debug builds, for commands that the model finishes without a panic. The first theorem is for sessions without expressions other than sequences, whose brackets depend on what was asked before (C67). Questions whether one word reduces to another with the same end are not meant: their answer depends on the distance of the two words (C65). The third theorem is about single words as in C58, next to implications, in both builds.
  Theorems: `C75_paraphrases_have_the_same_answer`, `C75_up_to_brackets`, `C75_other_words_beside_implications`.
* **C76** Answers are answered with themselves: proved. Debug builds, for commands that the model finishes without a panic. For sessions without expressions other than sequences, whose brackets depend on what was asked before (C67). The second theorem is about single words as in C58, within one session, next to implications, in both builds.
  Theorems: `C76_answers_are_answered_with_themselves`, `C76_answers_are_answered_with_themselves_beside_implications`.
* **C77** Reductions never lead back to the concept: partial. Refuted: `let a -> (b c)` and `let b -> a` are both accepted; then `b` reduces to `a`, which reduces to an expression containing `b`, and the question `b` uses up the steps that are enough for others. The direct loop `let a -> (a c)` is refused (Example).
  Theorems: `C77_reductions_lead_back_refuted`.
* **C78** Refused declarations have no effect on later answers: partial. Refuted: after `let (c e) -> f` the question `a c e` is answered with `a f`, but it panics if `let (a c e) -> g` is refused before. Proved for sessions of notes about words (debug builds, commands that the model finishes): a refused declaration or a withdrawal of nothing can be left out and all other answers are the same.
  Theorems: `C78_refused_declarations_have_effects_refuted`, `C78_refused_notes_have_no_effect_partial`.
* **C79** What was declared is confirmed: partial. Refuted: after `let a := b d` and `let c -> (b d)` the question `c -> (b d)` is answered with `a -> b d`. Proved for sessions of notes about words (debug builds, commands that the model finishes): what was declared and not withdrawn since is confirmed, whatever comes in between.
  Theorems: `C79_declarations_are_not_confirmed_refuted`, `C79_words_are_confirmed_partial`.
* **C80** What follows from something true is true: partial. Refuted: after `let ((a => b) -> true)`, `let (a -> c)` and `let (c -> true)`, `a` and `a => b` are answered true but `b` is not. Proved right after a change to the store and any number of questions about symbols evaluated by following declarations, for every history in which no composition is replaced or removed, every hash order and both builds: a symbol that follows, by any number of implications, from a symbol declared to be true is answered true if it is answered. The other conditions may be any symbols evaluated by following declarations, or conclusions that follow or do not. So is a symbol whose declared reductions lead to one that follows.
  Theorems: `C80_conclusions_are_missed_refuted`, `C80_conclusions_are_true_partial`, `C80_conclusions_are_true_later_partial`.
* **C81** The order of questions does not matter: proved. For any two sessions of such questions, with different hash orders and bounds, about symbols as in C58, as long as `=>` and `->` are not renamed to variables. Histories that replace or remove no composition.
  Theorems: `C81_order_of_questions_does_not_matter`.

## 6. Findings about the code

Each was found by executing the model or while failing to prove a property; those with a property id
have a `_refuted` theorem.  None was reproduced by running the program, which is not possible here.

Parsing and printing
* C09: `(a b) (c d) (e f)` with fresh symbols is rejected as ambiguous, though three fresh symbols are not.
* C10: declaring symbols left associative makes `c d e` panic.  In the left-associative branch of
  `associativity_try_fold_handler` a slice of length two combines the edge with itself, and the edge test
  compares a position in the whole list with one in the slice.  A single left-associative symbol that binds
  weakest is dropped with everything to its right.
* C51: `a p b p c` is read as `(a ((p b) (p c)))` when p has a precedence: `a -> b -> c` is read in this way.
* C53: `let ((a b) (-> q))`, `let ((a b) (:= ((x y) d)))` names `a` "x y"; `let ((x y) (-> z))` is then taken to be
  about `a` and `x y` is still answered `x y`.
* C11: `a (d e) f` is answered `a d e f`; `((a b) c) d` is displayed with another grouping.
* C04: a symbol that is in use can be reported as new.
* `)` alone is reported as empty parentheses.

Store
* C14: `let a -> _x_`, `let a -> b` leaves `a` listed at the old variable.  C21: with `let b -> a` before
  the last command this makes a cycle, and (C24) evaluating `a` never ends.
* C15: committing the replacement of a composition removes the wrong keys from the links.
* C16: built-in names can be moved to other concepts (`let drop := forget`); implications reduce built-in
  concepts: `let (z => (false -> q)) -> true`, `let z -> true` makes `false` answer `q`.
* C18, C41: two concepts can carry one name.  `forget (label_of a)` removes a name.  `label` creates a
  second string concept when the string is committed only.
* Reading a concept with a pending change of its composition panics.
* `update_reduction` records the normal form of the new reduction as the one being replaced.
* Stacked layers accept changes to concepts that a lower layer removed.

Commands
* C19, C20: declaring a reduction can change names: `let s -> (p q)` and then
  `let (label_of (p q)) -> (label_of t)` names the existing `p q` "t".
* C23: `let b b -> c`, `let a := b b`, `let true -> false` and others panic;
  `(_x_ exists_such_that) foo` panics in debug builds and answers `true` in release builds.
* C25: after `let drop -> forget`, `drop a` removes a reduction.  C43: `let a -> (let b -> c)`, `a` is
  answered with an error.  `let (please -> let)`, `please (a -> b)` does nothing.
* C44: failing commands rename and create concepts: a failed `let foo := (c d)` renames `p` to `c`.
* `let a := a` is answered with RedundantCompositionRemoval; `let (x y) := (p q)` is silently accepted.

Evaluation
* C26, C36, C39: answers in the cache mention concepts that the commit renumbers; different
  expressions that are displayed alike share a cache key; clones share the cache.
* C27-C29: a declared answer to a question overrules what the store says; `let ((assoc ->) -> left)`
  makes `a -> a` answer `a`; `let arrow := ->` leaves `a -> a` unanswered; both `a > b` and `b > a` can be
  answered true; `let (_x_ > _y_) -> true` makes `a > b` answer false.
* C30: rules apply to expressions that are only displayed like an instance.
* C35: equal pairs with variables are shared between commands; variables get persistent names.
* C37: the hash order decides between overlapping rules.
* C48: a new context answers true for the existence of `_x_` with `_x_ c`.
* Comparing reasons for equality reaches `todo!()` in two cases.

Page
* C46: the tutorial index can leave the tutorial.  C47: starting an empty session leaves it active.

## 7. Testing the theorems against wrong programs

`seeded/LOG.jsonl` has one line per experiment: the edited definition, the edit, the claim it breaks and
the theorems that failed.  Each experiment is run in a scratch copy outside `/verif`.
