-Q theories Verif
theories/Base.v
theories/Text.v
theories/Ids.v
theories/Lexer.v
theories/LexerSpec.v
theories/LexerFacts.v
theories/MapFacts.v
theories/Nester.v
theories/NesterSpec.v
theories/NesterFacts.v
theories/PropertiesLex.v
theories/Ast.v
theories/AstSpec.v
theories/AstFacts.v
theories/PropertiesAst.v
theories/Concepts.v
theories/Delta.v
theories/Snapshot.v
theories/StoreSpec.v
theories/StoreFacts.v
theories/StoreInv.v
theories/LayerFacts.v
theories/PropertiesLayers.v
theories/Reason.v
theories/Search.v
theories/Updater.v
theories/Parser.v
theories/Context.v
theories/Fuel.v
theories/Build.v
theories/RangeFacts.v
theories/History.v
theories/Sim.v
theories/SimRead.v
theories/Steps.v
theories/Keep.v
theories/Quiet.v
theories/Links.v
theories/Meaning.v
theories/StoreLaws.v
theories/Pending.v
theories/Start.v
theories/Sample.v
theories/PropertiesStore.v
theories/Witness.v
theories/PropertiesRefuted.v
theories/Clones.v
theories/PropertiesCache.v
theories/PropertiesBuild.v
theories/PropertiesExists.v
theories/PropertiesOrder.v
theories/CommandSpec.v
theories/CommandFacts.v
theories/CommandRun.v
theories/NameSpec.v
theories/Names.v
theories/NameWitness.v
theories/PropertiesCommand.v
theories/FrameSpec.v
theories/Frames.v
theories/PropertiesFrames.v
theories/SearchPlain.v
theories/Reductions.v
theories/Declare.v
theories/PropertiesReductions.v
theories/Define.v
theories/PropertiesDefine.v
theories/PropertiesOrderless.v
theories/Acyclic.v
theories/PropertiesCycles.v
theories/OneName.v
theories/PropertiesNames.v
theories/NoCrash.v
theories/PropertiesNoCrash.v
theories/Diverge.v
theories/PropertiesRun.v
theories/Replay.v
theories/SearchReplay.v
theories/Tutorials.v
theories/WebUi.v
theories/WebFacts.v
theories/PropertiesWeb.v
theories/Site.v
theories/SiteFacts.v
theories/PropertiesSite.v
theories/TutorialReplay.v
theories/Variables.v
theories/PropertiesVariables.v
theories/Questions.v
theories/Chains.v
theories/PropertiesQuestions.v
theories/SearchKeeps.v
theories/Rules.v
theories/PropertiesRules.v
theories/Grouping.v
theories/PropertiesGrouping.v
theories/Displays.v
theories/PropertiesDisplays.v
theories/PropertiesStart.v
theories/SearchCaches.v
theories/Repeat.v
theories/Earned.v
theories/CacheRun.v
theories/CacheLife.v
theories/Uses.v
theories/PropertiesUses.v
theories/Moments.v
theories/PropertiesMoments.v
theories/PropertiesRepeat.v
theories/Keeping.v
theories/Cutting.v
theories/PropertiesKeeping.v
theories/Precedence.v
theories/PropertiesPrecedence.v
theories/Expressions.v
theories/Sequences.v
theories/PropertiesSequences.v
theories/Shell.v
theories/PropertiesShell.v
theories/PropertiesTies.v
theories/Indirect.v
theories/PropertiesIndirect.v
theories/Existence.v
theories/PropertiesExistence.v
theories/Asking.v
theories/PropertiesAsking.v
theories/Wide.v
theories/Matches.v
theories/Implications.v
theories/PropertiesImplications.v
theories/Shapes.v
theories/Unruled.v
theories/Answers.v
theories/Clean.v
theories/Replies.v
theories/PropertiesAnswers.v
theories/Naming.v
theories/Words.v
theories/Said.v
theories/OwnTrees.v
theories/Follow.v
theories/Settled.v
theories/Spoken.v
theories/WideNames.v
theories/OwnKinds.v
theories/Spelled.v
theories/Uttered.v
theories/PropertiesWords.v
theories/PropertiesUttered.v
theories/Added.v
theories/Told.v
theories/Forgot.v
theories/Keyed.v
theories/Flat.v
theories/Outlines.v
theories/Checks.v
theories/Phrases.v
theories/Groups.v
theories/Objections.v
theories/Notebook.v
theories/Notes.v
theories/PropertiesNotebook.v
theories/PropertiesChecks.v
theories/PropertiesPhrases.v
theories/PropertiesGroups.v
theories/PropertiesFlat.v
theories/PropertiesOutlines.v
theories/PropertiesObjections.v
theories/PropertiesLabels.v
theories/PropertiesPast.v
theories/PropertiesRenaming.v
theories/PropertiesApart.v
theories/PropertiesSynonyms.v
theories/PropertiesEffects.v
theories/Slides.v
theories/PropertiesSlides.v
theories/Circular.v
theories/PropertiesCircular.v
theories/Concluded.v
theories/PropertiesConcluded.v
theories/Undecided.v
theories/PropertiesUndecided.v
theories/PropertiesUnordered.v
