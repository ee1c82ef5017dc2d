-Q theories Verif
theories/PyStr.v
theories/Printer.v
theories/Types.v
theories/Conversions.v
theories/Inference.v
theories/Floats.v
theories/UniText.v
theories/Lexer.v
theories/TypeParser.v
theories/StrFacts.v
theories/LexFacts.v
theories/TypeFacts.v
theories/TypeRoundTrip.v
theories/TypeObjects.v
theories/PropertiesTypes.v
theories/ConversionFacts.v
theories/PropertiesConversions.v
theories/PrinterFacts.v
theories/InferenceFacts.v
theories/PropertiesPrinter.v
theories/Functions.v
theories/Ast.v
theories/Sql.v
theories/Walk.v
theories/Parser.v
theories/FunctionFacts.v
theories/PropertiesFunctions.v
theories/Tokens.v
theories/ReadsFacts.v
theories/SqlReads.v
theories/PropertiesReads.v
theories/ParseBase.v
theories/ParseParts.v
theories/ParseExpr.v
theories/ParsePrim.v
theories/ParseForms.v
theories/ParseRel.v
theories/ParseQuery.v
theories/Good.v
theories/Unvar.v
theories/ParseMain.v
theories/ParseWhole.v
theories/GoodFacts.v
theories/TextFacts.v
theories/PropertiesLiterals.v
theories/SmallTrees.v
theories/PropertiesRoundTrip.v
theories/ClauseFacts.v
theories/JoinTrees.v
theories/PropertiesClauses.v
theories/NodeFacts.v
theories/PropertiesLambda.v
theories/PropertiesSets.v
theories/Schema.v
theories/PropertiesResolve.v
theories/PropertiesMerge.v
theories/Equals.v
theories/PropertiesEquals.v
theories/PropertiesTyping.v
theories/PropertiesScope.v
theories/PropertiesSetReading.v
theories/PropertiesLost.v
theories/ColumnTypes.v
theories/Cli.v
theories/PropertiesCli.v
theories/Visit.v
theories/PropertiesVisit.v
theories/Spelling.v
theories/SpellFacts.v
theories/GapFacts.v
theories/PropertiesSpelling.v
theories/PropertiesParts.v
theories/ShowFacts.v
theories/Tree.v
theories/TreeFacts.v
theories/PropertiesTree.v
theories/ReadTokens.v
theories/ReadTypes.v
theories/ReadShape.v
theories/FloatFacts.v
theories/FloatNear.v
theories/ReadVisit.v
theories/ReadSound.v
theories/PropertiesReader.v
theories/Grammar.v
theories/ParseNone.v
theories/ParseJson.v
theories/ParseMore.v
theories/ParseMoreQ.v
theories/GrammarFacts.v
theories/PropertiesGrammar.v
theories/PropertiesNothing.v
theories/PropertiesOperand.v
theories/Typing.v
theories/PropertiesRules.v
theories/Accepts.v
theories/AcceptFacts.v
theories/AcceptExpr.v
theories/AcceptCalls.v
theories/AcceptPrim.v
theories/AcceptQuery.v
theories/PropertiesAccepts.v
theories/UniFacts.v
theories/PropertiesUnicode.v
theories/PropertiesDoubles.v
theories/PropertiesSkim.v
theories/TreeShows.v
theories/PropertiesTreeShows.v
theories/Parens.v
theories/PropertiesParens.v
theories/PyOps.v
theories/PropertiesPyOps.v
theories/PropertiesRelEq.v
theories/Atoms.v
theories/PropertiesAtoms.v
theories/Visitor.v
theories/PropertiesVisitor.v
theories/TableState.v
theories/PropertiesTableState.v
theories/PropertiesQuoted.v
theories/PropertiesKept.v
theories/PropertiesLines.v
theories/Size.v
theories/PropertiesSize.v
theories/PropertiesComplete.v
theories/PropertiesTypeErrors.v
theories/PropertiesTypeFails.v
